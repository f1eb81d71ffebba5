(** Lemmas for C11, C47 and C48. *)
From Coq Require Import String ZArith List Bool Lia ZifyBool Permutation.
From Verif Require Import M_Base M_Config M_SizeClass M_Libdivide M_OS M_Random M_Slab M_Region M_Api M_Hist S_SizeClass S_Slab S_Heap S_Class
  P_Base P_Count P_SizeClass P_SizeClass2 P_Libdivide P_Random P_Bitmap P_Bitmap2 P_OS P_Links P_Slab1 P_Slab2 P_Slab3 P_Slab4 P_Slab5 P_Slab6 P_Slab7 P_Slab8 P_Slab9 P_Slab11 P_Path P_Quar
  P_Region P_Heap1 P_Heap2 P_Heap3 P_Heap4 P_Heap5 P_Heap6 P_Heap7 P_Heap8 P_Heap9 P_Heap10 P_Heap11 P_Init P_Api0 P_Api1 P_Api2 P_Api3 P_Api4 P_Api5 P_Api6 P_Api7 P_Api8 P_Api9.
Import ListNotations.
Open Scope Z_scope.
Ltac Zify.zify_post_hook ::= idtac.

(** ** C48 *)
Lemma small_region s p : in_small_area s p <-> in_slab_region p s = true.
Proof. unfold in_small_area, in_slab_region. lia. Qed.
Lemma realloc_zero g n : word n -> max_slab_size_class g < adjust_size_for_canary g n -> get_large_size_class g (adjust_size_for_canary g n) = 0 -> exists r, rounds_to g n r /\ 2 ^ 64 <= r.
Proof.
  intros Hn L Z0. unfold word in Hn. pose proof (max_ge g). destruct (adjust_spec g n Hn) as (A1 & _ & _). pose proof (adjust_padded g n Hn) as E.
  rewrite E in *. unfold rounds_to. replace (padded g n <=? max_slab_size_class g) with false by lia. destruct (large_rounding g (padded g n) ltac:(lia)) as (t & R & Et). rewrite Et in Z0.
  exists t. split; [exact R|]. destruct (Z.ltb_spec t (2 ^ 64)); [|lia]. destruct R as (_ & R & _). lia.
Qed.
Lemma C48_large_l g W o t s p n tid : usable_config g = true -> history g W o t s -> word p -> word n -> p <> 0 -> ~ is_live t p -> ~ in_small_area s p ->
  (exists m, run (op_run g tid (ORealloc p n)) s = Fail (Fatal m)) \/ (exists r, rounds_to g n r /\ 2 ^ 64 <= r).
Proof.
  intros U H Wp Wn P0 NL NS. destruct (history_linv _ _ _ _ _ U H) as (LL & LI). pose proof (dead_nonblock _ _ _ _ _ LI NL) as NB. pose proof (li_ready _ _ _ _ LI) as R.
  assert (wp (run (h_realloc g tid p n)) s (fun r s' => exists r, rounds_to g n r /\ 2 ^ 64 <= r) (fun f => exists m, f = Fatal m)) as X.
  { unfold h_realloc. replace (p =? 0) with false by lia. set (size := if max_slab_size_class g <? adjust_size_for_canary g n then get_large_size_class g (adjust_size_for_canary g n) else adjust_size_for_canary g n).
    destruct ((max_slab_size_class g <? adjust_size_for_canary g n) && (size =? 0)) eqn:Q.
    - apply wp_run_pbind. unfold set_errno_to. apply wp_run_act. unfold on_os. apply wp_zoom, wp_modify, wp_run_ret. unfold size in Q. apply andb_prop in Q. destruct Q as [Q1 Q2]. rewrite Q1 in Q2.
      apply realloc_zero; [auto|lia|lia].
    - clearbody size. assert (in_slab_region p s = false) as L. { destruct (in_slab_region p s) eqn:L; [|auto]. elim NS. apply small_region. auto. }
      apply wp_run_pbind, wp_run_act, wp_get. rewrite L. apply wp_run_pbind, wp_run_act. unfold enforce_init. apply wp_bind, wp_get. destruct (is_init s) eqn:Ei; [|apply wp_fail; eexists; reflexivity].
      apply wp_ret. pose proof (ready_hinv _ _ _ R Ei) as HI. pose proof HI as [I O S A C SC]. apply wp_run_pbind, wp_run_act. unfold on_ra. apply wp_zoom. unfold realloc_find. apply wp_bind.
      eapply find_wp; [rewrite ra_put_get; exact I| |].
      + intros i sz gd Hin _ _ _. exfalso. unfold rl_all in Hin. rewrite O, app_nil_r in Hin. apply (NB sz). right. exists gd. exact Hin.
      + intros _. apply wp_bind, wp_gets, wp_fail. eexists. reflexivity. }
  unfold wp in X. cbn [op_run]. destruct (run (h_realloc g tid p n) s) as [[r s']|f] eqn:E; [right; exact X|]. left. destruct X as (m & ->). exists m. eapply run_pmap_dead. exact E.
Qed.
Lemma mem_copy_any d q n o (Q : unit -> os -> Prop) (E : fault -> Prop) : (pages_all is_rw o d n = true \/ n <= 0 -> Q tt (copied_os d q n o)) -> E Segv -> wp (mem_copy d q n) o Q E.
Proof.
  intros HQ HE. unfold mem_copy. apply wp_bind, wp_get. destruct ((n <=? 0) || _) eqn:B; [apply wp_put; apply HQ; apply orb_prop in B; destruct B as [B|B]; [right; lia|left; apply andb_prop in B; apply B]|apply wp_fail; exact HE].
Qed.
(** a pointer into the small area that is no block is not moved *)
Lemma realloc_dead g tid s LL p n : hinv g s LL -> ra_leftover (st_ra s) = false -> word p -> word n -> nonblock g s LL p -> in_slab_region p s = true ->
  wp (run (h_realloc g tid p n)) s (fun r s' => r = None \/ r = Some p /\ s' = s) (fun _ => True).
Proof.
  intros HI Le Wp Wn NB L. unfold word in *. pose proof HI as [I O S A C SC]. pose proof (max_slab_bounds g) as MB. pose proof (canary_le g) as CB. destruct (adjust_spec g n Wn) as (A1 & A2 & A3).
  assert (p <> 0) as P0. { intros ->. destruct (addr_class g s (gi_u _ _ _ _ I) (gi_pl _ _ _ _ I) 0 L) as (a & k & E & Ck & X). pose proof (gi_pl _ _ _ _ I) as []. unfold in_slab_region in L. lia. }
  unfold h_realloc. replace (p =? 0) with false by lia. set (v := adjust_size_for_canary g n) in *.
  set (size := if max_slab_size_class g <? v then get_large_size_class g v else v).
  destruct (large_any g v A1) as (G1 & G2 & G3).
  destruct ((max_slab_size_class g <? v) && (size =? 0)) eqn:Q0.
  { apply wp_run_pbind. unfold set_errno_to. apply wp_run_act. unfold on_os. apply wp_zoom, wp_modify, wp_run_ret. auto. }
  assert (0 <= size < 2 ^ 64) as Hsz by (unfold size; destruct (max_slab_size_class g <? v); lia). clearbody size.
  apply wp_run_pbind, wp_run_act, wp_get. rewrite L. unfold slab_usable_size. destruct (addr_class g s (gi_u _ _ _ _ I) (gi_pl _ _ _ _ I) p L) as (a & k & E & Ck & _). rewrite E. cbn [snd].
  destruct ((size <=? max_slab_size_class g) && (si_size (get_size_info size) =? class_size g k)) eqn:Q2; [apply wp_run_ret; auto|].
  assert (forall A (pr : prog state A) s0 (Q : A -> state -> Prop) E0, wp (run pr) s0 Q E0 -> pst pr -> wp (run pr) s0 (fun r s' => Q r s' /\ sited s0 s') (fun _ => True)) as AND.
  { intros A0 pr s0 Q E0 H1 H2. specialize (H2 s0). unfold wp in *. destruct (run pr s0) as [[r s']|]; auto. }
  unfold realloc_copy. apply wp_run_pbind. eapply wp_mono; [apply (AND _ _ _ _ _ (init_call_wp g tid s LL (or_introl HI)) (pst_init g tid))| |auto]. intros arena s1 ((Ha & IN) & S1). pose proof IN as [i1 i2 i3 i4 i5 i7 i6].
  apply wp_run_pbind. eapply wp_mono; [apply (AND _ _ _ _ _ (allocate_wp g arena s1 LL size i1 (i5 Le) Ha Hsz) (pst_alloc g arena size))| |auto]. intros [q|] s2; [|intros _; apply wp_run_ret; auto].
  intros ((LL' & G & Sh) & S2). pose proof (got_ares _ _ _ _ _ _ _ _ IN G) as AR. set (m := grant g size) in *.
  pose proof (ar_inv _ _ _ _ _ _ _ AR) as HI2. pose proof (ar_step _ _ _ _ _ _ _ AR) as HS2.
  destruct (S1 (hinv_init _ _ _ HI)) as (D1 & D2 & D3). destruct (S2 (hinv_init _ _ _ i1)) as (D4 & D5 & D6).
  assert (in_slab_region p s2 = true) as L2 by (unfold in_slab_region in *; rewrite D5, D4, D2, D1; exact L).
  assert (slab_size_class g s2 p = (a, k)) as E2 by (unfold slab_size_class in *; rewrite D4, D1; exact E).
  pose proof (class_facts_all g k (proj2 Ck)) as CF.
  assert (class_size g k <= max_slab_size_class g) as CM. { destruct CF. rewrite cf_size. destruct (k =? 0); lia. }
  assert (block g s2 LL' q m) as BN by (apply HS2; right; reflexivity).
  assert (q <> p) as Nq.
  { intros ->. destruct Sh as [(S0 & _ & (a' & i & j & SB) & _)|(S0 & _ & gd & -> & _)].
    - destruct (sblk_loc g s2 LL' [] (hi_inv _ _ _ HI2) _ _ _ _ _ SB) as [_ X]. rewrite E2 in X. injection X as _ Ek. destruct (gsi_class_range g size ltac:(lia)) as (K1 & K2 & K3). rewrite <- Ek in K2.
      replace (size <=? max_slab_size_class g) with true in Q2 by lia. cbn [andb] in Q2. lia.
    - assert (in_slab_region p s2 = false); [|congruence]. apply (region_not_slab g s2 _ [] (hi_inv _ _ _ HI2) (mkRegion p (get_large_size_class g size) gd)); [left; reflexivity|]. cbn.
      destruct (region_p g s2 _ [] (hi_inv _ _ _ HI2) (mkRegion p (get_large_size_class g size) gd)) as (B1 & _); [left; reflexivity|]. cbn in B1. lia. }
  assert (nonblock g s2 LL' p) as NB2. { intros x B. destruct (proj1 (hs_blk _ _ _ _ _ _ _ HS2 p x) B) as [[B' _]|[= B' _]]; [exact (NB x B')|auto]. }
  assert (max_slab_size_class g < size -> m <> 0) as MNZ by (intros H; eapply shape_nz; [exact HI2|exact BN|exact Sh|lia|lia]).
  pose proof (grant_min g size Hsz MNZ) as GM. fold m in GM.
  set (cs := if (0 <? Z.min size (class_size g k)) && (Z.min size (class_size g k) <=? max_slab_size_class g) then Z.min size (class_size g k) - canary_size g else Z.min size (class_size g k)).
  assert (cs <= m \/ cs <= 0) as C2.
  { unfold cs. clear cs. revert GM. destruct (Z.leb_spec size (max_slab_size_class g)); intros GM; destruct (Z.min_spec size (class_size g k)) as [[? ->]|[? ->]]; match goal with |- context [if ?b then _ else _] => destruct b eqn:Q end; lia. }
  apply wp_run_pbind, wp_run_act. unfold on_os. apply wp_zoom. fold cs. apply mem_copy_any; [|exact Logic.I]. intros _.
  assert (forall x, q <= x < q + cs -> pages (st_os s2) (page_of x) = Some PRW) as RWq. { intros x Hx. eapply (block_rw g s2 LL' [] (hi_inv _ _ _ HI2)); [exact BN|lia]. }
  set (o3 := copied_os q p cs (st_os s2)). assert (poke (fun x => q <= x < q + cs) (st_os s2) o3) as PK by (apply poke_copy; exact RWq).
  set (s3 := set_st_os o3 s2). assert (hinv g s3 LL') as HI3 by (eapply hinv_poke; eauto).
  apply wp_run_pbind. replace (class_size g k <=? max_slab_size_class g) with true by lia.
  eapply wp_mono; [apply (dsmall_top_wp g s3 LL' p None HI3 Wp L2)| |auto]. intros [] s4 (n4 & F & _). exfalso. apply (NB2 n4). pose proof (fr_blk _ _ _ _ _ _ _ F) as B. exact B.
Qed.
Lemma C48_small_l g W o t s p n tid q s' : usable_config g = true -> history g W o t s -> word p -> word n -> p <> 0 -> ~ is_live t p -> in_small_area s p ->
  ra_leftover (st_ra s) = false -> run (op_run g tid (ORealloc p n)) s = Ok (APtr q, s') -> q = p /\ s' = s.
Proof.
  intros U H Wp Wn P0 NL NS Le E. destruct (history_linv _ _ _ _ _ U H) as (LL & LI). pose proof (dead_nonblock _ _ _ _ _ LI NL) as NB. pose proof (li_ready _ _ _ _ LI) as R.
  apply small_region in NS. pose proof (slab_hinv _ _ _ _ (proj1 Wp) R NS) as HI. pose proof (realloc_dead g tid s LL p n HI Le Wp Wn NB NS) as X.
  cbn [op_run] in E. apply run_pmap in E. destruct E as (r & E & F). unfold wp in X. rewrite E in X. destruct X as [->|[-> ->]]; [discriminate|]. injection F as ->. auto.
Qed.
(** ** C11 *)
Lemma C11_detected_l g W o t s tid c a s' p n x : usable_config g = true -> history g W o t s -> is_init s = true -> WRITE_AFTER_FREE_CHECK g = true ->
  calls g W t s tid c a s' -> handed_out (mkEv tid c a) = Some p -> in_small_area s' p -> usable_size g s' p n -> p <= x < p + n -> content s x = 0.
Proof.
  intros U H Hi WF C HO Ar US Hx. destruct (history_linv _ _ _ _ _ U H) as (LL & LI). destruct (calls_step _ _ _ _ _ _ _ _ _ LI C) as (LL' & SP). pose proof (sp_inv _ _ _ _ _ _ _ _ _ SP) as LI'.
  pose proof (handed_live tid c a p t HO) as Hl. destruct (live_small _ _ _ _ _ _ LI' Hl Ar) as (ar & k & i & j & HI' & SB). destruct (live_block _ _ _ _ _ _ LI' Hl) as (_ & _ & _ & _ & P & _).
  destruct (handed_rm tid c a p 0 HO ltac:(lia)) as (_ & R & S). destruct (sp_cls _ _ _ _ _ _ _ _ _ SP S) as (m & HC).
  destruct (handed_rm tid c a p m HO ltac:(lia)) as (A & _ & _). apply (hc_waf _ _ _ _ _ HC ar k i j p m A R SB Hi WF).
  assert (n = usable_of g k) as <-; [|lia]. apply (usable_eq _ _ _ _ _ _ _ _ LI' Hl); [left; exists ar, k, i, j; auto|exact US].
Qed.
Lemma C11_false_l g o t s tid c f : usable_config g = true -> history g (own_store g) o t s -> ends g (own_store g) t s tid c f -> valid_call g t s c -> f <> Fatal "detected write after free"%string.
Proof.
  intros U H E V. destruct (C45_valid_l g o t s tid c f U H E V) as [X|[[X _]|[X _]]]; intros ->; clear - X.
  - destruct X as [X|X]; [discriminate|]. cbn in X. intuition discriminate.
  - unfold startup_abort in X. cbn in X. intuition discriminate.
  - destruct X as [X|X]; discriminate.
Qed.

(** ** C47 *)
Fixpoint nalloc (ls : list clab) : Z := match ls with [] => 0 | LA _ :: l => 1 + nalloc l | LF _ :: l => nalloc l end.
Lemma nalloc_app l1 l2 : nalloc (l1 ++ l2) = nalloc l1 + nalloc l2.
Proof. induction l1 as [|[p|p] l IH]; cbn [nalloc app]; lia. Qed.
Lemma somes_in (l : list (option Z)) i : In i (somes l) <-> In (Some i) l.
Proof. unfold somes. induction l as [|[x|] l IH]; cbn; [tauto| |]; rewrite ?IH; intuition congruence. Qed.
Lemma purged_fun c l l' : purged_slabs c l -> purged_slabs c l' -> l' = l.
Proof. intros H H'. exact (follows_fun _ _ _ H _ H'). Qed.
Lemma path_fifo g k o c ls o' c' : cpath g k o c ls o' c' -> c_start c <> 0 -> forall F F', purged_slabs c F -> purged_slabs c' F' ->
  exists used new, F ++ new = used ++ F' /\ zlen used <= nalloc ls /\ (forall i, In i used -> exists j, 0 <= j < get_slots g k /\ In (LA (sptr g k c i j)) ls) /\
    (forall i, waiting c i -> waiting c' i \/ In i new).
Proof.
  induction 1 as [o c|o o' c' L FC|o c ls o1 c1 o2 P IH L|o c ls o1 c1 E1 F1 p o2 c2 P IH I1 SP|o c ls o1 c1 E1 F1 o2 c2 P IH I1 SP|o c ls o1 c1 E1 F1 p e o2 c2 P IH I1 SP|o c ls o1 c1 E1 F1 o2 c2 P IH I1 SP];
    intros NZ F F' I0 I2.
  - rewrite (purged_fun _ _ _ I0 I2). exists [], []. rewrite app_nil_r. split; [reflexivity|]. split; [cbn; lia|]. split; [intros i []|auto].
  - elim NZ. reflexivity.
  - apply IH; auto.
  - destruct (IH NZ _ _ I0 (purged_slabs_F _ _ _ _ _ _ I1)) as (u & n & Q1 & Q2 & Q3 & Q4). pose proof (cpath_start _ _ _ _ _ _ _ P NZ) as ES. destruct SP as (o3 & c3 & E3 & F3 & [= <- <-] & I3 & _ & CS & (i & j & -> & AP & AL)).
    rewrite (purged_fun _ _ _ (purged_slabs_F _ _ _ _ _ _ I3) I2). rewrite nalloc_app. cbn [nalloc].
    assert (forall i, waiting c i -> waiting c2 i \/ In i n) as Q4'. { intros x Hx. destruct (Q4 x Hx) as [W|W]; [left|auto]. unfold waiting. rewrite (cs_fq _ _ _ _ CS). exact W. }
    assert (forall x, In x u -> exists y, 0 <= y < get_slots g k /\ In (LA (sptr g k c x y)) (ls ++ [LA (sptr g k c1 i j)])) as Q3'. { intros x Hx. destruct (Q3 x Hx) as (y & Hy & W). exists y. split; [auto|]. apply in_or_app. auto. }
    destruct AL as [[_ ->]|[[_ ->]|(_ & _ & ->)]]; [exists u, n; auto with zarith|exists u, n; auto with zarith|].
    exists (u ++ [i]), n. split; [rewrite <- app_assoc; exact Q1|]. split; [unfold zlen in *; rewrite app_length; cbn; lia|]. split; [|exact Q4'].
    intros x Hx. apply in_app_or in Hx. destruct Hx as [Hx|[<-|[]]]; [auto|]. exists j. split; [apply AP|].
    apply in_or_app. right. left. f_equal. unfold sptr, slabp. rewrite ES. reflexivity.
  - destruct (IH NZ _ _ I0 (purged_slabs_F _ _ _ _ _ _ I1)) as (u & n & Q1 & Q2 & Q3 & Q4). destruct SP as (o3 & c3 & E3 & F3 & [= <- <-] & I3 & _ & CS & (-> & -> & _)).
    rewrite (purged_fun _ _ _ (purged_slabs_F _ _ _ _ _ _ I3) I2). exists u, n. repeat (split; [auto|]). intros x Hx. destruct (Q4 x Hx) as [W|W]; [left|auto]. unfold waiting. rewrite (cs_fq _ _ _ _ CS). exact W.
  - destruct (IH NZ _ _ I0 (purged_slabs_F _ _ _ _ _ _ I1)) as (u & n & Q1 & Q2 & Q3 & Q4). destruct SP as (o3 & c3 & E3 & F3 & i & j & [= <- <-] & I3 & _ & (out & _ & DR)).
    rewrite (purged_fun _ _ _ (purged_slabs_F _ _ _ _ _ _ I3) I2). rewrite nalloc_app. cbn [nalloc].
    assert (exists sub, F3 = F1 ++ qlist sub /\ forall x, waiting c1 x -> waiting c2 x \/ In x (qlist sub)) as (sub & -> & Wt).
    { assert (F3 = F1 -> c_fq c2 = c_fq c1 -> exists sub, F3 = F1 ++ qlist sub /\ forall x, waiting c1 x -> waiting c2 x \/ In x (qlist sub)) as K.
      { intros -> Q. exists None. cbn. rewrite app_nil_r. split; [reflexivity|]. intros x Hx. left. unfold waiting. rewrite Q. exact Hx. }
      destruct out as [p'|]; [|destruct DR as (_ & -> & Q & _); auto]. destruct DR as (i' & j' & _ & _ & _ & _ & [(_ & _ & Q & Q')|[(_ & _ & Q & Q' & _)|(_ & _ & _ & (t & sub & L1 & L2 & L3) & _)]]); auto.
      exists sub. split; [auto|]. intros x Hx. unfold waiting in *. apply In_lget in Hx. destruct Hx as (y & Hy). destruct (Z.eq_dec y t) as [->|N].
      - right. rewrite Hy in L1. injection L1 as <-. left. reflexivity.
      - left. rewrite L2. apply (lget_In _ y). rewrite lget_lset_ne by auto. exact Hy. }
    exists u, (n ++ qlist sub). split; [rewrite !app_assoc, Q1; reflexivity|]. split; [lia|]. split.
    + intros x Hx. destruct (Q3 x Hx) as (y & Hy & W). exists y. split; [auto|]. apply in_or_app. auto.
    + intros x Hx. destruct (Q4 x Hx) as [W|W]; [|right; apply in_or_app; auto]. destruct (Wt x W); [auto|]. right. apply in_or_app. auto.
  - destruct (IH NZ _ _ I0 (purged_slabs_F _ _ _ _ _ _ I1)) as (u & n & Q1 & Q2 & Q3 & Q4). destruct SP as (X1 & X2 & F3 & -> & I3 & TP & _). destruct TP. destruct tp_F as (F4 & ->).
    rewrite (purged_fun _ _ _ (purged_slabs_F _ _ _ _ _ _ I3) I2). exists u, (n ++ F4). split; [rewrite !app_assoc, Q1; reflexivity|]. split; [lia|]. split; [auto|].
    intros x Hx. destruct (Q4 x Hx) as [W|W]; [|right; apply in_or_app; auto].
    assert (In x (somes (c_fq c1))) as Hs by (apply somes_in; exact W).
    assert (In x ((F1 ++ F4) ++ somes (c_fq c2))) as Hq. { eapply Permutation_in; [exact tp_perm|]. apply in_or_app. right. apply in_or_app. auto. }
    apply in_app_or in Hq. destruct Hq as [Hq|Hq]; [|left; apply somes_in; auto]. apply in_app_or in Hq. destruct Hq as [Hq|Hq]; [|right; apply in_or_app; auto].
    exfalso. destruct I1 as (P1 & I1 & _). pose proof (lk_nd _ _ _ _ (ci_link _ _ _ _ _ _ _ _ _ I1)) as ND. apply NoDup_app_inv in ND. destruct ND as (_ & ND & _). apply NoDup_app_inv in ND. destruct ND as (_ & _ & ND). exact (ND x Hq Hs).
Qed.
Lemma handed_moves g c e q : 0 < c_start c -> In (LA q) (evmoves g c e) -> handed_out e = Some q /\ inb g c q = true.
Proof.
  intros Hs. unfold evmoves, moves. rewrite in_app_iff. unfold lift_ptr. intros [H|H].
  2:{ destruct (evrm _ _) as [x|]; [|destruct H]. destruct (_ && _) in H; [|destruct H]. destruct H as [H|[]]. discriminate. }
  unfold handed_out. destruct e as [tid op an]. cbn [e_op e_ans] in *. destruct (addp (evadd op an 0)) as [x|] eqn:Er; [|destruct H]. destruct (_ && _) eqn:B in H; [|destruct H]. destruct H as [[= ->]|[]]. apply andb_prop in B. destruct B as [B1 B2]. split; [|auto].
  unfold evadd in Er. destruct op; destruct an; try discriminate; cbn in *; try (injection Er as ->; reflexivity). injection Er as ->. destruct (Z.eqb_spec q p) as [->|]; [|reflexivity]. exfalso.
  destruct (Z.eqb_spec p 0) as [->|]; cbn in B2; [|rewrite Z.eqb_refl in B2; discriminate]. unfold inb in B1. lia.
Qed.
Lemma moves_one g c e : nalloc (evmoves g c e) <= 1.
Proof. unfold evmoves, moves. rewrite nalloc_app. unfold lift_ptr. destruct (addp _) as [x|], (evrm _ _) as [y|]; try destruct (inb g c x && _); try destruct (inb g c y && _); cbn; lia. Qed.
Lemma C47_call_l g W o t s tid c a s' ar k l l' : usable_config g = true -> history g W o t s -> is_init s = true -> calls g W t s tid c a s' -> exists_class g ar k ->
  purged_slabs (st_cls s ar k) l -> purged_slabs (st_cls s' ar k) l' ->
  exists used new, l ++ new = used ++ l' /\ zlen used <= 1 /\ (forall i, In i used -> holds (st_cls s' ar k) i) /\ (forall i, waiting (st_cls s ar k) i -> waiting (st_cls s' ar k) i \/ In i new).
Proof.
  intros U H Hi C Ck P P'. destruct (history_hinv _ _ _ _ _ U H Hi) as (LL & LI & HI). destruct (calls_step _ _ _ _ _ _ _ _ _ LI C) as (LL' & SP). pose proof (sp_inv _ _ _ _ _ _ _ _ _ SP) as LI'.
  pose proof (step_path _ _ _ _ _ _ _ _ _ ar k SP Ck) as CP. destruct (gclass g s LL [] (hi_inv _ _ _ HI) ar k Ck) as (E & F & CI). pose proof (cinvL_nz _ _ _ _ _ _ CI) as NZ.
  pose proof (cpath_start _ _ _ _ _ _ _ CP NZ) as ES. pose proof (sited_init _ _ (calls_sited _ _ _ _ _ _ _ _ C) Hi) as Hi'. pose proof (ready_hinv _ _ _ (li_ready _ _ _ _ LI') Hi') as HI'.
  destruct (path_fifo _ _ _ _ _ _ _ CP NZ _ _ P P') as (u & n & Q1 & Q2 & Q3 & Q4). exists u, n. split; [exact Q1|]. split; [pose proof (moves_one g (st_cls s' ar k) (mkEv tid c a)); lia|]. split; [|exact Q4].
  intros i Hu. destruct (Q3 i Hu) as (j & Hj & L). assert (0 < c_start (st_cls s' ar k)) as SP0. { rewrite ES. destruct CI as (P0 & Iv & _). pose proof (ge_start _ _ _ (ci_geom _ _ _ _ _ _ _ _ _ Iv)). lia. }
  apply (handed_moves _ _ _ _ SP0) in L. destruct L as [HO B]. set (q := sptr g k (st_cls s ar k) i j) in *.
  assert (c_start (st_cls s' ar k) <= q < c_start (st_cls s' ar k) + CLASS_REGION_SIZE g) as B' by (unfold inb in B; lia).
  pose proof (hi_inv _ _ _ HI') as I'. pose proof (class_region_lo g s' LL' [] I' ar k q Ck B') as R. destruct (class_of_addr g s' (gi_u _ _ _ _ I') (gi_pl _ _ _ _ I') ar k q Ck R) as [L1 L2].
  destruct (live_small _ _ _ _ _ _ LI' (handed_live tid c a q t HO)) as (a2 & k2 & i2 & j2 & _ & SB); [apply small_region; exact L1|]. destruct (sblk_loc g s' LL' [] I' _ _ _ _ _ SB) as [_ L3]. rewrite L2 in L3. injection L3 as <- <-.
  destruct SB as (_ & Hj2 & Hg & Ep). destruct (gclass g s' LL' [] I' ar k Ck) as (E' & F' & CI'). pose proof CI' as (P0 & Iv' & _). pose proof (ci_geom _ _ _ _ _ _ _ _ _ Iv') as G'.
  assert (q = sptr g k (st_cls s' ar k) i j) as Eq by (unfold q, sptr, slabp; rewrite ES; reflexivity). rewrite Eq in Ep. destruct (sptr_inj g k _ G' _ _ _ _ Hj Hj2 Ep) as [-> ->].
  exists j2. pose proof (class_facts_all g k (proj2 Ck)) as []. split; [lia|]. rewrite occupied_get by lia. apply (granted_used _ _ _ Hg).
Qed.
Lemma purged_idle g W o t s ar k i : usable_config g = true -> history g W o t s -> is_init s = true -> exists_class g ar k ->
  holds (st_cls s ar k) i \/ cached (st_cls s ar k) i -> ~ waiting (st_cls s ar k) i /\ forall l, purged_slabs (st_cls s ar k) l -> ~ In i l.
Proof.
  intros U H Hi Ck HC. destruct (history_hinv _ _ _ _ _ U H Hi) as (LL & LI & HI). destruct (gclass g s LL [] (hi_inv _ _ _ HI) ar k Ck) as (E & F & CI). pose proof CI as (P & I & _).
  rewrite (holds_cnt g k _ i (proj2 Ck) (ci_slabs _ _ _ _ _ _ _ _ _ I i)), (cached_E _ _ _ _ _ _ i CI) in HC. pose proof (lk_nd _ _ _ _ (ci_link _ _ _ _ _ _ _ _ _ I)) as ND. apply NoDup_app_inv in ND. destruct ND as (_ & _ & ND).
  assert (~ In i (F ++ somes (c_fq (st_cls s ar k)))) as N.
  { intros X. destruct HC as [HC|HC]; [|exact (ND i HC X)]. assert (In i (E ++ F ++ somes (c_fq (st_cls s ar k)))) as Y by (apply in_or_app; auto). apply (ma_0 _ _ _ _ _ _ _ (ci_match _ _ _ _ _ _ _ _ _ I)) in Y; [lia|discriminate]. }
  split; [intros X; apply N; apply in_or_app; right; apply somes_in; exact X|]. intros l Hl X. rewrite (purged_fun _ _ _ (purged_slabs_F _ _ _ _ _ _ CI) Hl) in X. apply N. apply in_or_app. auto.
Qed.
Lemma purged_ex g W o t s ar k : usable_config g = true -> history g W o t s -> is_init s = true -> exists_class g ar k -> exists l, purged_slabs (st_cls s ar k) l.
Proof.
  intros U H Hi Ck. destruct (history_hinv _ _ _ _ _ U H Hi) as (LL & LI & HI). destruct (gclass g s LL [] (hi_inv _ _ _ HI) ar k Ck) as (E & F & CI). exists F. eapply purged_slabs_F; eauto.
Qed.
Lemma C47_queue g W o t s t' s' ar k l l' : usable_config g = true -> history g W o t s -> is_init s = true -> continues g W t s t' s' -> exists_class g ar k ->
  purged_slabs (st_cls s ar k) l -> purged_slabs (st_cls s' ar k) l' ->
  exists used new, l ++ new = used ++ l' /\ forall j, In j used -> exists t1 s1, continues g W t s t1 s1 /\ continues g W t1 s1 t' s' /\ holds (st_cls s1 ar k) j.
Proof.
  intros U H Hi K Ck P P'. revert l' P'. induction K as [|t1 s1 tid c a s2 K IH Ca]; intros l' P'.
  - rewrite (purged_fun _ _ _ P P'). exists [], []. rewrite app_nil_r. split; [reflexivity|intros j []].
  - pose proof (cont_history _ _ _ _ _ _ _ H K) as H1. pose proof (sited_init _ _ (cont_sited _ _ _ _ _ _ K) Hi) as Hi1. destruct (purged_ex _ _ _ _ _ ar k U H1 Hi1 Ck) as (l1 & P1).
    destruct (IH l1 P1) as (u & n & Q & Hu). destruct (C47_call_l _ _ _ _ _ _ _ _ _ _ _ _ _ U H1 Hi1 Ca Ck P1 P') as (u2 & n2 & Q2 & _ & Hu2 & _).
    exists (u ++ u2), (n ++ n2). split; [rewrite app_assoc, Q, <- !app_assoc, Q2; reflexivity|]. intros j Hj. apply in_app_or in Hj. destruct Hj as [Hj|Hj].
    + destruct (Hu j Hj) as (t3 & s3 & K1 & K2 & Hh). exists t3, s3. split; [auto|]. split; [econstructor; eauto|auto].
    + exists (mkEv tid c a :: t1), s2. split; [econstructor; eauto|]. split; [constructor|auto].
Qed.
Lemma app_split {A} (l1 l2 m1 m2 : list A) : l1 ++ l2 = m1 ++ m2 -> (exists x, m1 = l1 ++ x /\ l2 = x ++ m2) \/ (exists x, l1 = m1 ++ x /\ m2 = x ++ l2).
Proof.
  revert m1. induction l1 as [|a l1 IH]; intros m1 E; [left; exists m1; auto|]. destruct m1 as [|b m1]; [right; exists (a :: l1); auto|]. cbn in E. injection E as -> E.
  destruct (IH m1 E) as [(x & -> & ->)|(x & -> & ->)]; [left|right]; exists x; auto.
Qed.
Lemma C47_order_l g W o t s t' s' ar k l1 i l2 : usable_config g = true -> history g W o t s -> is_init s = true -> continues g W t s t' s' -> exists_class g ar k ->
  purged_slabs (st_cls s ar k) (l1 ++ i :: l2) -> holds (st_cls s' ar k) i -> forall j, In j l1 -> exists t1 s1, continues g W t s t1 s1 /\ continues g W t1 s1 t' s' /\ holds (st_cls s1 ar k) j.
Proof.
  intros U H Hi K Ck P Hh j Hj. pose proof (cont_history _ _ _ _ _ _ _ H K) as H'. pose proof (sited_init _ _ (cont_sited _ _ _ _ _ _ K) Hi) as Hi'. destruct (purged_ex _ _ _ _ _ ar k U H' Hi' Ck) as (l' & P').
  destruct (C47_queue _ _ _ _ _ _ _ _ _ _ _ U H Hi K Ck P P') as (u & n & Q & Hu). apply Hu. rewrite <- app_assoc in Q. cbn in Q. destruct (purged_idle _ _ _ _ _ _ _ _ U H' Hi' Ck (or_introl Hh)) as [_ N]. specialize (N l' P').
  destruct (app_split _ _ _ _ Q) as [(x & -> & Q')|(x & -> & ->)]; [apply in_or_app; auto|]. elim N. apply in_or_app. right. left. reflexivity.
Qed.
Lemma waiting_dec c i : waiting c i \/ ~ waiting c i.
Proof. unfold waiting. destruct (in_dec (fun a b : option Z => ltac:(decide equality; apply Z.eq_dec)) (Some i) (c_fq c)); auto. Qed.
(** a slab in the random array that is used again has left the array, joined the list at its end, and all
    slabs that were in the list have been used in the meantime *)
Lemma C47_l g W o t s t' s' ar k i : usable_config g = true -> history g W o t s -> is_init s = true -> continues g W t s t' s' -> exists_class g ar k ->
  waiting (st_cls s ar k) i -> holds (st_cls s' ar k) i ->
  exists t1 s1 tid c a s2, continues g W t s t1 s1 /\ calls g W t1 s1 tid c a s2 /\ continues g W (mkEv tid c a :: t1) s2 t' s' /\
    waiting (st_cls s1 ar k) i /\ ~ waiting (st_cls s2 ar k) i /\
    forall l j, purged_slabs (st_cls s1 ar k) l -> In j l -> exists t3 s3, continues g W (mkEv tid c a :: t1) s2 t3 s3 /\ continues g W t3 s3 t' s' /\ holds (st_cls s3 ar k) j.
Proof.
  intros U H Hi K Ck Wt Hh. pose proof (sited_init _ _ (cont_sited _ _ _ _ _ _ K) Hi) as Hi'. pose proof (cont_history _ _ _ _ _ _ _ H K) as H'. destruct (purged_idle _ _ _ _ _ _ _ _ U H' Hi' Ck (or_introl Hh)) as [NW _].
  assert (forall t1 s1, continues g W t s t1 s1 -> ~ waiting (st_cls s1 ar k) i -> exists t2 s2 tid c a s3, continues g W t s t2 s2 /\ calls g W t2 s2 tid c a s3 /\ continues g W (mkEv tid c a :: t2) s3 t1 s1 /\
      waiting (st_cls s2 ar k) i /\ ~ waiting (st_cls s3 ar k) i) as X.
  { intros t1 s1 K1. induction K1 as [|t1 s1 tid c a s2 K1 IH Ca]; intros N; [contradiction|]. destruct (waiting_dec (st_cls s1 ar k) i) as [Y|Y].
    - exists t1, s1, tid, c, a, s2. split; [auto|]. split; [auto|]. split; [constructor|auto].
    - destruct (IH Y) as (t3 & s3 & tid3 & c3 & a3 & s4 & Z1 & Z2 & Z3 & Z4). exists t3, s3, tid3, c3, a3, s4. split; [auto|]. split; [auto|]. split; [econstructor; eauto|auto]. }
  destruct (X t' s' K NW) as (t1 & s1 & tid & c & a & s2 & K1 & Ca & K2 & W1 & W2). exists t1, s1, tid, c, a, s2. split; [auto|]. split; [auto|]. split; [auto|]. split; [auto|]. split; [auto|].
  intros l j P Hj. pose proof (cont_history _ _ _ _ _ _ _ H K1) as H1. pose proof (sited_init _ _ (cont_sited _ _ _ _ _ _ K1) Hi) as Hi1. pose proof (calls_history _ _ _ _ _ _ _ _ _ H1 Ca) as H2.
  pose proof (sited_init _ _ (calls_sited _ _ _ _ _ _ _ _ Ca) Hi1) as Hi2. destruct (purged_ex _ _ _ _ _ ar k U H2 Hi2 Ck) as (l2 & P2).
  destruct (C47_call_l _ _ _ _ _ _ _ _ _ _ _ _ _ U H1 Hi1 Ca Ck P P2) as (u & n & Q & Q1 & Q2 & Q3). destruct (Q3 i W1) as [Y|Y]; [contradiction|]. apply in_split in Y. destruct Y as (n1 & n2 & ->).
  rewrite app_assoc in Q. destruct (app_split _ _ _ _ Q) as [(x & -> & Q')|(x & E & ->)].
  - exists (mkEv tid c a :: t1), s2. split; [constructor|]. split; [auto|]. apply Q2. apply in_or_app. left. apply in_or_app. auto.
  - assert (In j (u ++ x)) as Hj' by (rewrite <- E; apply in_or_app; auto). apply in_app_or in Hj'. destruct Hj' as [Hj'|Hj'].
    + exists (mkEv tid c a :: t1), s2. split; [constructor|]. split; [auto|]. apply Q2. auto.
    + apply (C47_order_l g W o _ _ t' s' ar k x i n2 U H2 Hi2 K2 Ck P2 Hh j Hj').
Qed.
(** a slab whose last slot is freed and that is not kept as empty enters the random array *)
Lemma C47_enters_l g W o t s tid c s' ar k i : usable_config g = true -> history g W o t s -> is_init s = true -> exists_class g ar k ->
  calls g W t s tid c AUnit s' -> (exists p, c = OFree p \/ exists n, c = OFreeSized p n) ->
  holds (st_cls s ar k) i -> ~ holds (st_cls s' ar k) i -> ~ cached (st_cls s' ar k) i -> waiting (st_cls s' ar k) i.
Proof.
  intros U H Hi Ck C (p & Hc) H1 H2 H3. destruct (history_hinv _ _ _ _ _ U H Hi) as (LL & LI & HI). pose proof (sited_init _ _ (calls_sited _ _ _ _ _ _ _ _ C) Hi) as Hi'. pose proof (calls_history _ _ _ _ _ _ _ _ _ H C) as H'.
  destruct (history_hinv _ _ _ _ _ U H' Hi') as (LL' & LI' & HI'). destruct (gclass g s LL [] (hi_inv _ _ _ HI) ar k Ck) as (E & F & CI). destruct (gclass g s' LL' [] (hi_inv _ _ _ HI') ar k Ck) as (E' & F' & CI').
  pose proof CI as (P & I & _). pose proof CI' as (P' & I' & _). rewrite (holds_cnt g k _ i (proj2 Ck) (ci_slabs _ _ _ _ _ _ _ _ _ I i)) in H1. rewrite (holds_cnt g k _ i (proj2 Ck) (ci_slabs _ _ _ _ _ _ _ _ _ I' i)) in H2.
  rewrite (cached_E _ _ _ _ _ _ i CI') in H3.
  assert ((p = 0 /\ s' = s) \/ exists L2 m, freed g s LL s' L2 p m) as [[_ ->]|(L2 & m & FR)].
  { destruct C as (_ & WD & _ & _ & R). destruct Hc as [->|(n & ->)]; cbn [op_run] in R; apply run_pmap in R; destruct R as ([] & R & _).
    - pose proof (free_wp g s LL p (or_introl HI) WD) as X. unfold wp in X. rewrite R in X. destruct (Z.eqb_spec p 0); [auto|]. destruct X as (L2 & m & X & _). eauto.
    - destruct WD as [WD WD2]. pose proof (free_sized_wp g s LL p n (or_introl HI) WD WD2) as X. unfold wp in X. rewrite R in X. destruct (Z.eqb_spec p 0); [auto|]. destruct X as (L2 & m & X & _). eauto. }
  - lia.
  - destruct (fr_wait _ _ _ _ _ _ _ FR ar k i Ck H1 ltac:(lia)) as [X|(E2 & F2 & X & Y)]; [exact X|]. destruct (lists_fun _ _ _ _ _ _ _ _ _ X CI') as [-> _]. contradiction.
Qed.
