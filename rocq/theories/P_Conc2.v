(** Interleaved calls: initialization, small blocks, queries. *)
From Coq Require Import String ZArith List Bool Lia ZifyBool Permutation.
From Verif Require Import M_Base M_Config M_SizeClass M_Libdivide M_OS M_Random M_Slab M_Region M_Api M_Hist S_Heap
  P_Base P_Count P_SizeClass P_Libdivide P_Random P_Bitmap P_Bitmap2 P_OS P_Links P_Slab1 P_Slab2 P_Slab3 P_Slab4 P_Slab5 P_Slab9 P_Slab10 P_Slab11 P_Path
  P_Region P_Region2 P_Heap1 P_Heap2 P_Heap3 P_Heap4 P_Heap5 P_Heap6 P_Heap7 P_Init P_Heap8 P_Heap9 P_Heap10 P_Conc1.
Import ListNotations.
Open Scope Z_scope.
Ltac Zify.zify_post_hook ::= idtac.

(** steps of one class stay in its pages *)
Lemma alloc_far g s LL X a k : ginv g s LL X -> class_in g a k ->
  wp (on_class g a k (allocate_small_class g k (negb (k =? 0)))) s (fun _ s' => os_in (cdom g (st_cls s a k)) (st_os s) (st_os s')) (fun _ => True).
Proof.
  intros I C. destruct (gclass _ _ _ _ I a k C) as (E & F & Iv). apply on_class_wp; [exact C|]. eapply wp_mono; [apply (allocate_small_wp g k _ _ E F Iv)| |auto].
  intros r cs (o' & c' & E' & F' & -> & Iv' & O & _). exact O.
Qed.
Lemma dealloc_far g s LL X a k p ex : ginv g s LL X -> class_in g a k -> 0 <= p < 2 ^ 64 ->
  wp (on_class g a k (deallocate_small_class g k p ex)) s (fun _ s' => os_in (cdom g (st_cls s a k)) (st_os s) (st_os s')) (fun _ => True).
Proof.
  intros I C Hp. destruct (gclass _ _ _ _ I a k C) as (E & F & Iv). apply on_class_wp; [exact C|]. eapply wp_mono; [apply (deallocate_small_wp g k _ _ E F p ex Iv Hp)| |auto].
  intros r cs (o' & c' & E' & F' & i & j & -> & Iv' & [dj dp dg dexp dcan dsm drest dused dmem dkeep dzero derr dos dst] & DR). eapply os_in_mono; [|exact dos]. intros q Hq. left. auto.
Qed.
Lemma trim_far g s LL X a k : ginv g s LL X -> class_in g a k -> k <> 0 ->
  wp (on_class g a k (malloc_trim_class g k)) s (fun _ s' => os_in (cdom g (st_cls s a k)) (st_os s) (st_os s')) (fun _ => True).
Proof.
  intros I C Nk. destruct (gclass _ _ _ _ I a k C) as (E & F & Iv). apply on_class_wp; [exact C|]. eapply wp_mono; [apply (trim_class_wp g k _ _ E F Iv Nk)| |auto].
  intros r cs (o' & c' & E1 & E' & F' & -> & EE & Eb & Iv' & [tsame tst tused tmem tgone tos tF tperm] & Rf). eapply os_in_mono; [|exact tos]. intros q Hq. left. auto.
Qed.
Lemma wp_far {S A} (m : M S A) s (P Q : A -> S -> Prop) (E : fault -> Prop) : wp m s P E -> wp m s Q (fun _ => True) -> wp m s (fun a s' => P a s' /\ Q a s') E.
Proof. unfold wp. destruct (m s) as [[a s']|f]; auto. Qed.
Lemma calm_far g s LL r rest a k s' : ginv g s LL (flights (r ++ rest)) -> class_in g a k -> os_in (cdom g (st_cls s a k)) (st_os s) (st_os s') -> calm rest s s'.
Proof.
  intros I C O f x Hf Hq. apply (oi_mem _ _ _ O). intros D. assert (In (fl_in f) (map region_span (rl_own LL) ++ qspans (st_ra s) ++ map fl_in (flights (r ++ rest)))) as Hin.
  { apply in_or_app. right. apply in_or_app. right. apply in_map. rewrite flights_app. apply in_or_app. auto. }
  destruct (fixed_rest _ _ _ _ _ _ I Hin Hq). destruct (cdom_fixed _ _ _ _ _ _ _ I C D); congruence.
Qed.

Section M.
Context (g : config) (md : bool) (sz : mode).
Notation up := (up g md).
Notation J := (J g md).
Notation keep := (keep md).
Notation csafe := (csafe g md sz).
Notation efault := (efault md sz).
Notation mine := (mine md sz).
Notation others := (others md).
Notation covd := (covd md).

(** ** steps that change no blocks and move no pages *)
Lemma up_quiet bal s LL s' r r' rest : up bal s LL (r ++ rest) -> hstep g s LL s' LL None None -> same_place s s' -> ginv g s' LL (flights (r ++ rest)) ->
  flights r' = flights r -> opens r' = opens r -> bts r' = bts r -> (forall a e, In (TI a e) r' -> st_start s = a /\ st_end s = e) -> calm rest s s' ->
  up bal s' LL (r' ++ rest) /\ keep rest s s'.
Proof.
  intros U H SP I Ef Eo Eb HT CM. eapply (up_step g md bal s LL s' LL None None r r' rest [] [] (bts r)); eauto.
  - rewrite Ef, <- flights_app. exact I.
  - rewrite Eo, <- opens_app. apply U.
  - apply U.
  - discriminate.
  - unfold gch. destruct md; auto.
  - rewrite Eb. apply Permutation_refl.
Qed.
Lemma up_toks bal s LL r r' rest : up bal s LL (r ++ rest) -> flights r' = flights r -> opens r' = opens r -> bts r' = bts r ->
  (forall a e, In (TI a e) r' -> st_start s = a /\ st_end s = e) -> up bal s LL (r' ++ rest).
Proof. intros U A B C D. eapply (up_quiet bal s LL s r r' rest U); auto using hstep_refl, same_place_refl; [apply U|intros f x _ _; reflexivity]. Qed.
Lemma up_pick bal s LL s' T : up bal s LL T -> picked g s s' -> up bal s' LL T.
Proof.
  intros [A B C D E F G] (E1 & E2 & E3 & E4 & E5 & E6 & E7 & E8). constructor; auto.
  - eapply ginv_ext; eauto.
  - intros a e H. rewrite E5, E6. auto.
  - assert (forall p n, block g s' LL p n <-> block g s LL p n) as BE by (intros; unfold block, sblk; rewrite E2; tauto).
    revert G. unfold ghost. destruct md.
    + intros (G1 & G2 & G3). split; [|split; [|auto]].
      * destruct G1 as [Cc Cz]. constructor; rewrite E1, E2; auto.
      * intros t Ht. specialize (G2 t Ht). destruct t; cbn in *; auto. unfold in_slab_region in *. rewrite E5, E6. split; [apply G2|apply BE, G2].
    + intros G p. destruct (G p) as [G1 G2]. split; intros K; [apply G1|apply G2].
      * destruct K as (n & K). exists n. apply BE, K.
      * intros n. rewrite <- BE. auto.
Qed.
Lemma keep_os rest s s' : st_os s' = st_os s -> keep rest s s'. Proof. intros E. split; [intros _ p n x _ _|intros f x _ _]; now rewrite E. Qed.
Lemma mine_TI tid a e : mine tid [TI a e]. Proof. split; [intros r [[=]|[]]|split; [intros t [[=]|[]]|intros p [[=]|[]]]]. Qed.
Lemma mine_nil tid : mine tid []. Proof. split; [intros r []|split; [intros t []|intros p []]]. Qed.
Lemma mine_TP tid : mine tid [TP tid]. Proof. split; [intros r [[=]|[]]|split; [intros t [[= ->]|[]]; auto|intros p [[=]|[]]]]. Qed.
Lemma TI_up bal s LL rest : up bal s LL rest -> up bal s LL ([TI (st_start s) (st_end s)] ++ rest). Proof. intros U. apply up_learn. exact U. Qed.
(** [init] ends knowing that the allocator is initialized *)
Definition ready_toks (r : list tok) : Prop := exists a e, r = [TI a e].
Lemma init_slow_csafe tid r : r = [] \/ r = [TP tid] \/ ready_toks r -> csafe tid (act (init_slow_path g)) r (fun _ r' => ready_toks r').
Proof.
  intros Hr. apply csafe_act. intros s rest bal T Jv O.
  assert (forall LL, up bal s LL (r ++ rest) -> up bal s LL ([TI (st_start s) (st_end s)] ++ rest)) as GO.
  { intros LL U. apply (up_toks bal s LL r _ rest U); try (destruct Hr as [->|[->|(a & e & ->)]]; reflexivity). intros a e [[= <- <-]|[]]; auto. }
  destruct Jv as [(LL & U)|D].
  - unfold init_slow_path. apply wp_bind, wp_get. rewrite (up_is_init _ _ _ _ _ _ U). apply wp_ret. exists [TI (st_start s) (st_end s)].
    split; [left; exists LL; auto|]. split; [apply keep_refl|]. split; [apply mine_TI|]. do 2 eexists. reflexivity.
  - destruct D as [D1 D2 D3 D4 D5 D6 D7 D8]. eapply wp_mono; [apply (init_slow_wp g (mkGround (fun _ => true) (REAL_CLASS_REGION_SIZE g)) s D1); [unfold is_init; rewrite D2; reflexivity|auto|cbn; lia]| |intros f H; right; right; left; exact H].
    intros [] s' [bi bl btot bc ba bo bu bf bcl].
    assert (forall t, In t rest -> exists i, t = TP i) as D7r by (intros t Ht; apply D7, in_or_app; auto). clear D7.
    assert (flights rest = [] /\ opens rest = [] /\ blks rest = [] /\ forall p, net rest p = 0) as (F1 & F2 & F3 & F4).
    { clear -D7r. induction rest as [|t rest IH]; [auto|]. destruct (D7r t ltac:(left; auto)) as (i & ->). cbn. apply IH. intros x Hx. apply D7r. right. auto. }
    set (LZ := mkRegs [] [] false (mkGround (fun _ => true) (REAL_CLASS_REGION_SIZE g))).
    assert (forall p n, ~ block g s' LZ p n) as NB.
    { intros p n [(a0 & k & i & j & (C & _ & H & _) & _)|(gd & [])]. apply granted_used in H. rewrite (bu a0 k i j C) in H. discriminate. }
    exists [TI (st_start s') (st_end s')]. split; [|split; [|split; [apply mine_TI|do 2 eexists; reflexivity]]].
    + left. exists LZ. apply TI_up. constructor; auto.
      * rewrite F1. eapply ginv_regs; [exact bi|discriminate|reflexivity|apply Permutation_refl].
      * rewrite F2. apply Permutation_refl.
      * intros x [].
      * rewrite bc. auto.
      * intros t. rewrite ba. auto.
      * intros a e H. destruct (D7r _ H) as (i & [=]).
      * unfold ghost. destruct md.
        -- split; [auto|]. split; [|unfold ptrs; rewrite F3; constructor]. intros t Ht. destruct (D7r _ Ht) as (i & ->). exact Logic.I.
        -- intros p. rewrite F4, D8 by auto. split; [intros (n & H); elim (NB _ _ H)|auto].
    + split; [intros _ p n x Hb; rewrite F3 in Hb|intros f x Hb; rewrite F1 in Hb]; destruct Hb.
Qed.
Lemma init_csafe tid : csafe tid (init g tid) [] (fun a r' => 0 <= a < N_ARENA g /\ ready_toks r').
Proof.
  unfold init. eapply csafe_bind with (Q := fun x r' => 0 <= fst x < N_ARENA g /\ (r' = [] \/ r' = [TP tid] \/ ready_toks r') /\ (snd x = true -> ready_toks r')).
  - apply csafe_act. intros s rest bal T [(LL & U)|D] O.
    + pose proof (gfacts_of g (gi_u _ _ _ _ (up_inv _ _ _ _ _ _ U))) as [].
      assert (exists d, d = TI (st_start s) (st_end s)) as (d & Ed) by eauto.
      assert (forall (x : Z * bool) s', 0 <= fst x < N_ARENA g -> picked g s s' -> exists r', J bal s' (r' ++ rest) /\ keep rest s s' /\ mine tid r' /\ 0 <= fst x < N_ARENA g /\ (r' = [] \/ r' = [TP tid] \/ ready_toks r') /\ (snd x = true -> ready_toks r')) as GO.
      { intros x s' Hx P. exists [TI (st_start s') (st_end s')]. split; [left; exists LL; apply TI_up; eapply up_pick; eauto|]. split; [apply keep_os, P|]. split; [apply mine_TI|]. assert (ready_toks [TI (st_start s') (st_end s')]) as RT by (do 2 eexists; reflexivity). auto. }
      unfold pick_arena. apply wp_bind, wp_get. assert (picked g s s) as P0 by (unfold picked; auto 10).
      destruct (Z.eqb_spec (N_ARENA g) 1); [apply wp_ret, GO; cbn; auto; lia|]. destruct (Z.ltb_spec (st_arena s tid) (N_ARENA g)).
      * apply wp_ret, GO; auto. pose proof (up_arena _ _ _ _ _ _ U tid). cbn. lia.
      * apply wp_bind, wp_put, wp_ret, GO; [cbn; apply Z.mod_pos_bound; lia|]. unfold picked. cbn. repeat (split; [reflexivity|]). pose proof (up_ctr _ _ _ _ _ _ U). split.
        -- intros A t. unfold fupd. pose proof (Z.mod_pos_bound (st_ctr s) (N_ARENA g) ltac:(lia)). destruct (t =? tid); [lia|auto].
        -- intros _. unfold w32. apply Z.mod_pos_bound. lia.
    + pose proof D as [D1 D2 D3 D4 D5 D6 D7 D8]. pose proof (gfacts_of g D1) as []. unfold pick_arena. apply wp_bind, wp_get. destruct (Z.eqb_spec (N_ARENA g) 1).
      * apply wp_ret. exists []. split; [right; exact D|]. split; [apply keep_refl|]. split; [apply mine_nil|]. cbn. split; [lia|]. split; [auto|discriminate].
      * destruct (Z.ltb_spec (st_arena s tid) (N_ARENA g)) as [L|L]; [elim (proj2 O); exact (D6 tid L)|]. apply wp_bind, wp_put, wp_ret.
        exists [TP tid]. pose proof (Z.mod_pos_bound (st_ctr s) (N_ARENA g) ltac:(lia)). split; [right|split; [apply keep_os; reflexivity|split; [apply mine_TP|cbn; split; [lia|split; [auto|discriminate]]]]].
        constructor; auto; cbn.
        -- unfold w32. apply Z.mod_pos_bound. lia.
        -- intros t. unfold fupd. destruct (t =? tid); [lia|auto].
        -- intros t. unfold fupd. destruct (Z.eqb_spec t tid) as [->|]; [auto|]. intros Ht. right. apply (D6 t Ht).
        -- intros t [<-|Ht]; [eauto|]. apply D7, Ht.
  - intros [a rd] r' (Ha & Hr & Hd). cbn [fst snd] in *. eapply csafe_bind with (Q := fun _ r' => ready_toks r').
    + destruct rd; [cbn; auto|]. apply init_slow_csafe, Hr.
    + intros [] r2 H. cbn. auto.
Qed.

(** ** simple actions *)
Lemma errno_up bal s LL T e : up bal s LL T -> up bal (set_st_os (set_errno e (st_os s)) s) LL T.
Proof.
  intros U. apply (up_quiet bal s LL _ [] [] T U); auto.
  - eapply hstep_ext; [apply hstep_refl|reflexivity|reflexivity|split; [reflexivity|apply le_n]].
  - constructor; reflexivity.
  - apply ginv_poke; [apply U|split; cbn; auto|reflexivity|]. intros x K. elim K. reflexivity.
  - intros a b [].
  - intros f x _ _. reflexivity.
Qed.
Lemma errno_csafe tid e r : mine tid r -> csafe tid (set_errno_to e) r (fun _ r' => r' = r).
Proof.
  intros Mr. unfold set_errno_to. apply csafe_act. intros s rest bal T Jv O. unfold on_os. apply wp_zoom, wp_modify. exists r. split; [|split; [split; [intros _ p n x _ _|intros f x _ _]; reflexivity|auto]].
  destruct Jv as [(LL & U)|[]]; [left; exists LL; apply errno_up, U|right; constructor; auto].
Qed.
Lemma geterrno_csafe tid r : mine tid r -> csafe tid (act (gets (fun s => errno (st_os s)))) r (fun _ r' => r' = r).
Proof. intros Mr. apply csafe_act. intros s rest bal T Jv O. apply wp_gets. exists r. split; [auto|]. split; [apply keep_refl|auto]. Qed.
Lemma fatal_csafe {A} tid (m : string) r (Q : A -> list tok -> Prop) : md = false -> csafe tid (act (fatal m)) r Q.
Proof. intros E. apply csafe_act. intros s rest bal T Jv O. apply wp_fail. right. right. right. right. eauto. Qed.
Lemma mine_cons tid t r : (match t with TO _ => False | TP x => x = tid | TG _ => m_sz sz = false | _ => True end) -> mine tid r -> mine tid (t :: r).
Proof.
  intros H (A & B & C). split; [|split].
  - intros x [->|Hx]; [destruct H|]. destruct (A x Hx) as (E & f & F1 & F2). split; [auto|]. exists f. split; [right; auto|auto].
  - intros x [->|Hx]; [auto|auto].
  - intros x [->|Hx]; [auto|eauto].
Qed.
(** reading the bounds *)
Lemma get_csafe tid r (Q : state -> list tok -> Prop) : mine tid r ->
  (forall s, is_init s = true -> (exists bal LL rest, up bal s LL (r ++ rest)) -> Q s (TI (st_start s) (st_end s) :: r)) ->
  ((forall t, In t r -> exists i, t = TP i) -> forall s, st_end s = 0 -> Q s r) -> csafe tid (act get) r Q.
Proof.
  intros Mr H1 H2. apply csafe_act. intros s rest bal T [(LL & U)|D] O; apply wp_get.
  - exists (TI (st_start s) (st_end s) :: r). split; [left; exists LL; apply (up_learn g md bal s LL (r ++ rest) U)|]. split; [apply keep_refl|]. split; [apply mine_cons; [exact Logic.I|auto]|]. apply H1; [apply (up_is_init _ _ _ _ _ _ U)|eauto].
  - exists r. split; [right; exact D|]. split; [apply keep_refl|]. split; [auto|]. apply H2; [|apply D]. intros t Ht. apply (dn_toks _ _ _ _ _ D). apply in_or_app. auto.
Qed.
Lemma enforce_csafe tid r : mine tid r -> (md = true -> exists a e, In (TI a e) r) -> csafe tid (act enforce_init) r (fun _ r' => exists a e, r' = TI a e :: r).
Proof.
  intros Mr K. apply csafe_act. intros s rest bal T Jv O. unfold enforce_init. apply wp_bind, wp_get. destruct Jv as [(LL & U)|D].
  - rewrite (up_is_init _ _ _ _ _ _ U). apply wp_ret. exists (TI (st_start s) (st_end s) :: r). split; [left; exists LL; apply (up_learn g md bal s LL (r ++ rest) U)|]. split; [apply keep_refl|]. split; [apply mine_cons; [exact Logic.I|auto]|]. eauto.
  - assert (is_init s = false) as -> by (unfold is_init; rewrite (dn_end _ _ _ _ _ D); reflexivity). apply wp_fail. right. right. right. right. destruct md eqn:E; [|eauto].
    destruct (K eq_refl) as (a & e & Hin). destruct (dn_toks _ _ _ _ _ D (TI a e) ltac:(apply in_or_app; auto)) as (i & [=]).
Qed.

(** ** small blocks *)
Definition owns (t : tok) (p n : Z) : Prop := if md then t = TS p n \/ (exists gd, t = TL (mkRegion p n gd)) else t = TG p.
Lemma md_clean bal s LL T : md = true -> up bal s LL T -> clean g s.
Proof. intros E [_ _ _ _ _ _ G]. unfold ghost in G. rewrite E in G. apply G. Qed.
Lemma fatal_ok m : md = false -> efault (Fatal m). Proof. intros E. right. right. right. right. eauto. Qed.
Lemma md_dec : md = true \/ md = false. Proof. destruct md; auto. Qed.
Lemma waf_not f s T bal LL : up bal s LL T -> waf g s f -> efault f.
Proof.
  intros U (-> & _ & Nc). destruct md_dec as [E|E]; [|apply fatal_ok, E]. elim Nc. eapply md_clean; eauto.
Qed.
Lemma in_slab_bounds p s a e : st_start s = a -> st_end s = e -> in_slab_region p s = (p <? e) && (a <=? p). Proof. intros <- <-. reflexivity. Qed.
(** calls that allocate *)
Definition may_own : Prop := md = true \/ m_sz sz = false.
Lemma mine_own tid t p n a e : may_own -> owns t p n -> mine tid [t; TI a e].
Proof. intros [A|A] H; (apply mine_cons; [|apply mine_TI]); unfold owns in H; [rewrite A in H; destruct H as [->|(gd & ->)]; exact Logic.I|]. destruct md; [destruct H as [->|(gd & ->)]; exact Logic.I|subst t; exact A]. Qed.
Definition got_small (t : tok) (p n : Z) : Prop := if md then t = TS p n else t = TG p.
Lemma small_owns t p n : got_small t p n -> owns t p n. Proof. unfold got_small, owns. destruct md; auto. Qed.
Lemma small_csafe tid arena size a e : may_own -> 0 <= arena < N_ARENA g -> 0 <= size <= max_slab_size_class g ->
  csafe tid (allocate_small g arena size) [TI a e] (fun x r' => match x with None => r' = [TI a e] | Some p => exists t, r' = [t; TI a e] /\ got_small t p (usable_of g (si_class (get_size_info size))) end).
Proof.
  intros MO Ha Hs. destruct (gsi_class_range g size ltac:(lia)) as (K1 & _ & K3). set (k := si_class (get_size_info size)) in *.
  unfold allocate_small. fold k. replace (negb (size =? 0)) with (negb (k =? 0)) by (f_equal; destruct (Z.eqb_spec size 0), (Z.eqb_spec k 0); tauto).
  apply (csafe_up g md sz tid _ _ a e); [left; reflexivity|]. intros s rest bal LL T U O Es Ee. assert (class_in g arena k) as C by (split; lia).
  pose proof (up_inv _ _ _ _ _ _ U) as I. eapply wp_mono; [eapply wp_far; [apply (alloc_class_wp g s LL I arena k C)|exact (alloc_far g s LL _ arena k I C)]| |].
  2:{ intros f [H|[H|H]]; [left; auto|right; left; auto|eapply waf_not; eauto]. }
  assert (forall s', same_place s s' -> forall a0 e0, In (TI a0 e0) [TI a e] -> st_start s = a0 /\ st_end s = e0) as TIk by (intros s' _ a0 e0 [[= <- <-]|[]]; auto).
  intros [p|] s' ((I' & SP & Er & H) & FAR); pose proof (calm_far g s LL [TI a e] rest arena k s' I C FAR) as CM.
  - destruct H as (H & (i & j & SB) & _).
    assert (exists t, got_small t p (usable_of g k) /\ gch g md s' LL None (Some (p, usable_of g k)) [] [t] /\ is_bt t = true /\ flights [t; TI a e] = [] /\ opens [t; TI a e] = []) as (t & Ot & Gt & Bt & Ft & Opt).
    { unfold got_small, gch. destruct md.
      - exists (TS p (usable_of g k)). split; [auto|]. split; [|auto]. split; [auto|]. right. exists (TS p (usable_of g k)), p, (usable_of g k). repeat (split; [reflexivity|]).
        destruct (sblk_loc g s' LL _ I' _ _ _ _ _ SB) as [L _]. split; [exact L|]. left. exists arena, k, i, j. auto.
      - exists (TG p). auto. }
    exists [t; TI a e]. edestruct (up_step g md bal s LL s' LL None (Some (p, usable_of g k)) [TI a e] [t; TI a e] rest [] [t] []) as [U' K'].
    + exact U.
    + exact H.
    + exact SP.
    + reflexivity.
    + rewrite Ft. exact I'.
    + rewrite Opt. apply U.
    + apply U.
    + intros a0 e0 [Et|Hin]; [subst t; discriminate Bt|eapply TIk; eauto].
    + auto.
    + discriminate.
    + exact Gt.
    + apply Permutation_refl.
    + cbn. rewrite Bt. apply Permutation_refl.
    + exact CM.
    + split; [exists LL; exact U'|]. split; [exact K'|]. split; [eapply mine_own, small_owns; eauto; exact MO|eauto].
  - destruct H as (H & _). exists [TI a e]. destruct (up_quiet bal s LL s' [TI a e] [TI a e] rest U H SP I') as [U' K']; auto; [eapply TIk; eauto|].
    split; [exists LL; exact U'|]. split; [exact K'|]. split; [apply mine_TI|auto].
Qed.
(** the tokens a call that frees p starts and ends with *)
Definition lent_small (p n : Z) : list tok := if md then [TS p n] else [].
Definition gone (p : Z) : list tok := if md then [] else [TD p].
Lemma mine_plain tid r : (forall t, In t r -> match t with TO _ | TP _ | TG _ => False | _ => True end) -> mine tid r.
Proof. intros H. split; [intros x Hx; elim (H _ Hx)|split; intros x Hx; elim (H _ Hx)]. Qed.
Lemma mine_gone tid p a e : mine tid (gone p ++ [TI a e]).
Proof. apply mine_plain. unfold gone. intros t. destruct md; cbn; intros Ht; repeat destruct Ht as [<-|Ht]; try exact Logic.I; destruct Ht. Qed.
Lemma slab_block' s LL X p n : ginv g s LL X -> in_slab_region p s = true -> block g s LL p n -> exists a k i j, sblk g s a k i j p /\ n = usable_of g k.
Proof.
  intros I L [H|(gd & H)]; [exact H|]. exfalso. destruct (region_p g s LL X I _ H) as (B1 & _). cbn in B1.
  assert (in_slab_region p s = false) by (apply (region_not_slab g s LL X I _ H); cbn; lia). congruence.
Qed.
Lemma dsmall_csafe tid p n ex a e : 0 <= p < 2 ^ 64 -> (p <? e) && (a <=? p) = true -> (ex = None \/ m_sz sz = true) ->
  csafe tid (deallocate_small g p ex) (lent_small p n ++ [TI a e]) (fun _ r' => r' = gone p ++ [TI a e]).
Proof.
  intros Hp L Hx. unfold deallocate_small. apply (csafe_up g md sz tid _ _ a e); [apply in_or_app; right; left; auto|]. intros s rest bal LL T U O Es Ee.
  pose proof (up_inv _ _ _ _ _ _ U) as I. rewrite <- (in_slab_bounds p s a e Es Ee) in L.
  destruct (addr_class g s (gi_u _ _ _ _ I) (gi_pl _ _ _ _ I) p L) as (a0 & k & E & Ck & _). apply (at_class_wp g s p a0 k (fun a k => on_class g a k (deallocate_small_class g k p ex)) _ _ E).
  assert (md = true -> exists i j, sblk g s a0 k i j p) as HB.
  { intros Em. destruct U as [_ _ _ _ _ _ G]. unfold ghost, lent_small in G. rewrite Em in G. destruct G as (_ & G & _). destruct (G (TS p n) ltac:(left; auto)) as [_ B].
    destruct (slab_block' _ _ _ _ _ I L B) as (a' & k' & i & j & SB & _). destruct (sblk_loc g s LL _ I _ _ _ _ _ SB) as [_ E']. rewrite E in E'. injection E' as <- <-. eauto. }
  eapply wp_mono; [eapply wp_far; [apply (dealloc_class_wp g s LL I a0 k Ck p ex Hp)|exact (dealloc_far g s LL _ a0 k p ex I Ck Hp)]| |].
  - intros [] s' ((I' & SP & Er & H & (i & j & SB) & _) & FAR). exists (gone p ++ [TI a e]).
    edestruct (up_step g md bal s LL s' LL (Some p) None (lent_small p n ++ [TI a e]) (gone p ++ [TI a e]) rest (lent_small p n) (gone p) []) as [U' K'].
    + exact U.
    + exact H.
    + exact SP.
    + reflexivity.
    + replace (flights (gone p ++ [TI a e]) ++ flights rest) with (flights ((lent_small p n ++ [TI a e]) ++ rest)); [exact I'|]. unfold gone, lent_small. destruct md; reflexivity.
    + replace (opens (gone p ++ [TI a e]) ++ opens rest) with (opens ((lent_small p n ++ [TI a e]) ++ rest)); [apply U|]. unfold gone, lent_small. destruct md; reflexivity.
    + apply U.
    + intros a1 e1 Hin. unfold gone in Hin. destruct md; cbn in Hin; [destruct Hin as [[= <- <-]|[]]; auto|destruct Hin as [[=]|[[= <- <-]|[]]]; auto].
    + auto.
    + intros q [= <-]. exists (usable_of g k). left. exists a0, k, i, j. auto.
    + unfold gch, gone, lent_small. destruct md; [|auto]. split; [right|left; auto]. exists (TS p n), p, n. auto.
    + unfold lent_small. destruct md; apply Permutation_refl.
    + unfold gone. destruct md; apply Permutation_refl.
    + exact (calm_far g s LL _ rest a0 k s' I Ck FAR).
    + split; [exists LL; exact U'|]. split; [exact K'|]. split; [|reflexivity]. apply mine_gone.
  - intros f [[H _]|[[H _]|[(H & e0 & Hex & _)|[[H N]|(-> & _ & Nc)]]]]; [left; auto|right; left; auto| | |].
    + right. right. right. left. destruct Hx as [->|Hz]; [discriminate|]. split; [auto|]. left. exact H.
    + destruct md_dec as [Em|Em]; [destruct (HB Em) as (i & j & SB); elim (N _ _ SB)|]. destruct (free_msgs_fatal _ H) as (m & ->). apply fatal_ok, Em.
    + destruct md_dec as [Em|Em]; [elim Nc; eapply md_clean; eauto|]. apply fatal_ok, Em.
Qed.

(** ** queries *)
Lemma put_up bal s LL T a k : class_in g a k -> up bal s LL T -> up bal (put_cls a k (st_cls s a k) (set_st_os (st_os s) s)) LL T.
Proof.
  intros Ck [A B C D E U G]. set (s' := put_cls _ _ _ _).
  assert (forall a0 k0, st_cls s' a0 k0 = st_cls s a0 k0) as F. { intros a0 k0. cbn. destruct ((a0 =? a) && (k0 =? k)) eqn:Q; [|reflexivity]. assert (a0 = a /\ k0 = k) as [-> ->] by lia. reflexivity. }
  assert (forall p n, block g s' LL p n <-> block g s LL p n) as BE by (intros p n; unfold block, sblk; split; (intros [(a1 & k1 & i & j & H & Hn)|H]; [left; exists a1, k1, i, j; split; [rewrite F in *; auto|auto]|right; auto])).
  constructor; auto.
  - assert (exists E F, cinvL g k (st_os s) (st_cls s a k) E F) as Iv by (destruct (gclass _ _ _ _ A a k Ck) as (E' & F' & H); eauto).
    apply (ginv_class_step g s LL _ a k (st_os s) (st_cls s a k)); auto. apply os_in_refl.
  - revert G. unfold ghost. destruct md.
    + intros (G1 & G2 & G3). split; [|split; [|auto]].
      * destruct G1 as [Cc Cz]. constructor; change (st_os s') with (st_os s); intros; rewrite F in *; eauto.
      * intros t Ht. specialize (G2 t Ht). destruct t; cbn in *; auto. split; [apply G2|apply BE, G2].
    + intros G p. destruct (G p) as [G1 G2]. split; intros K; [apply G1|apply G2].
      * destruct K as (n & K). exists n. apply BE, K.
      * intros n. rewrite <- BE. auto.
Qed.
(** what is left when a call returns *)
Definition ends (X r : list tok) : Prop := flights r = [] /\ opens r = [] /\ (forall t, ~ In (TP t) r) /\ Permutation (bts r) X.
Definition lent (t : tok) (p n : Z) : Prop := t = TS p n \/ exists gd, t = TL (mkRegion p n gd).
Lemma lent_facts t p n : lent t p n -> is_bt t = true /\ blks [t] = [(p, n)] /\ (forall i, t <> TP i) /\ flights [t] = [] /\ opens [t] = [].
Proof. intros [->|(gd & ->)]; repeat (split; [reflexivity|]); (split; [discriminate|split; reflexivity]). Qed.
Definition loan (t : tok) (p : Z) (r : list tok) : Prop := if md then r = [t] /\ exists n, lent t p n else r = [].
Lemma loan_mine t p r tid : loan t p r -> mine tid r.
Proof. intros H. apply mine_plain. revert H. unfold loan. destruct md; [intros (-> & n & [->|(gd & ->)])|intros ->]; intros t' Ht; repeat destruct Ht as [<-|Ht]; try exact Logic.I; destruct Ht. Qed.
Lemma ends_TI X a e r : ends X r -> ends X (TI a e :: r).
Proof. intros (A & B & C & D). split; [exact A|]. split; [exact B|]. split; [|exact D]. intros t [[=]|H]. exact (C t H). Qed.
Lemma ends_self t p r : loan t p r -> ends r r.
Proof.
  unfold loan, ends. destruct md; [intros (-> & n & L)|intros ->; cbn; auto].
  destruct (lent_facts _ _ _ L) as (A & _ & C & D & E). split; [exact D|]. split; [exact E|]. split; [intros i [H|[]]; elim (C i); auto|]. cbn. rewrite A. apply Permutation_refl.
Qed.
Lemma loan_block bal s LL t p r rest X : md = true -> loan t p r -> up bal s LL (X ++ r ++ rest) ->
  (in_slab_region p s = true -> exists a k i j, slab_size_class g s p = (a, k) /\ sblk g s a k i j p) /\ (in_slab_region p s = false -> exists n gd, In (mkRegion p n gd) (rl_own LL) /\ t = TL (mkRegion p n gd)).
Proof.
  intros Em L U. unfold loan in L. rewrite Em in L. destruct L as (-> & n & L). pose proof (up_inv _ _ _ _ _ _ U) as I. destruct U as [_ _ _ _ _ _ G]. unfold ghost in G. rewrite Em in G. destruct G as (_ & G & _).
  specialize (G t ltac:(apply in_or_app; right; left; auto)). destruct L as [->|(gd & ->)]; cbn in G.
  - destruct G as [G1 G2]. split; [intros _|congruence]. destruct (slab_block' _ _ _ _ _ I G1 G2) as (a & k & i & j & SB & _). exists a, k, i, j. split; [|auto]. apply (sblk_loc g s LL _ I _ _ _ _ _ SB).
  - destruct (region_p g s LL _ I _ G) as (B1 & _). cbn in B1. split; [|eauto]. rewrite (region_not_slab g s LL _ I _ G); [discriminate|cbn; lia].
Qed.
Lemma usable_csafe tid p t r : 0 <= p < 2 ^ 64 -> p <> 0 -> loan t p r -> csafe tid (h_malloc_usable_size g p) r (fun _ r' => ends r r').
Proof.
  intros Hp N0 L. pose proof (loan_mine _ _ _ tid L) as Mr. unfold h_malloc_usable_size. replace (p =? 0) with false by lia.
  assert (forall a e r', (r' = TI a e :: r \/ exists a' e', r' = TI a e :: TI a' e' :: r) -> (md = true -> exists s bal LL rest, up bal s LL (r ++ rest) /\ in_slab_region p s = false) -> csafe tid (act (on_ra (usable_find p))) r' (fun _ r'' => r'' = r')) as FIND.
  { intros a e r' Hr' Hnb. assert (In (TI a e) r') as HTI by (destruct Hr' as [->|(a' & e' & ->)]; left; auto).
    assert (mine tid r') as Mr' by (destruct Hr' as [->|(a' & e' & ->)]; repeat (apply mine_cons; [exact Logic.I|]); auto).
    apply (csafe_up g md sz tid _ _ a e); auto. intros s rest bal LL T U O Es Ee. pose proof (up_inv _ _ _ _ _ _ U) as I. unfold on_ra. apply wp_zoom. unfold usable_find. apply wp_bind.
    apply (find_wp g s (ra_get s) LL (flights (r' ++ rest))); [rewrite ra_put_get; exact I| |].
    - intros i szz gd Hin Hi _ Hc. apply wp_bind, wp_gets, wp_ret. rewrite ra_put_get. exists r'. split; [eauto|]. split; [apply keep_refl|]. auto.
    - intros N. apply wp_bind, wp_gets. apply wp_fail. destruct md_dec as [Em|Em]; [|apply fatal_ok, Em]. exfalso.
      destruct (Hnb Em) as (s0 & bal0 & LL0 & rest0 & U0 & L0). destruct (loan_block _ _ _ t p r rest0 [] Em L U0) as [_ B0]. destruct (B0 L0) as (n & gd & _ & ->).
      assert (In (mkRegion p n gd) (rl_own LL)) as Hin.
      { destruct U as [_ _ _ _ _ _ G]. unfold ghost in G. rewrite Em in G. destruct G as (_ & G & _). apply (G (TL (mkRegion p n gd))). unfold loan in L. rewrite Em in L. destruct L as [-> _].
        destruct Hr' as [->|(a' & e' & ->)]; cbn; auto. }
      apply N. apply in_map_iff. eexists. split; [|apply in_or_app; left; exact Hin]. reflexivity. }
  eapply csafe_bind with (Q := fun s r' => (r' = TI (st_start s) (st_end s) :: r /\ is_init s = true /\ (exists bal LL rest, up bal s LL (r ++ rest))) \/ (md = false /\ r' = r /\ st_end s = 0)).
  - apply get_csafe; [exact Mr| |]; [intros s Ei K; left; auto|]. intros Hr s E0. right. split; [|auto]. destruct md_dec as [Em|Em]; [exfalso|auto].
    unfold loan in L. rewrite Em in L. destruct L as (-> & n & L). destruct (lent_facts _ _ _ L) as (_ & _ & C & _). destruct (Hr t ltac:(left; auto)) as (i & K). exact (C i K).
  - intros s r' [(-> & Ei & bal & LL & rest & U)|(Em & -> & E0)].
    + destruct (in_slab_region p s) eqn:Sl.
      * eapply csafe_bind with (Q := fun _ r' => r' = TI (st_start s) (st_end s) :: r).
        -- apply (csafe_up g md sz tid _ _ (st_start s) (st_end s)); [left; auto|]. clear bal LL rest U. intros s1 rest bal LL T U O Es Ee. pose proof (up_inv _ _ _ _ _ _ U) as I.
           assert (in_slab_region p s1 = true) as Sl1 by (unfold in_slab_region in *; rewrite Es, Ee; auto).
           destruct (addr_class g s1 (gi_u _ _ _ _ I) (gi_pl _ _ _ _ I) p Sl1) as (a0 & k & E & Ck & _). apply (at_class_wp g s1 p a0 k (fun a k => on_class g a k (memory_corruption_check_class g k p)) _ _ E).
           apply on_class_wp; [exact Ck|]. destruct (gclass _ _ _ _ I a0 k Ck) as (E1 & F1 & Iv). eapply wp_mono; [apply (corruption_check_wp g k (st_os s1) (st_cls s1 a0 k) E1 F1 p Iv Hp)| |].
           ++ intros [] cs (-> & i & j & Hj & Hg & Ep & Hcn). cbn [cs_os cs_c]. exists (TI (st_start s) (st_end s) :: r). split; [exists LL; apply put_up; auto|]. split; [apply keep_os; reflexivity|]. split; [apply mine_cons; [exact Logic.I|auto]|reflexivity].
           ++ intros f Hf. destruct md_dec as [Em|Em].
              ** exfalso. destruct Hf as [[H N]|(-> & i & j & Hj & Hg & -> & K)].
                 --- destruct (loan_block _ _ _ t p r rest [TI (st_start s) (st_end s)] Em L U) as [B0 _]. destruct (B0 Sl1) as (a' & k' & i & j & E' & SB). rewrite E in E'. injection E' as <- <-. destruct SB as (_ & Hj & Hg & Ep). exact (N i j Hj Hg Ep).
                 --- pose proof (md_clean _ _ _ _ Em U) as [Cc _]. apply K. apply Cc; auto.
              ** destruct Hf as [[H N]|(-> & _)]; [destruct (usable_msgs_fatal _ H) as (m & ->)|]; apply fatal_ok, Em.
        -- intros [] r' ->. cbn. apply ends_TI, (ends_self t p), L.
      * eapply csafe_bind; [apply enforce_csafe; [apply mine_cons; [exact Logic.I|auto]|intros _; do 2 eexists; left; reflexivity]|]. intros [] r' (a & e & ->).
        eapply csafe_mono; [apply (FIND a e); [right; eauto|intros _; exists s, bal, LL, rest; auto]|]. intros x r' ->. apply ends_TI, ends_TI, (ends_self t p), L.
    + assert (in_slab_region p s = false) as -> by (unfold in_slab_region; rewrite E0; lia).
      eapply csafe_bind; [apply enforce_csafe; [auto|congruence]|]. intros [] r' (a & e & ->). eapply csafe_mono; [apply (FIND a e); [left; auto|congruence]|]. intros x r' ->. apply ends_TI, (ends_self t p), L.
Qed.

(** ** malloc_trim *)
Lemma trim_csafe tid l a e : (forall x, In x l -> class_in g (fst x) (snd x)) -> forall b, csafe tid (trim_classes g l b) [TI a e] (fun _ r' => r' = [TI a e]).
Proof.
  induction l as [|(ar & k) l IH]; intros Hl b; [reflexivity|]. cbn [trim_classes]. eapply csafe_bind with (Q := fun _ r' => r' = [TI a e]).
  - destruct (Z.eqb_spec k 0) as [|Nk]; [reflexivity|]. apply (csafe_up g md sz tid _ _ a e); [left; auto|]. intros s rest bal LL T U O Es Ee. pose proof (up_inv _ _ _ _ _ _ U) as I.
    pose proof (Hl (ar, k) ltac:(left; auto)) as Ck. cbn [fst snd] in Ck. eapply wp_mono; [eapply wp_far; [apply (trim_wp g s LL I ar k Ck Nk)|exact (trim_far g s LL _ ar k I Ck Nk)]| |intros f [H|H]; [left|right; left]; auto].
    intros x s' (((I' & SP & Er & H) & _) & FAR). pose proof (calm_far g s LL [TI a e] rest ar k s' I Ck FAR) as CM. exists [TI a e]. destruct (up_quiet bal s LL s' [TI a e] [TI a e] rest U H SP I') as [U' K']; auto; [intros a0 e0 [[= <- <-]|[]]; auto|].
    split; [eauto|]. split; [auto|]. split; [apply mine_TI|auto].
  - intros x r' ->. apply IH. intros y Hy. apply Hl. right. auto.
Qed.
Lemma all_classes_in x : In x (all_classes g) -> class_in g (fst x) (snd x).
Proof.
  unfold all_classes. intros H. apply in_flat_map in H. destruct H as (a & Ha & H). apply in_map_iff in H. destruct H as (k & <- & Hk). apply in_zrange in Ha. apply in_zrange in Hk. split; cbn [fst snd]; [exact Ha|exact Hk].
Qed.
Lemma malloc_trim_csafe tid : csafe tid (h_malloc_trim g) [] (fun _ r' => ends [] r').
Proof.
  unfold h_malloc_trim. eapply csafe_bind with (Q := fun s r' => r' = [TI (st_start s) (st_end s)] \/ (r' = [] /\ st_end s = 0)).
  - apply get_csafe; [apply mine_nil|auto|auto].
  - assert (ends [] []) as E0 by (split; [reflexivity|]; split; [reflexivity|]; split; [intros t []|apply Permutation_refl]).
    intros s r' [->|[-> E]].
    + destruct (is_init s); cbn [negb]; [|apply ends_TI, E0]. eapply csafe_mono; [apply trim_csafe, all_classes_in|]. intros b r' ->. apply ends_TI, E0.
    + unfold is_init. rewrite E. cbn. exact E0.
Qed.
End M.
