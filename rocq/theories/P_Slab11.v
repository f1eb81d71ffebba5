(** Size class: specification of malloc_trim for one class. *)
From Coq Require Import String ZArith List Bool Lia ZifyBool Permutation.
From Verif Require Import M_Base M_Config M_SizeClass M_Libdivide M_OS M_Random M_Slab
  P_Base P_Count P_SizeClass P_Libdivide P_Random P_Bitmap P_Bitmap2 P_OS P_Links P_Slab1 P_Slab2 P_Slab3 P_Slab4 P_Slab5 P_Slab6 P_Slab7 P_Slab8 P_Slab9.
Import ListNotations.
Open Scope Z_scope.
Ltac Zify.zify_post_hook ::= idtac.

Lemma firstn_In {A} m (l : list A) x : In x (firstn m l) -> In x l.
Proof. revert m. induction l as [|a l IH]; intros [|m]; cbn; auto; [tauto|]. intros [|]; eauto. Qed.
Lemma set_c_empty_id c : set_c_empty (c_empty c) c = c. Proof. destruct c; reflexivity. Qed.
Lemma bind_eq {S A B} (m : M S A) (f : A -> M S B) s : bind m f s = match m s with Ok (a, s') => f a s' | Fail e => Fail e end. Proof. reflexivity. Qed.
Definition frames h {A} (m : M cstate A) : Prop := forall o c, m (mkCst o (set_c_empty h c)) =
  match m (mkCst o c) with Ok (x, s) => Ok (x, mkCst (cs_os s) (set_c_empty h (cs_c s))) | Fail f => Fail f end.
Lemma frames_bind h {A B} (m : M cstate A) (f : A -> M cstate B) : frames h m -> (forall a, frames h (f a)) -> frames h (bind m f).
Proof. intros Hm Hf o c. unfold bind. rewrite Hm. destruct (m (mkCst o c)) as [[a [o' c']]|e]; [|auto]. cbn. apply Hf. Qed.
Lemma frames_upd_md h i f : frames h (upd_md i f).
Proof. intros o c. unfold upd_md, md, set_md, bind, gets. cbn. destruct ((0 <=? i) && (i <? c_mallocated c)) eqn:Hi; [|reflexivity]. cbn. rewrite Hi. reflexivity. Qed.
Lemma frames_upd_c h f : (forall c, f (set_c_empty h c) = set_c_empty h (f c)) -> frames h (upd_c f).
Proof. intros H o c. unfold upd_c, modify. cbn. rewrite H. reflexivity. Qed.
Lemma frames_gets h {A} (f : size_class -> M cstate A) : (forall c, frames h (f c)) -> (forall c, f (set_c_empty h c) = f c) -> frames h (bind (gets cs_c) f).
Proof. intros H E o c. unfold bind, gets. cbn. rewrite E. apply H. Qed.
Lemma frames_ret h {A} (a : A) : frames h (ret a). Proof. intros o c. reflexivity. Qed.
Lemma frames_aget h {A} (l : list A) i : frames h (aget l i).
Proof. intros o c. unfold aget. destruct (lget l i); reflexivity. Qed.
Lemma frames_rand h {A} (m : M rstate A) : frames h (c_rand m).
Proof. intros o c. unfold c_rand, zoom. cbn. destruct (m _) as [[a r]|e]; reflexivity. Qed.
Lemma enqueue_frame g i h o c : enqueue_free_slab g i (mkCst o (set_c_empty h c)) =
  match enqueue_free_slab g i (mkCst o c) with Ok (x, s) => Ok (x, mkCst (cs_os s) (set_c_empty h (cs_c s))) | Fail f => Fail f end.
Proof.
  revert o c. fold (frames h (enqueue_free_slab g i)). unfold enqueue_free_slab.
  apply frames_bind; [apply frames_upd_md|intros _]. apply frames_bind; [apply frames_rand|intros idx].
  apply frames_gets; [|reflexivity]. intros c. apply frames_bind; [apply frames_aget|intros sub].
  apply frames_bind; [apply frames_upd_c; reflexivity|intros _]. destruct sub; [|apply frames_ret].
  apply frames_bind; [|intros _; apply frames_upd_c; reflexivity]. destruct (c_ftail c); [apply frames_upd_md|apply frames_upd_c; reflexivity].
Qed.

Section P11.
Context (g : config) (k : Z).
Local Notation n := (get_slots g k).
Local Notation sz := (slot_size g k).
Local Notation b := (slab_size_of g k).
Ltac wpb := apply wp_bind.

(** take the first cached empty slab in hand *)
Definition take_empty (i : Z) (c : size_class) : size_class :=
  set_c_empty (nxt c i) (set_c_empty_total (w64 (c_empty_total c - b)) c).
Lemma cinvX_take_empty o c P E F L i : cinvX g k o c P (i :: E) F None L ->
  cinvX g k o (take_empty i c) P E F (Some i) L /\ cntof c i = 0 /\ ~ In i P /\ nxt c i = hd_error E /\ c_empty_total (take_empty i c) = c_empty_total c - b.
Proof.
  intros I. pose proof I as [G Me Sl Li Ma Qu Pg Et Rn Fq]. set (c' := take_empty i c).
  pose proof (class_facts_all g k (ge_k _ _ _ G)) as CF. pose proof Ma as [].
  assert (is_slab g c i /\ cntof c i = 0) as [Is C0] by (apply ma_0; [discriminate|now left]).
  pose proof Li as []. cbn [app] in lk_nd. inversion lk_nd as [|? ? Ni Nd]; subst.
  assert (~ In i P) as NiP by (intros H; apply (lk_dj i H); now left).
  assert (c_empty_total c' = c_empty_total c - b) as ET.
  { change (c_empty_total c') with (w64 (c_empty_total c - b)). rewrite Et, zlen_cons. pose proof (zlen_nonneg E).
    destruct CF. assert (zlen (i :: E) <= get_metadata_max g b) as B.
    { apply NoDup_bound.
      - change (i :: E ++ F ++ somes (c_fq c)) with ((i :: E) ++ F ++ somes (c_fq c)) in lk_nd. apply NoDup_app_inv in lk_nd. tauto.
      - pose proof (meta_max_bounds g k c G). lia.
      - intros x Hx. pose proof (slab_range g k o c _ _ _ _ _ x I) as R.
        assert (is_slab g c x) as Sx by (apply ma_0; [discriminate|]; rewrite in_app_iff; auto). specialize (R Sx). lia. }
    rewrite zlen_cons in B. pose proof (meta_max_bounds g k c G) as Mb.
    change (2 ^ 28) with 268435456 in Mb. rewrite w64_small; [lia|]. change (2 ^ 64) with 18446744073709551616. nia. }
  split; [|split; [auto|split; [auto|split; [apply lk_Es|auto]]]].
  constructor; auto; try fr.
  - constructor; auto.
    + change (c_empty c') with (nxt c i). apply lk_Es.
    + apply lk_Es.
    + intros x Hx Hin. apply (lk_dj x Hx). now right.
  - constructor; auto.
    + intros x Hx. apply ma_P. discriminate.
    + intros x Hx. change (c_fq c') with (c_fq c). change (cntof c' x) with (cntof c x). change (is_slab g c' x) with (is_slab g c x). rewrite <- ma_0 by discriminate. cbn. intuition congruence.
    + intros x Hx. injection Hx as <-. auto.
  - eapply pages_ext; [..|exact Pg]; auto. intros x. unfold active. change (cntof c' x) with (cntof c x). cbn. intuition congruence.
  - rewrite ET, Et, zlen_cons. lia.
Qed.

Record trim_rel (o : os) (c : size_class) (F : list Z) (o' : os) (c' : size_class) (F' E1 : list Z) : Prop := {
  tr_same : rsame c c';
  tr_st : c_nmalloc c' = c_nmalloc c /\ c_ndalloc c' = c_ndalloc c /\ c_allocated c' = c_allocated c;
  tr_used : forall x y, used c' x y = used c x y;
  tr_mem : forall x, mem o' x = mem o x \/ mem o' x = 0 /\ exists i, In i E1 /\ slabp g k c i <= x < slabp g k c i + b;
  tr_gone : forall i x, In i E1 -> slabp g k c i <= x < slabp g k c i + b -> mem o' x = 0 /\ pages o' (page_of x) = Some PNone;
  tr_os : os_in (in_class g c) o o';
  tr_F : exists F1, F' = F ++ F1;
  tr_perm : Permutation (E1 ++ F ++ somes (c_fq c)) (F' ++ somes (c_fq c'))
}.
Lemma trim_rel_refl o c F : trim_rel o c F o c F [].
Proof. constructor; auto. - apply rsame_refl. - intros i x []. - apply os_in_refl. - exists []. now rewrite app_nil_r. Qed.

(** [E]: the rest of the cache, headed by the iterator; c_empty itself is stale *)
Lemma trim_loop_wp : forall E fl o c F P tr,
  cinvX g k o (set_c_empty (hd_error E) c) P E F None [] -> stat_ok g k c F -> (List.length E <= fl)%nat ->
  wp (trim_loop g b fl (hd_error E) tr) (mkCst o c)
    (fun r s' => exists o' c' E1 E' F', s' = mkCst o' c' /\ E = E1 ++ E' /\ r = (hd_error E', tr || negb (match E1 with [] => true | _ => false end)) /\
       cinvX g k o' (set_c_empty (hd_error E') c') P E' F' None [] /\ stat_ok g k c' F' /\ trim_rel o c F o' c' F' E1 /\ (E' = [] \/ refused o o'))
    (fun f => sys_fault f \/ rng_fault f).
Proof.
  induction E as [|i E IH]; intros fl o c F P tr I ST Hf.
  - destruct fl; cbn [trim_loop hd_error]; apply wp_ret; exists o, c, [], [], F; rewrite orb_false_r; (do 3 (split; [auto|])); (split; [exact I|]); (split; [exact ST|]); (split; [apply trim_rel_refl|auto]).
  - destruct fl as [|fl]; [cbn in Hf; lia|]. cbn [trim_loop hd_error]. wpb. apply wp_gets. cbn [cs_c].
    pose proof (cinvX_take_empty o _ P E F [] i I) as (I1 & C0 & Ni & Nx & T1).
    pose proof I as [G Me Sl Li Ma Qu Pg Et Rn Fq].
    assert (is_slab g c i) as Is by (apply (ma_X _ _ _ _ _ _ _ (ci_match _ _ _ _ _ _ _ _ _ I1) i); auto).
    destruct (slab_range g k o _ _ _ _ _ _ i I Is) as [R1 R2]. change (c_mallocated (set_c_empty (hd_error (i :: E)) c)) with (c_mallocated c) in R1.
    assert (geom g k c) as G' by (eapply geom_ext; [..|exact G]; reflexivity).
    rewrite (get_slab_eq g k c G') by lia. wpb. apply c_sys_wp. cbn [cs_os].
    pose proof (purge_map_wp g k o _ P E F i [] I1) as PM. change (slabp g k (take_empty i (set_c_empty (hd_error (i :: E)) c)) i) with (slabp g k c i) in PM.
    eapply wp_mono; [exact PM| |intros f Hff; left; exact Hff]. intros [|] o1 H1; cbn [cs_c].
    + destruct H1 as [-> Rf]. apply wp_ret. exists (failed_os o), c, [], (i :: E), F. rewrite orb_false_r. split; [auto|]. split; [auto|]. split; [auto|].
      split; [eapply cinvX_os; [| |exact I]; auto|]. split; [auto|]. split; [|auto].
      constructor; auto; [apply rsame_refl|intros ? ? []|apply os_in_failed|exists []; now rewrite app_nil_r].
    + subst o1. wpb. eapply wp_mono; [apply slab_stats_wp with (Er := fun _ => False)| |intros f []]. intros _ s ->.
      set (c1 := if STATS g then set_c_slab_allocated (w64 (c_slab_allocated c - b)) c else c).
      assert (c1 = if STATS g then set_c_slab_allocated (w64 (c_slab_allocated c - b)) c else c) as Ec1 by reflexivity.
      pose proof (slab_dealloc_only g k c c1 Ec1) as OS. destruct (used_only g _ _ OS) as (U1 & C1 & Q1 & T1' & S1 & N1 & A1 & M1 & CE1).
      wpb. apply md_wp; [cbn [cs_c]; lia|]. cbn [cs_c]. fold (nxt c1 i). rewrite N1.
      change (nxt (set_c_empty (hd_error (i :: E)) c) i) with (nxt c i) in Nx. rewrite Nx.
      wpb. apply upd_c_wp. cbn [cs_c cs_os]. set (c2 := set_c_empty_total (w64 (c_empty_total c1 - b)) c1).
      assert (only_stats (take_empty i (set_c_empty (hd_error (i :: E)) c)) (set_c_empty (hd_error E) c2)) as OS2.
      { constructor. unfold c2, take_empty. change (nxt (set_c_empty (hd_error (i :: E)) c) i) with (nxt c i). rewrite Nx. unfold c1. destruct (STATS g); reflexivity. }
      pose proof (cinvX_stats g k o _ _ _ _ _ _ _ OS2 I1) as I2.
      wpb.
      assert (wp (enqueue_free_slab g i) (mkCst (mapped_os (slabp g k c i) b o) c2)
        (fun _ s' => exists o' c' F', s' = mkCst o' c' /\ os_rel (mapped_os (slabp g k c i) b o) o' /\ cinvX g k o' (set_c_empty (hd_error E) c') P E F' None [] /\ rsame c2 c' /\ sstats c2 c' /\
          (forall x y, used c' x y = used c2 x y) /\ nact g c' F' = nact g c2 F - 1 /\ enq_rel i c2 c' F F') rng_fault) as W.
      { pose proof (enqueue_wp g k o (mapped_os (slabp g k c i) b o) (set_c_empty (hd_error E) c2) P E F i [] I2 Ni) as EW.
        assert (cntof (set_c_empty (hd_error E) c2) i = 0) as C2 by (change (cntof (set_c_empty (hd_error E) c2) i) with (cntof c1 i); rewrite C1; exact C0).
        specialize (EW C2). assert (slabp g k (set_c_empty (hd_error E) c2) i = slabp g k c i) as Sp2 by (unfold slabp; change (c_start (set_c_empty (hd_error E) c2)) with (c_start c1); rewrite S1; auto).
        rewrite Sp2 in EW. specialize (EW (fun q => eq_refl) (fun x => eq_refl)).
        unfold wp in EW |- *. rewrite enqueue_frame in EW. destruct (enqueue_free_slab g i (mkCst (mapped_os (slabp g k c i) b o) c2)) as [[[] [o' c']]|f]; [|exact EW].
        cbn [cs_os cs_c] in EW. destruct EW as (o'' & c'' & F' & EE & O & I' & RS & SS & U & _ & N & _ & EQ & _ & _). injection EE as <- <-.
        exists o', c', F'. split; [auto|]. split; [exact O|]. split; [exact I'|].
        assert (rsame c2 c') as RS' by (destruct RS as [[]]; constructor; auto; constructor; auto).
        repeat (split; [assumption|]). exact EQ. }
      eapply wp_mono; [exact W| |intros f Hff; right; exact Hff]. intros _ s (o3 & c3 & F3 & -> & O3 & I3 & RS3 & SS3 & U3 & N3 & (t & sub & L1 & L2 & L3)).
      assert (rsame c c3) as RS. { eapply rsame_trans; [|exact RS3]. eapply rsame_trans; [eapply rsame_only; exact OS|]. constructor; auto. constructor; auto. }
      assert (c_start c3 = c_start c) as S3 by apply RS.
      eapply wp_mono; [eapply (IH fl o3 c3 F3 P true I3)| |auto].
      * intros St. rewrite N3. destruct SS3 as (_ & _ & _ & ->). change (c_slab_allocated c2) with (c_slab_allocated c1). change (nact g c2 F) with (nact g c1 F). rewrite A1, Ec1, St. cbn.
        rewrite ST, sub_w64 by auto. f_equal. lia.
      * cbn in Hf. lia.
      * intros r s (o4 & c4 & E1 & E' & F4 & -> & -> & -> & I4 & ST4 & TR & RF). exists o4, c4, (i :: E1), E', F4. split; [auto|]. split; [auto|]. cbn [orb negb]. rewrite orb_true_r.
        split; [auto|]. split; [exact I4|]. split; [exact ST4|].
        assert (forall x, in_pages (slabp g k c i) b (page_of x) = true <-> slabp g k c i <= x < slabp g k c i + b) as IP.
        { intros x. pose proof (class_facts_all g k (ge_k _ _ _ G)) as []. apply in_pages_aligned; [apply (slabp_mod g k c G')|auto]. }
        assert (os_in (in_class g c) o o3) as O13.
        { eapply os_in_trans; [apply os_in_mapped|apply os_in_rel; exact O3]. intros q Hq. eapply (slab_class g k c G'); [|exact Hq]. lia. }
        assert (forall j, slabp g k c3 j = slabp g k c j) as Sp3 by (intros; unfold slabp; rewrite S3; auto).
        split.
        -- destruct TR. constructor.
           ++ eapply rsame_trans; eassumption.
           ++ destruct SS3 as (X1 & X2 & X3 & _). destruct tr_st0 as (Y1 & Y2 & Y3). change (c_nmalloc c2) with (c_nmalloc c1) in X1. change (c_ndalloc c2) with (c_ndalloc c1) in X2. change (c_allocated c2) with (c_allocated c1) in X3.
              rewrite Y1, Y2, Y3, X1, X2, X3, Ec1. destruct (STATS g); auto.
           ++ intros x y. rewrite tr_used0, U3. change (used c2 x y) with (used c1 x y). auto.
           ++ intros x. destruct (tr_mem0 x) as [-> |(Z0 & j & Hj & Hx)].
              ** rewrite (or_mem _ _ O3). cbn. destruct (in_pages (slabp g k c i) b (page_of x)) eqn:Ei; [|auto]. right. split; [auto|]. exists i. split; [now left|]. apply IP. auto.
              ** right. split; [auto|]. exists j. split; [now right|]. rewrite <- Sp3. auto.
           ++ intros j x [<-|Hj] Hx.
              ** assert (mem o3 x = 0 /\ pages o3 (page_of x) = Some PNone) as [M3 P3].
                 { rewrite (or_mem _ _ O3), (or_pages _ _ O3). cbn. apply IP in Hx. rewrite Hx. auto. }
                 split; [destruct (tr_mem0 x) as [-> |[-> _]]; auto|].
                 (* pages of i are no longer touched *)
                 pose proof (ci_pages _ _ _ _ _ _ _ _ _ I4) as PG4. apply (pg_none _ _ _ _ _ PG4).
                 --- assert (in_class g c (page_of x)) as IC by (eapply (slab_class g k c G'); [|apply IP; exact Hx]; lia).
                     unfold in_class in *. change (c_start (set_c_empty (hd_error E') c4)) with (c_start c4). rewrite (ds_start _ _ (rs_d _ _ tr_same0)), S3. exact IC.
                 --- intros y Hy Hin. assert (y = i) as ->.
                     { symmetry. eapply (slabs_apart g k c G'); [apply IP; exact Hx|]. unfold in_slab, slabp in *. change (c_start (set_c_empty (hd_error E') c4)) with (c_start c4) in Hin.
                       rewrite (ds_start _ _ (rs_d _ _ tr_same0)), S3 in Hin. exact Hin. }
                     assert (cntof c4 i = 0) as C4.
                     { pose proof (ci_slabs _ _ _ _ _ _ _ _ _ I4 i) as SO. change (c_slabs (set_c_empty (hd_error E') c4) i) with (c_slabs c4 i) in SO. unfold cntof. rewrite (so_cnt _ _ SO).
                       apply zcount_zero. intros x0 Hx0. fold (used c4 i x0). rewrite tr_used0, U3. change (used c2 i x0) with (used c1 i x0). rewrite U1.
                       pose proof (class_facts_all g k (ge_k _ _ _ G)) as [].
                       apply (fresh_slab g k o _ _ _ _ _ _ i I); [exact C0|lia]. }
                     destruct Hy as [Hy|[Hy|Hy]]; [change (cntof (set_c_empty (hd_error E') c4) i) with (cntof c4 i) in Hy; lia| |discriminate].
                     pose proof (lk_nd _ _ _ _ Li) as Nd. cbn [app] in Nd. inversion Nd as [|? ? Nin _]; subst. apply Nin. rewrite !in_app_iff. auto.
              ** apply (tr_gone0 j); auto. rewrite Sp3. auto.
           ++ eapply os_in_trans; [exact O13|]. eapply os_in_mono; [|exact tr_os0]. intros q. unfold in_class. rewrite S3. auto.
           ++ destruct tr_F0 as (F1 & ->). exists (qlist sub ++ F1). rewrite L3, app_assoc. auto.
           ++ change (c_fq c2) with (c_fq c1) in L1, L2. rewrite Q1 in L1, L2.
              pose proof (enq_perm i t sub [] F (c_fq c) L1) as PE. cbn [app] in PE. rewrite <- L3, <- L2 in PE.
              cbn [app]. etransitivity; [apply Permutation_middle|]. etransitivity; [apply Permutation_app_head; exact PE|]. exact tr_perm0.
        -- destruct RF as [|(t' & Ht & Rt)]; [auto|]. right. exists t'. destruct O13. split; [lia|]. rewrite oi_sysq in Rt. exact Rt.
Qed.

(** purging quarantined slots *)
Lemma purge_list_wp o0 c P E F (l : list Z) : (forall p, In p l -> p <> 0 -> exists i j, 0 <= j < n /\ quar c i j = true /\ p = sptr g k c i j) ->
  20480 <= sz ->
  forall o, cinvX g k o c P E F None [] -> os_in (in_class g c) o0 o -> 
  (forall q, pages o q = pages o0 q) ->
  (forall x, mem o x = mem o0 x \/ mem o x = 0 /\ exists i j, 0 <= j < n /\ quar c i j = true /\ sptr g k c i j <= x < sptr g k c i j + sz) ->
  wp (purge_list l sz) (mkCst o c)
    (fun _ s' => exists o', s' = mkCst o' c /\ cinvX g k o' c P E F None [] /\ os_in (in_class g c) o0 o' /\ (forall q, pages o' q = pages o0 q) /\
      (forall x, mem o' x = mem o0 x \/ mem o' x = 0 /\ exists i j, 0 <= j < n /\ quar c i j = true /\ sptr g k c i j <= x < sptr g k c i j + sz)) sys_fault.
Proof.
  induction l as [|p l IH]; intros Hl Hsz o I OI HP HM.
  - cbn [purge_list]. apply wp_ret. exists o. auto.
  - cbn [purge_list]. wpb. destruct (Z.eqb_spec p 0) as [->|Hp].
    + apply wp_ret. apply IH; auto. intros q Hq. apply Hl. now right.
    + destruct (Hl p ltac:(now left) Hp) as (i & j & Hj & Hq & Ep).
      wpb. apply c_sys_wp. cbn [cs_os]. eapply wp_mono; [apply memory_purge_wp| |auto]. intros failed o1 H1. cbn [cs_c]. apply wp_ret.
      pose proof I as [G Me Sl Li Ma Qu Pg Et Rn Fq]. pose proof (class_facts_all g k (ge_k _ _ _ G)) as []. destruct (cf_ext Hsz) as [En Eb].
      assert (j = 0) as -> by lia. assert (p = slabp g k c i) as Ep' by (rewrite Ep; unfold sptr; lia).
      assert (used c i 0 = true) as Hu by (eapply quar_used; [exact I|lia|exact Hq]).
      destruct (quar_slot g k _ _ _ _ _ _ _ i 0 I ltac:(lia) Hu) as (_ & _ & Is). destruct (slab_range g k o c _ _ _ _ _ i I Is) as [R1 R2].
      assert (forall x, in_pages p sz (page_of x) = true <-> p <= x < p + sz) as IP.
      { intros x. apply in_pages_aligned; [rewrite Ep'; apply (slabp_mod g k c G)|rewrite <- Eb; auto]. }
      assert ((forall q, pages o1 q = pages o q) /\ (forall x, mem o1 x = mem o x \/ mem o1 x = 0 /\ p <= x < p + sz) /\ os_in (in_class g c) o o1) as (K1 & K2 & K3).
      { destruct failed; [subst o1; split; [auto|split; [auto|apply os_in_failed]]|]. destruct H1 as (-> & _). split; [auto|]. split.
        - intros x. cbn. destruct (in_pages p sz (page_of x)) eqn:Ei; [|auto]. right. split; [auto|]. apply IP. auto.
        - apply os_in_purged. intros q Hq'. eapply (slab_class g k c G i); [lia|]. unfold in_slab. rewrite <- Ep', Eb. exact Hq'. }
      apply IH; auto.
      * intros q Hq'. apply Hl. now right.
      * eapply cinvX_os; [exact K1| |exact I]. intros x. destruct (K2 x) as [|[? _]]; auto.
      * eapply os_in_trans; eassumption.
      * intros q. rewrite K1. auto.
      * intros x. destruct (K2 x) as [-> |(Z0 & Hx)]; [auto|]. right. split; [auto|]. exists i, 0. split; [lia|]. split; [auto|]. rewrite <- Ep. auto.
Qed.

Record trim_post (o : os) (c : size_class) (F : list Z) (o' : os) (c' : size_class) (F' E1 : list Z) : Prop := {
  tp_same : rsame c c';
  tp_st : c_nmalloc c' = c_nmalloc c /\ c_ndalloc c' = c_ndalloc c /\ c_allocated c' = c_allocated c;
  tp_used : forall x y, used c' x y = used c x y;
  tp_mem : forall x, mem o' x = mem o x \/ mem o' x = 0 /\
     ((exists i, In i E1 /\ slabp g k c i <= x < slabp g k c i + b) \/ (exists i j, 0 <= j < n /\ quar c i j = true /\ sptr g k c i j <= x < sptr g k c i j + sz));
  tp_gone : forall i x, In i E1 -> slabp g k c i <= x < slabp g k c i + b -> mem o' x = 0 /\ pages o' (page_of x) = Some PNone;
  tp_os : os_in (in_class g c) o o';
  tp_F : exists F1, F' = F ++ F1;
  tp_perm : Permutation (E1 ++ F ++ somes (c_fq c)) (F' ++ somes (c_fq c'))
}.
Lemma trim_class_wp o c E F : cinvL g k o c E F -> k <> 0 ->
  wp (malloc_trim_class g k) (mkCst o c)
    (fun r s' => exists o' c' E1 E' F', s' = mkCst o' c' /\ E = E1 ++ E' /\ r = negb (match E1 with [] => true | _ => false end) /\
       cinvL g k o' c' E' F' /\ trim_post o c F o' c' F' E1 /\ (E' = [] \/ refused o o'))
    (fun f => sys_fault f \/ rng_fault f).
Proof.
  intros (P & I & ST) Hk. pose proof I as [G Me Sl Li Ma Qu Pg Et Rn Fq]. pose proof (class_facts_all g k (ge_k _ _ _ G)) as CFa. pose proof CFa as [].
  assert (class_size g k = sz) as Esz. { unfold slot_size. rewrite (class_size_0 g k c G). destruct (Z.eqb_spec k 0); [contradiction|auto]. }
  unfold malloc_trim_class. rewrite Esz. change (get_slab_size n sz) with b. wpb. apply wp_gets. cbn [cs_c]. wpb.
  rewrite (lk_E _ _ _ _ Li). eapply wp_mono; [eapply trim_loop_wp with (E := E) (F := F) (P := P)| |auto].
  - rewrite <- (lk_E _ _ _ _ Li), set_c_empty_id. exact I.
  - exact ST.
  - assert (zlen E <= c_mallocated c) as B.
    { apply NoDup_bound.
      - pose proof (lk_nd _ _ _ _ Li) as Nd. apply NoDup_app_inv in Nd. tauto.
      - apply Me.
      - intros x Hx. assert (is_slab g c x) as Sx by (apply (ma_0 _ _ _ _ _ _ _ Ma); [discriminate|]; rewrite in_app_iff; auto).
        apply (slab_range g k o c _ _ _ _ _ x I Sx). }
    unfold zlen in B. lia.
  - intros r s (o1 & c1 & E1 & E' & F' & -> & -> & -> & I1 & ST1 & TR & RF). cbn [orb]. wpb. apply upd_c_wp. cbn [cs_c cs_os].
    set (c2 := set_c_empty (hd_error E') c1) in *. assert (stat_ok g k c2 F') as ST2 by exact ST1.
    destruct TR. assert (rsame c c2) as RS by (destruct tr_same0 as [[]]; constructor; auto; constructor; auto).
    assert (forall i j, sptr g k c2 i j = sptr g k c i j) as Sp by (intros; apply sptr_ext; apply RS).
    match goal with |- wp (bind ?m ?kk) _ ?Q ?Er => assert (wp m (mkCst o1 c2) (fun _ s' => exists o', s' = mkCst o' c2 /\ cinvX g k o' c2 P E' F' None [] /\ os_in (in_class g c2) o1 o' /\ (forall q, pages o' q = pages o1 q) /\
      (forall x, mem o' x = mem o1 x \/ mem o' x = 0 /\ exists i j, 0 <= j < n /\ quar c2 i j = true /\ sptr g k c2 i j <= x < sptr g k c2 i j + sz)) sys_fault) as W end.
    { destruct (SLAB_QUARANTINE g && EXTENDED_SIZE_CLASSES g && (min_extended_size_class <=? sz)) eqn:Cond.
      2:{ apply wp_ret. exists o1. split; [auto|]. split; [auto|]. split; [apply os_in_refl|]. auto. }
      assert (20480 <= sz) as Hsz by (unfold min_extended_size_class in Cond; lia).
      wpb. apply wp_gets. cbn [cs_c].
      pose proof (ci_quar _ _ _ _ _ _ _ _ _ I1) as Qu1.
      assert (forall l' m p, (forall x, In x l' -> In x (c_qrandom c2 ++ c_qqueue c2)) -> In p (firstn m l') -> p <> 0 -> exists i j, 0 <= j < n /\ quar c2 i j = true /\ p = sptr g k c2 i j) as LL.
      { intros l' m p Hl' Hp Hnz. apply (qu_in _ _ _ _ Qu1). cbn [app]. unfold nz. apply filter_In. split; [apply Hl'; eapply firstn_In; exact Hp|]. lia. }
      assert (forall oo l', (forall p, In p l' -> p <> 0 -> exists i j, 0 <= j < n /\ quar c2 i j = true /\ p = sptr g k c2 i j) -> forall (bb : bool), 
        cinvX g k oo c2 P E' F' None [] -> os_in (in_class g c2) o1 oo -> (forall q, pages oo q = pages o1 q) ->
        (forall x, mem oo x = mem o1 x \/ mem oo x = 0 /\ exists i j, 0 <= j < n /\ quar c2 i j = true /\ sptr g k c2 i j <= x < sptr g k c2 i j + sz) ->
        wp (if bb then purge_list l' sz else ret tt) (mkCst oo c2) (fun _ s' => exists o', s' = mkCst o' c2 /\ cinvX g k o' c2 P E' F' None [] /\ os_in (in_class g c2) o1 o' /\ (forall q, pages o' q = pages o1 q) /\
          (forall x, mem o' x = mem o1 x \/ mem o' x = 0 /\ exists i j, 0 <= j < n /\ quar c2 i j = true /\ sptr g k c2 i j <= x < sptr g k c2 i j + sz)) sys_fault) as PL.
      { intros oo l' Hl' bb J1 J2 J3 J4. destruct bb; [apply purge_list_wp; auto|]. apply wp_ret. exists oo. auto. }
      wpb. eapply wp_mono; [apply PL|..]; auto using os_in_refl.
      { intros p. apply LL. intros x Hx. apply in_or_app. auto. }
      intros _ s (oo & -> & J1 & J2 & J3 & J4). apply PL; auto. intros p. apply LL. intros x Hx. apply in_or_app. auto. }
    wpb. eapply wp_mono; [exact W| |intros f Hf; left; exact Hf]. intros _ s (o2 & -> & I2 & OI2 & PG2 & M2). apply wp_ret.
    exists o2, c2, E1, E', F'. split; [auto|]. split; [auto|]. split; [auto|]. split; [exists P; split; auto|]. split.
    + constructor; auto.
      * intros x. destruct (M2 x) as [-> |(Z0 & i & j & Hj & Hq & Hx)].
        -- destruct (tr_mem0 x) as [|[? ?]]; auto.
        -- right. split; [auto|]. right. exists i, j. rewrite <- Sp. split; [auto|]. split; [rewrite <- (rs_quar _ _ RS); auto|auto].
      * intros i x Hi Hx. rewrite PG2. destruct (tr_gone0 i x Hi Hx) as [Z0 ->]. split; [|auto]. destruct (M2 x) as [-> |[-> _]]; auto.
      * eapply os_in_trans; [exact tr_os0|]. eapply os_in_mono; [|exact OI2]. intros q. unfold in_class. rewrite (ds_start _ _ (rs_d _ _ RS)). auto.
    + destruct RF as [|(t & Ht & Rt)]; [auto|]. right. exists t. destruct OI2. split; [lia|auto].
Qed.
End P11.
