(** Large block operations, initialization and allocation as steps on the set of blocks. *)
From Coq Require Import String ZArith List Bool Lia ZifyBool Permutation.
From Verif Require Import M_Base M_Config M_SizeClass M_Libdivide M_OS M_Random M_Slab M_Region M_Api M_Hist
  P_Base P_Count P_SizeClass P_Libdivide P_Random P_Bitmap P_Bitmap2 P_OS P_Links P_Slab1 P_Slab2 P_Slab3 P_Slab4 P_Slab9 P_Slab10 P_Slab11 P_Path
  P_Region P_Region2 P_Heap1 P_Heap2 P_Heap3 P_Heap4 P_Heap5 P_Heap6 P_Heap7 P_Init.
Import ListNotations.
Open Scope Z_scope.
Ltac Zify.zify_post_hook ::= idtac.

(** pages kept by a step that gives up the large block at [rm] *)
Definition kept (g : config) (s : state) (LL : regs) (rm : option Z) (q : Z) : Prop :=
  slab_span g s q = true \/ exists r, In r (rl_own LL) /\ rm <> Some (rg_p r) /\ region_span r q = true.
Lemma kept_user g s LL q : kept g s LL None q <-> user g s LL q.
Proof. unfold kept, user. split; intros [H|(r & H)]; auto; right; exists r; [|split; [|split; [discriminate|]]]; tauto. Qed.
Lemma kept_drop g s LL p q : kept g s LL (Some p) q <-> user g s (drop p LL) q.
Proof.
  unfold kept, user. split; (intros [H|(r & H)]; [auto|right; exists r]); cbn [drop rl_own] in *; rewrite out_In in *.
  - destruct H as (A & B & C). split; [split; [auto|congruence]|auto].
  - destruct H as ((A & B) & C). split; [auto|]. split; [congruence|auto].
Qed.

Lemma later_chg D o o' : os_chg D o o' -> later o o'. Proof. intros []. split; auto. Qed.
Lemma inb_region g s LL X a k x : ginv g s LL X -> class_in g a k -> inb g (st_cls s a k) x = true -> in_slab_region x s = true.
Proof.
  intros I C H. unfold inb in H. pose proof (class_region_lo g s LL X I a k x C ltac:(lia)) as R. apply (class_of_addr g s (gi_u _ _ _ _ I) (gi_pl _ _ _ _ I) a k x C R).
Qed.
(** the general form of a step that changes only large blocks *)
Lemma large_hstep g s s' LL LL' rm add X : ginv g s LL X -> st_cls s' = st_cls s -> rl_base LL' = rl_base LL ->
  os_chg (fun q => ~ kept g s LL rm q) (st_os s) (st_os s') ->
  (forall p n gd, In (mkRegion p n gd) (rl_own LL') <-> (In (mkRegion p n gd) (rl_own LL) /\ rm <> Some p) \/ add = Some (mkRegion p n gd)) ->
  (forall p, rm = Some p -> In p (map rg_p (rl_own LL))) ->
  (forall r, add = Some r -> in_slab_region (rg_p r) s = false /\ (In (rg_p r) (map rg_p (rl_own LL)) -> rm = Some (rg_p r))) ->
  (rl_open LL = [] -> (rm = None -> rl_open LL' = []) /\ forall r, add = Some r -> guard_ok g (rg_size r) (rg_guard r) \/ rm = Some (rg_p r) /\ exists n, In (mkRegion (rg_p r) n (rg_guard r)) (rl_own LL)) ->
  hstep g s LL s' LL' rm (match add with Some r => Some (rg_p r, rg_size r) | None => None end).
Proof.
  intros I Ec Eb O HL Hrm Hadd Hgd.
  assert (forall q, kept g s LL rm q -> ~ ~ kept g s LL rm q) as NN by tauto.
  assert (forall a k i j p, sblk g s' a k i j p <-> sblk g s a k i j p) as SB by (intros; unfold sblk; rewrite Ec; tauto).
  assert (forall x, slab_span g s (page_of x) = true -> mem (st_os s') x = mem (st_os s) x) as MS.
  { intros x Hx. apply (oc_mem _ _ _ O). apply NN. left. exact Hx. }
  assert (forall p a k i j, rm = Some p -> ~ sblk g s a k i j p) as RS.
  { intros p a k i j E H. specialize (Hrm p E). apply in_map_iff in Hrm. destruct Hrm as (r & <- & Hr). destruct (sblk_loc g s LL X I a k i j _ H) as [L _].
    destruct (region_p g s LL X I r Hr) as (A & B & C). rewrite (region_not_slab g s LL X I r Hr) in L; [discriminate|lia]. }
  constructor.
  - intros p n. split.
    + intros [(a & k & i & j & H & ->)|(gd & H)].
      * left. apply SB in H. split; [left; exists a, k, i, j; auto|]. intros E. exact (RS p a k i j E H).
      * apply HL in H. destruct H as [[H N]|H]; [left; split; [right; eauto|auto]|right; rewrite H; reflexivity].
    + intros [[[(a & k & i & j & H & ->)|(gd & H)] N]|H].
      * left. exists a, k, i, j. split; [apply SB; auto|auto].
      * right. exists gd. apply HL. auto.
      * right. destruct add as [[p' n' gd]|]; [|discriminate]. injection H as <- <-. exists gd. apply HL. auto.
  - intros p n m H B. destruct add as [r|]; [|discriminate]. injection H as <- <-. destruct (Hadd r eq_refl) as [A1 A2]. destruct B as [(a & k & i & j & B & _)|(gd & B)].
    + destruct (sblk_loc g s LL X I a k i j _ B) as [L _]. congruence.
    + apply A2. apply in_map_iff. eexists. split; [|exact B]. reflexivity.
  - intros p n x [(a & k & i & j & H & ->)|(gd & H)] N Hx.
    + apply MS. eapply (sblk_extent g s LL X I); eauto. pose proof (usable_bounds g k ltac:(apply H)). lia.
    + apply (oc_mem _ _ _ O), NN. right. eexists. split; [exact H|]. split; [exact N|]. apply (region_extent g s LL X I _ H). exact Hx.
  - intros [Cc Cz]. constructor.
    + intros a k i j C Hj Hg. rewrite Ec in *. specialize (Cc a k i j C Hj Hg). intros S N. rewrite <- (Cc S N). apply u64_same. intros x Hx.
      apply MS. eapply (sblk_extent g s LL X I a k i j); [split; [exact C|split; [exact Hj|split; [exact Hg|reflexivity]]]|]. pose proof (class_facts_all g k (proj2 C)) as []. lia.
    + intros ZF a k i j x C N Hi Hj Hg Hx. rewrite Ec in *. rewrite MS; [eapply Cz; eauto|].
      apply (slab_region_span g s LL X I). pose proof (canary_le g). pose proof (ggeom g s LL X I a k C) as G. pose proof (slot_in_slab g k _ G i j Hj). pose proof (slab_in_region g k _ G i ltac:(lia)).
      pose proof (class_region_lo g s LL X I a k x C ltac:(lia)). pose proof (class_lo_in g s a k (gi_u _ _ _ _ I) C). unfold in_slab_region. rewrite (pl_end _ _ (gi_pl _ _ _ _ I)). lia.
  - constructor.
    + eapply later_chg; exact O.
    + intros a k C. rewrite Ec. rewrite moves_out; [apply cpath_stay; eapply later_chg; exact O| |].
      * intros p E. destruct (inb g (st_cls s a k) p) eqn:B; [|auto]. apply (inb_region _ _ _ _ _ _ _ I C) in B.
        specialize (Hrm p E). apply in_map_iff in Hrm. destruct Hrm as (r & <- & Hr). destruct (region_p g s LL X I r Hr) as (A1 & A2 & A3). rewrite (region_not_slab g s LL X I r Hr) in B; [discriminate|lia].
      * intros p n E. destruct add as [r|]; [|discriminate]. injection E as <- <-. destruct (Hadd r eq_refl) as [A1 A2].
        destruct (inb g (st_cls s a k) (rg_p r)) eqn:B; [|auto]. apply (inb_region _ _ _ _ _ _ _ I C) in B. congruence.
    + intros a k i j p H N. split; [apply SB; auto|]. rewrite Ec. split; [auto|]. intros x Hx. apply MS. eapply (sblk_extent g s LL X I); eauto.
    + intros a k i j p n E N H. apply SB in H. destruct add as [r|]; [|discriminate]. injection E as <- <-. destruct (Hadd r eq_refl) as [A1 A2]. destruct (sblk_loc g s LL X I a k i j _ H) as [L _]. congruence.
    + intros a k i j p n E N H. apply SB in H. destruct add as [r|]; [|discriminate]. injection E as <- <-. destruct (Hadd r eq_refl) as [A1 A2]. destruct (sblk_loc g s LL X I a k i j _ H) as [L _]. congruence.
    + intros a k i j p H _. apply SB, H.
    + intros a k i j p E _ H. elim (RS p a k i j E H).
    + intros a k i j p n E _ H. elim (RS p a k i j E H).
  - exact Eb.
  - intros O1. destruct (Hgd O1) as [O2 K]. split; [exact O2|]. intros [p n gd] Hr. apply HL in Hr. destruct Hr as [[Hr _]|Hr]; [auto|]. right. split; [rewrite Hr; reflexivity|exact (K _ Hr)].
Qed.

(** ** states between calls *)
Record hinv (g : config) (s : state) (LL : regs) : Prop := {
  hi_inv : ginv g s LL [];
  hi_open : rl_open LL = [];
  hi_sized : sized LL;
  hi_arena : forall t, 0 <= st_arena s t;
  hi_ctr : 0 <= st_ctr s;
  hi_strict : rl_strict LL = true
}.
(** before the first call *)
Record idle (g : config) (s : state) (LL : regs) : Prop := {
  id_u : usable_config g = true;
  id_regs : LL = no_regs (rl_base LL);
  id_base : forall q, pages (st_os s) q <> None -> rl_base LL q = true;
  id_end : st_end s = 0;
  id_cls : forall a k, st_cls s a k = class_zero;
  id_arena : forall t, N_ARENA g <= st_arena s t;
  id_ctr : 0 <= st_ctr s;
  id_slack : REAL_CLASS_REGION_SIZE g <= gr_slack (rl_base LL)
}.
Definition ready (g : config) (s : state) (LL : regs) : Prop := hinv g s LL \/ idle g s LL.
Lemma used_zero i j : used class_zero i j = false.
Proof.
  unfold used, bm_get. cbn [c_slabs class_zero slab_zero sb_bitmap].
  assert (forall b, word64 [0; 0; 0; 0] b = 0) as ->; [|rewrite Z.shiftr_0_l; reflexivity]. intros b. unfold word64, lget. destruct (b <? 0); try reflexivity; destruct (Z.to_nat b) as [|[|[|[|[|]]]]]; reflexivity.
Qed.
Lemma idle_block g s LL p n : idle g s LL -> ~ block g s LL p n.
Proof.
  intros [_ -> _ _ Hu _ _] [(a & k & i & j & (_ & _ & Hg & _) & _)|(gd & [])]. apply granted_used in Hg. rewrite Hu, used_zero in Hg. discriminate.
Qed.
Lemma ready_cfg g s LL : ready g s LL -> usable_config g = true. Proof. intros [[[]]|[]]; auto. Qed.
Lemma hinv_init g s LL : hinv g s LL -> is_init s = true.
Proof.
  intros [I _ _ _ _]. unfold is_init. rewrite (pl_end _ _ (gi_pl _ _ _ _ I)). pose proof (gi_pl _ _ _ _ I) as [_ B _ _]. pose proof (class_lo_in g s 0 0 (gi_u _ _ _ _ I)) as H.
  pose proof (gfacts_of g (gi_u _ _ _ _ I)) as []. unfold class_in in H. specialize (H ltac:(lia)). unfold REAL_CLASS_REGION_SIZE in H. lia.
Qed.
Lemma idle_init g s LL : idle g s LL -> is_init s = false. Proof. intros [_ _ _ E _ _ _]. unfold is_init. rewrite E. reflexivity. Qed.
Lemma ready_hinv g s LL : ready g s LL -> is_init s = true -> hinv g s LL.
Proof. intros [H|H] E; [auto|]. rewrite (idle_init _ _ _ H) in E. discriminate. Qed.
Lemma hcls_refl g s : hcls g s s None None.
Proof. constructor; auto using later_refl; try discriminate. intros a k C. apply cp_refl. Qed.
Lemma hstep_refl g s LL : hstep g s LL s LL None None.
Proof. constructor; auto using hcls_refl; try discriminate. intros p n. split; [intros H; left; split; [auto|discriminate]|intros [[H _]|[=]]; auto]. Qed.
Lemma hcls_ext g s s' s'' rm add : hcls g s s' rm add -> st_cls s'' = st_cls s' -> mem (st_os s'') = mem (st_os s') -> later (st_os s') (st_os s'') -> hcls g s s'' rm add.
Proof.
  intros [A B C D E K Hcn Hkp] E1 E2 L. assert (forall a k i j p, sblk g s'' a k i j p <-> sblk g s' a k i j p) as SB by (intros; unfold sblk; rewrite E1; tauto). constructor.
  - eapply later_trans; eauto.
  - intros a k H. rewrite E1. eapply cp_time; eauto.
  - intros a k i j p H N. rewrite SB, E1, E2. apply C; auto.
  - intros a k i j p n H N. rewrite SB, E1. unfold canary_intact. rewrite E2. apply (D a k i j p n); auto.
  - intros a k i j p n H N. rewrite SB. apply (E a k i j p n); auto.
  - intros a k i j p H. apply SB in H. auto.
  - exact Hcn.
  - intros a k i j p n Hr Ha H. destruct (Hkp a k i j p n Hr Ha H) as (X1 & X2 & X3). split; [apply SB, X1|]. rewrite E1, E2. auto.
Qed.
Lemma hstep_ext g s LL s' s'' LL' rm add : hstep g s LL s' LL' rm add -> st_cls s'' = st_cls s' -> mem (st_os s'') = mem (st_os s') -> later (st_os s') (st_os s'') -> hstep g s LL s'' LL' rm add.
Proof.
  intros [A B C D HC HB HG] E1 E2 L. assert (forall p n, block g s'' LL' p n <-> block g s' LL' p n) as BB by (intros; unfold block, sblk; rewrite E1; tauto).
  constructor; auto.
  - intros p n. rewrite BB. apply A.
  - intros. rewrite E2. eauto.
  - intros H. destruct (D H) as [X Y]. constructor.
    + intros a k i j. rewrite E1. intros. unfold canary_intact. rewrite E2. apply X; auto.
    + intros ZF a k i j x. rewrite E1. rewrite E2. apply Y; auto.
  - eapply hcls_ext; eauto.
Qed.
(** a step that creates and removes nothing, and a step after it *)
Lemma hcls_trans g s1 s2 s3 rm add : hcls g s1 s2 None None -> hcls g s2 s3 rm add ->
  (add = None \/ (is_init s1 = true -> is_init s2 = true /\ mem (st_os s2) = mem (st_os s1))) -> hcls g s1 s3 rm add.
Proof.
  intros [A1 B1 C1 D1 E1 F1 G1 J1] [A2 B2 C2 D2 E2 F2 G2 J2] K. constructor.
  - eapply later_trans; eauto.
  - intros a k H. change (moves g (st_cls s3 a k) rm add) with ([] ++ moves g (st_cls s3 a k) rm add). eapply cpath_app; [exact (B1 a k H)|apply B2; auto].
  - intros a k i j p H N. destruct (C1 a k i j p H ltac:(discriminate)) as (X1 & X2 & X3). destruct (C2 a k i j p X1 N) as (Y1 & Y2 & Y3).
    split; [auto|]. split; [congruence|]. intros x Hx. rewrite Y3, X3; auto.
  - exact D2.
  - intros a k i j p n H N SB Hi W x Hx. destruct K as [->|K]; [discriminate|]. destruct (K Hi) as [K1 K2]. rewrite <- K2. eapply E2; eauto.
  - intros a k i j p H N. apply F1; [auto|discriminate].
  - intros a k i j p H N SB. destruct (C1 a k i j p SB ltac:(discriminate)) as (X1 & X2 & X3). intros Sc Nk. pose proof (G2 a k i j p H N X1 Sc Nk) as Q.
    destruct SB as (Ck & _ & _ & Ep). destruct X1 as (_ & _ & _ & Ep1). rewrite <- Ep. rewrite <- Ep1, X2 in Q. rewrite <- Q. apply u64_same. intros x Hx. symmetry. apply X3. destruct (class_facts_all g k (proj2 Ck)). lia.
  - intros a k i j p n Hr Ha SB. destruct (C1 a k i j p SB ltac:(discriminate)) as (X1 & X2 & X3). destruct (J2 a k i j p n Hr Ha X1) as (Y1 & Y2 & Y3). split; [auto|]. split; [congruence|].
    intros x Hx. rewrite Y3 by auto. apply X3. pose proof (usable_bounds g k ltac:(apply SB)). lia.
Qed.
Lemma hstep_trans g s1 L1 s2 L2 s3 L3 rm add :
  hstep g s1 L1 s2 L2 None None -> hstep g s2 L2 s3 L3 rm add ->
  (add = None \/ (is_init s1 = true -> is_init s2 = true /\ mem (st_os s2) = mem (st_os s1))) -> hstep g s1 L1 s3 L3 rm add.
Proof.
  intros [A1 B1 C1 D1 H1 F1 G1] [A2 B2 C2 D2 H2 F2 G2] K.
  assert (forall p n, block g s2 L2 p n <-> block g s1 L1 p n) as E. { intros p n. rewrite A1. split; [intros [[H _]|[=]]; auto|intros H; left; split; [auto|discriminate]]. }
  constructor; auto.
  - intros p n. rewrite A2, E. tauto.
  - intros p n m X1 X2. apply E in X2. eauto.
  - intros p n x H N Hx. rewrite (C2 p n x), (C1 p n x); auto; [discriminate|apply E; auto].
  - eapply hcls_trans; eauto.
  - congruence.
  - intros O. destruct (G1 O) as [O1 K1]. specialize (O1 eq_refl). destruct (G2 O1) as [O2 K2]. split; [auto|]. intros r Hr. destruct (K2 r Hr) as [H|(H & K3)].
    + destruct (K1 r H) as [Q|([=] & _)]. auto.
    + right. split; [exact H|]. destruct K3 as [K3|(K3 & n & K4)]; [auto|]. right. split; [exact K3|]. exists n. destruct (K1 _ K4) as [Q|([=] & _)]. exact Q.
Qed.

(** ** init *)
Record inited (g : config) (s s' : state) (LL : regs) : Prop := {
  in_inv : hinv g s' LL;
  in_step : hstep g s LL s' LL None None;
  in_clean : is_init s = false -> clean g s';
  in_same : is_init s = true -> st_os s' = st_os s /\ st_cls s' = st_cls s /\ st_ra s' = st_ra s /\ st_base s' = st_base s /\ st_start s' = st_start s;
  in_left : ra_leftover (st_ra s) = false -> ra_leftover (st_ra s') = false;
  in_total : ra_total (st_ra s') = if is_init s then ra_total (st_ra s) else 128;
  in_os : new_pages (st_os s) (st_os s')
}.
Lemma ginv_ext g s s' LL X : ginv g s LL X -> st_os s' = st_os s -> st_cls s' = st_cls s -> st_ra s' = st_ra s -> st_base s' = st_base s -> st_start s' = st_start s -> st_end s' = st_end s -> ginv g s' LL X.
Proof.
  intros I E1 E2 E3 E4 E5 E6. destruct s, s'. cbn in *. subst. destruct I as [a b c d e f h i j k gp gc gt]. constructor; auto; try (destruct b; constructor; assumption).
  intros x y Hxy. destruct (c x y Hxy) as [A [B1 B2 B3]]. split; [exact A|]. constructor; auto.
Qed.
Definition picked (g : config) (s s1 : state) : Prop :=
  st_os s1 = st_os s /\ st_cls s1 = st_cls s /\ st_ra s1 = st_ra s /\ st_base s1 = st_base s /\ st_start s1 = st_start s /\ st_end s1 = st_end s /\
  ((forall t, 0 <= st_arena s t) -> forall t, 0 <= st_arena s1 t) /\ (0 <= st_ctr s -> 0 <= st_ctr s1).
Lemma pick_arena_wp g tid s LL : ready g s LL ->
  wp (pick_arena g tid) s (fun r s1 => 0 <= fst r < N_ARENA g /\ picked g s s1 /\ (snd r = true -> is_init s = true)) (fun _ => False).
Proof.
  intros R. pose proof (gfacts_of g (ready_cfg _ _ _ R)) as []. unfold pick_arena. apply wp_bind, wp_get.
  assert (picked g s s) as P0 by (unfold picked; auto 10).
  destruct (Z.eqb_spec (N_ARENA g) 1).
  - apply wp_ret. cbn. split; [lia|]. split; [exact P0|discriminate].
  - destruct (Z.ltb_spec (st_arena s tid) (N_ARENA g)).
    + apply wp_ret. cbn [fst snd]. assert (hinv g s LL) as HI by (destruct R as [R|R]; [auto|]; destruct R as [_ _ _ _ _ A _]; specialize (A tid); lia).
      split; [pose proof (hi_arena _ _ _ HI tid); lia|]. split; [exact P0|]. intros _. exact (hinv_init _ _ _ HI).
    + apply wp_bind, wp_put, wp_ret. cbn [fst snd]. assert (0 <= st_ctr s) as C0 by (destruct R as [[]|[]]; auto).
      pose proof (Z.mod_pos_bound (st_ctr s) (N_ARENA g) ltac:(lia)). split; [auto|]. split; [|discriminate].
      unfold picked. cbn. repeat (split; [reflexivity|]). split.
      * intros A t. unfold fupd. destruct (t =? tid); [lia|auto].
      * intros _. unfold w32. apply Z.mod_pos_bound. lia.
Qed.
Lemma init_call_wp g tid s LL : ready g s LL ->
  wp (run (init g tid)) s (fun a s' => 0 <= a < N_ARENA g /\ inited g s s' LL) (fun f => init_fault f /\ is_init s = false).
Proof.
  intros R. pose proof (ready_cfg _ _ _ R) as U. unfold init. apply wp_run_pbind, wp_run_act. eapply wp_mono; [apply (pick_arena_wp g tid s LL R)| |intros f []].
  intros [a rd] s1 (Ha & P & Rd). cbn [fst snd] in *. destruct P as (E1 & E2 & E3 & E4 & E5 & E6 & E7 & E8).
  assert (is_init s1 = is_init s) as Ei by (unfold is_init; now rewrite E6).
  assert (is_init s = true -> inited g s s1 LL) as DONE.
  { intros Hi. pose proof (ready_hinv _ _ _ R Hi) as HI. constructor.
    - destruct HI as [I O S A C SC]. constructor; auto. eapply ginv_ext; eauto.
    - eapply hstep_ext; [apply hstep_refl|auto|now rewrite E1|rewrite E1; apply later_refl].
    - congruence.
    - auto.
    - congruence.
    - rewrite Hi, E3. reflexivity.
    - rewrite E1. apply os_chg_refl. }
  destruct rd.
  - apply wp_run_pbind, wp_run_ret, wp_run_ret. auto.
  - apply wp_run_pbind, wp_run_act. destruct (is_init s) eqn:Hi.
    + unfold init_slow_path. apply wp_bind, wp_get. rewrite Ei. apply wp_ret, wp_run_ret. auto.
    + assert (idle g s LL) as Id by (destruct R as [R|R]; [rewrite (hinv_init _ _ _ R) in Hi; discriminate|auto]).
      eapply wp_mono; [apply (init_slow_wp g (rl_base LL) s1 U Ei)| |auto]; [rewrite E1; apply (id_base _ _ _ Id)|apply (id_slack _ _ _ Id)|]. intros [] s2 B. apply wp_run_ret. split; [exact Ha|]. destruct B as [bi bl btot bc ba bo bu bf bcl]. pose proof (id_regs _ _ _ Id) as ER.
      constructor.
      * rewrite ER. constructor; [exact bi|reflexivity|intros r []| | |reflexivity].
        -- intros t. rewrite ba. apply E7. intros t'. pose proof (id_arena _ _ _ Id t'). pose proof (gfacts_of g U) as []. lia.
        -- rewrite bc. apply E8, Id.
      * constructor.
        -- intros p n. split; [|intros [[H _]|[=]]; elim (idle_block _ _ _ _ _ Id H)]. rewrite ER. intros [(a0 & k & i & j & (C & _ & H & _) & _)|(gd & [])]. apply granted_used in H. rewrite (bu a0 k i j C) in H. discriminate.
        -- intros p n m [=].
        -- intros p n x H. elim (idle_block _ _ _ _ _ Id H).
        -- intros _. exact bcl.
        -- assert (later (st_os s) (st_os s2)) as LT by (rewrite <- E1; eapply later_chg; exact bo). constructor; try discriminate.
           ++ exact LT.
           ++ intros a0 k C. rewrite moves_none, (id_cls _ _ _ Id). apply cp_init; [exact LT|apply bf, C].
           ++ intros a0 k i j p H. elim (idle_block _ _ _ p (usable_of g k) Id). left. exists a0, k, i, j. auto.
           ++ intros a0 k i j p (C & _ & H & _). apply granted_used in H. rewrite (bu a0 k i j C) in H. discriminate.
        -- reflexivity.
        -- auto.
      * intros _. exact bcl.
      * congruence.
      * auto.
      * rewrite Hi. exact btot.
      * rewrite <- E1. exact bo.
Qed.

(** ** allocate *)
Definition grant (g : config) (size : Z) : Z :=
  if size <=? max_slab_size_class g then usable_of g (si_class (get_size_info size)) else get_large_size_class g size.
Definition in_class_of (g : config) (s : state) (k p : Z) : Prop := exists a i j, sblk g s a k i j p.
Record got (g : config) (s : state) (LL : regs) (s' : state) (LL' : regs) (p n : Z) : Prop := {
  go_inv : hinv g s' LL';
  go_step : hstep g s LL s' LL' None (Some (p, n));
  go_zero : ZERO_ON_FREE g = true -> clean g s -> forall x, p <= x < p + n -> mem (st_os s') x = 0
}.
Record lost (g : config) (s : state) (LL : regs) (s' : state) : Prop := {
  lo_inv : hinv g s' LL;
  lo_step : hstep g s LL s' LL None None;
  lo_left : ra_leftover (st_ra s') = false
}.
Definition alloc_fault (g : config) (s : state) (f : fault) : Prop := sys_fault f \/ rng_fault f \/ waf g s f.

Lemma class_size_slot g k : 0 <= k < N_SIZE_CLASSES g -> k <> 0 -> class_size g k = slot_size g k.
Proof. intros H N. pose proof (class_facts_all g k H) as []. rewrite cf_size. destruct (Z.eqb_spec k 0); [contradiction|auto]. Qed.
Lemma sblk_align g s LL X a k i j p b : ginv g s LL X -> sblk g s a k i j p -> 0 <= b <= 12 -> slot_size g k mod 2 ^ b = 0 -> p mod 2 ^ b = 0.
Proof.
  intros I (C & Hj & _ & ->) Hb M. pose proof (ggeom g s LL X I a k C) as G. destruct (ge_start _ _ _ G) as (_ & G2 & _). pose proof (class_facts_all g k (proj2 C)) as [].
  unfold sptr, slabp. assert (0 < 2 ^ b) by (apply pow2_pos; lia).
  assert (forall x, x mod 4096 = 0 -> x mod 2 ^ b = 0) as P.
  { intros x Hx. apply Z.mod_divide; [lia|]. apply Z.mod_divide in Hx; [|lia]. eapply Z.divide_trans; [|exact Hx]. exists (2 ^ (12 - b)). rewrite <- Z.pow_add_r by lia. replace (12 - b + b) with 12 by lia. reflexivity. }
  rewrite Z.add_mod, (Z.add_mod (c_start _)), (P _ G2), (Z.mul_mod i), (P _ cf_bmod), (Z.mul_mod j), M by lia. rewrite !Z.mul_0_r, !Z.mod_0_l by lia. reflexivity.
Qed.

Lemma small_alloc_wp g arena s LL k : hinv g s LL -> ra_leftover (st_ra s) = false -> 0 <= arena < N_ARENA g -> 0 <= k < N_SIZE_CLASSES g ->
  wp (on_class g arena k (allocate_small_class g k (negb (k =? 0)))) s (fun r s' =>
     match r with
     | None => lost g s LL s' /\ errno (st_os s') = ENOMEM
     | Some p => got g s LL s' LL p (usable_of g k) /\ in_class_of g s' k p /\ ra_leftover (st_ra s') = false
     end) (alloc_fault g s).
Proof.
  intros HI Le Ha Hk. eapply wp_mono; [apply (alloc_class_wp g s LL (hi_inv _ _ _ HI) arena k); split; auto| |auto].
  intros [p|] s' (I' & SP & Er & H).
  - destruct H as (HS & (i & j & SB) & _ & Zr). destruct HI as [I O S A C SC]. split; [|split; [exists arena, i, j; exact SB|now rewrite Er]].
    constructor; auto. constructor; auto; destruct SP; congruence.
  - destruct H as (HS & E & _). destruct HI as [I O S A C SC]. split; [|exact E]. constructor; auto; [|congruence]. constructor; auto; destruct SP; congruence.
Qed.
Lemma large_got g s rs' LL p size : hinv g s LL -> ra_leftover (st_ra s) = false -> (size <> 0 -> 0 < size /\ (16384 < size -> size mod 4096 = 0)) -> size <> 0 ->
  os_chg (fun q => ~ user g s LL q) (st_os s) (rs_os rs') -> large_some g s LL [] (ra_get s) rs' p size ->
  exists gd, got g s LL (ra_put rs' s) (push (mkRegion p size gd) LL) p size /\ guard_ok g size gd /\ (forall x, p <= x < p + size -> mem (rs_os rs') x = 0).
Proof.
  intros [I O S A C SC] Le Sz N0 OC (gd & Gd & I' & Zr & NI & S0 & NU). exists gd.
  assert (In (mkRegion p size gd) (rl_own (push (mkRegion p size gd) LL))) as Hin by (left; reflexivity).
  assert (forall x, p <= x < p + size -> mem (rs_os rs') x = 0) as Z0.
  { intros x Hx. apply Zr. apply (region_extent g _ _ _ I' _ Hin). exact Hx. }
  split; [|split; [exact Gd|exact Z0]]. constructor.
  - constructor; auto. intros r [<-|Hr] H; [apply Sz; auto|apply S; auto].
  - apply (large_hstep g s (ra_put rs' s) LL _ None (Some (mkRegion p size gd)) [] I); auto.
    + eapply os_chg_mono; [|exact OC]. intros q. rewrite kept_user. auto.
    + intros p' n gd'. cbn [push rl_own In]. split.
      * intros [E|H]; [right; rewrite E; reflexivity|left; split; [auto|discriminate]].
      * intros [[H _]|[= <- <- <-]]; auto.
    + discriminate.
    + intros r [= <-]. cbn [rg_p]. split; [|intros H; contradiction].
      apply (region_not_slab g (ra_put rs' s) _ _ I' _ Hin). cbn. lia.
    + intros O0. split; [auto|]. intros r [= <-]. left. exact Gd.
  - auto.
Qed.
Lemma large_alloc_wp g s LL n : hinv g s LL -> ra_leftover (st_ra s) = false -> 0 <= n < 2 ^ 64 ->
  wp (run (p_ra (allocate_large g n))) s (fun r s' =>
     same_place s s' /\
     match r with
     | None => lost g s LL s' /\ (errno (st_os s') = ENOMEM \/ table_full g (st_ra s))
     | Some p => exists gd, got g s LL s' (push (mkRegion p (get_large_size_class g n) gd) LL) p (get_large_size_class g n) /\ p mod 4096 = 0 /\ guard_ok g (get_large_size_class g n) gd /\
                            (forall x, p <= x < p + get_large_size_class g n -> mem (st_os s') x = 0)
     end) large_fault.
Proof.
  intros HI Le Hn. pose proof HI as [I O S A C SC]. apply wp_pra. eapply wp_mono; [apply (allocate_large_wp g s (ra_get s) LL [] n); auto| |auto].
  { rewrite ra_put_get. exact I. }
  intros [p|] rs' (OC & H).
  - destruct H as (N0 & Pm & LS). split; [constructor; reflexivity|]. destruct (large_any g n Hn) as (L1 & L2 & L3).
    destruct (large_got g s rs' LL p (get_large_size_class g n) HI Le) as (gd & G & Gd & Z0); auto; [split; [lia|auto]|]. exists gd. auto.
  - destruct H as (I' & Le' & Er). split; [constructor; reflexivity|]. split; [|exact Er]. constructor; auto.
    + constructor; auto.
    + apply (large_hstep g s (ra_put rs' s) LL LL None None [] I); auto; try discriminate.
      * eapply os_chg_mono; [|exact OC]. intros q. rewrite kept_user. auto.
      * intros p n0 gd. split; [intros H; left; split; [auto|discriminate]|intros [[H _]|[=]]; auto].
      * intros O0. split; [auto|discriminate].
Qed.
Definition shape (g : config) (s' : state) (LL LL' : regs) (size p : Z) : Prop :=
  (size <= max_slab_size_class g /\ LL' = LL /\ in_class_of g s' (si_class (get_size_info size)) p /\ ra_leftover (st_ra s') = false) \/
  (max_slab_size_class g < size /\ p mod 4096 = 0 /\ exists gd, LL' = push (mkRegion p (get_large_size_class g size) gd) LL /\ guard_ok g (get_large_size_class g size) gd /\
     (forall x, p <= x < p + get_large_size_class g size -> mem (st_os s') x = 0)).
Lemma allocate_wp g arena s LL size : hinv g s LL -> ra_leftover (st_ra s) = false -> 0 <= arena < N_ARENA g -> 0 <= size < 2 ^ 64 ->
  wp (run (allocate g arena size)) s (fun r s' =>
     match r with
     | None => lost g s LL s' /\ (errno (st_os s') = ENOMEM \/ table_full g (st_ra s) /\ max_slab_size_class g < size)
     | Some p => exists LL', got g s LL s' LL' p (grant g size) /\ shape g s' LL LL' size p
     end) (alloc_fault g s).
Proof.
  intros HI Le Ha Hs. unfold allocate, grant. destruct (Z.leb_spec size (max_slab_size_class g)) as [Sm|Lg].
  - unfold allocate_small. apply wp_run_act. destruct (gsi_class_range g size ltac:(lia)) as (K1 & _ & K3).
    replace (negb (size =? 0)) with (negb (si_class (get_size_info size) =? 0)) by (f_equal; destruct (Z.eqb_spec size 0), (Z.eqb_spec (si_class (get_size_info size)) 0); tauto).
    eapply wp_mono; [apply (small_alloc_wp g arena s LL); auto| |auto]. intros [p|] s'.
    + intros (G & IC & L'). exists LL. split; [exact G|]. left. auto.
    + intros (L0 & E). auto.
  - eapply wp_mono; [apply (large_alloc_wp g s LL size HI Le Hs)| |intros f [H|H]; [left|right; left]; auto]. intros [p|] s' (_ & H).
    + destruct H as (gd & G & Pm & Gd & Z0). exists (push (mkRegion p (get_large_size_class g size) gd) LL). split; [exact G|]. right. split; [exact Lg|]. split; [exact Pm|]. exists gd. auto.
    + destruct H as (L0 & [E|E]); auto.
Qed.
