(** Deallocation and queries as steps on the set of blocks. *)
From Coq Require Import String ZArith List Bool Lia ZifyBool Permutation.
From Verif Require Import M_Base M_Config M_SizeClass M_Libdivide M_OS M_Random M_Slab M_Region M_Api M_Hist
  P_Base P_Count P_SizeClass P_Libdivide P_Random P_Bitmap P_Bitmap2 P_OS P_Links P_Slab1 P_Slab2 P_Slab3 P_Slab4 P_Slab9 P_Slab10 P_Slab11 P_Path
  P_Region P_Region2 P_Heap1 P_Heap2 P_Heap3 P_Heap4 P_Heap5 P_Heap6 P_Heap7 P_Heap8 P_Heap9 P_Init.
Import ListNotations.
Open Scope Z_scope.
Ltac Zify.zify_post_hook ::= idtac.

Definition nonblock (g : config) (s : state) (LL : regs) (p : Z) : Prop := forall n, ~ block g s LL p n.
(** the effect of giving up the block at [p] *)
Record freed (g : config) (s : state) (LL : regs) (s' : state) (LL' : regs) (p n : Z) : Prop := {
  fr_blk : block g s LL p n;
  fr_inv : hinv g s' LL';
  fr_step : hstep g s LL s' LL' (Some p) None;
  fr_left : ra_leftover (st_ra s') = ra_leftover (st_ra s);
  fr_zero : ZERO_ON_FREE g = true -> in_slab_region p s = true -> forall x, p <= x < p + n -> mem (st_os s') x = 0;
  fr_place : same_place s s';
  fr_wait : forall a k i, class_in g a k -> 0 < cntof (st_cls s a k) i -> cntof (st_cls s' a k) i <= 0 ->
    In (Some i) (c_fq (st_cls s' a k)) \/ exists E F, cinvL g k (st_os s') (st_cls s' a k) E F /\ In i E
}.
Lemma hinv_same g s s' LL LL' : hinv g s LL -> ginv g s' LL' [] -> same_place s s' -> rl_strict LL' = rl_strict LL -> rl_open LL' = [] -> sized LL' -> hinv g s' LL'.
Proof. intros [I O S A C SC] I' [E1 E2 E3 E4 E5] T' O' S'. constructor; auto; [rewrite E5; auto|rewrite E4; auto|congruence]. Qed.

Lemma free_msgs_fatal f : In f free_msgs -> exists m, f = Fatal m.
Proof. cbn. intros H. repeat destruct H as [<-|H]; try (eexists; reflexivity). destruct H. Qed.
Lemma usable_msgs_fatal f : In f usable_msgs -> exists m, f = Fatal m.
Proof. cbn. intros H. repeat destruct H as [<-|H]; try (eexists; reflexivity). destruct H. Qed.
Lemma osize_msgs_fatal f : In f osize_msgs -> exists m, f = Fatal m.
Proof. cbn. intros H. repeat destruct H as [<-|H]; try (eexists; reflexivity). destruct H. Qed.

(** a live block whose canary, if it has one, is intact *)
Definition sound_block (g : config) (s : state) (LL : regs) (p : Z) : Prop :=
  (exists n, block g s LL p n) /\ forall a k i j, sblk g s a k i j p -> canary_intact g k (st_os s) (st_cls s a k) i j.
Definition free_fault (g : config) (s : state) (LL : regs) (p : Z) (f : fault) : Prop :=
  (sys_fault f /\ sound_block g s LL p) \/ (rng_fault f /\ sound_block g s LL p) \/ ((exists m, f = Fatal m) /\ nonblock g s LL p) \/
  (f = Fatal "canary corrupted" /\ in_slab_region p s = true /\ (exists n, block g s LL p n) /\ ~ clean g s).
Definition sized_small (g : config) (s : state) (p : Z) (ex : option Z) (f : fault) : Prop :=
  f = Fatal "sized deallocation mismatch (small)" /\ exists e, ex = Some e /\ e <> class_size g (snd (slab_size_class g s p)).
Definition sized_large (g : config) (LL : regs) (p : Z) (ex : option Z) (f : fault) : Prop :=
  f = Fatal "sized deallocation mismatch (large)" /\ exists e sz gd, ex = Some e /\ In (mkRegion p sz gd) (rl_own LL) /\ sz <> get_large_size_class g e.

Lemma at_class_wp {A} g s p a k (m : Z -> Z -> M state A) (Q : A -> state -> Prop) (E : fault -> Prop) : slab_size_class g s p = (a, k) ->
  wp (m a k) s Q E -> wp (fun s => let '(a, k) := slab_size_class g s p in m a k s) s Q E.
Proof. intros H. unfold wp. rewrite H. auto. Qed.
Lemma slab_block g s LL p n : hinv g s LL -> in_slab_region p s = true -> block g s LL p n -> exists a k i j, sblk g s a k i j p /\ n = usable_of g k.
Proof.
  intros HI L [H|(gd & H)]; [exact H|]. exfalso. destruct (region_p g s LL [] (hi_inv _ _ _ HI) _ H) as (B1 & _). cbn in B1.
  assert (in_slab_region p s = false) by (apply (region_not_slab g s LL [] (hi_inv _ _ _ HI) _ H); cbn; lia). congruence.
Qed.
Lemma large_block g s LL p n : hinv g s LL -> in_slab_region p s = false -> block g s LL p n -> exists gd, In (mkRegion p n gd) (rl_own LL).
Proof.
  intros HI L [(a & k & i & j & H & _)|H]; [|exact H]. exfalso. destruct (sblk_loc g s LL [] (hi_inv _ _ _ HI) _ _ _ _ _ H). congruence.
Qed.
Lemma dsmall_top_wp g s LL p ex : hinv g s LL -> 0 <= p < 2 ^ 64 -> in_slab_region p s = true ->
  wp (run (deallocate_small g p ex)) s
    (fun _ s' => exists n, freed g s LL s' LL p n /\ st_ra s' = st_ra s /\ (errno (st_os s') = errno (st_os s) \/ errno (st_os s') = EINTR /\ intr (entq (st_os s))) /\ (forall e, ex = Some e -> e = class_size g (snd (slab_size_class g s p))))
    (fun f => free_fault g s LL p f \/ sized_small g s p ex f).
Proof.
  intros HI Hp L. pose proof HI as [I O S A C SC]. unfold deallocate_small. apply wp_run_act.
  destruct (addr_class g s (gi_u _ _ _ _ I) (gi_pl _ _ _ _ I) p L) as (a & k & E & Ck & _). unfold sized_small. rewrite E. cbn [snd]. apply (at_class_wp g s p a k (fun a k => on_class g a k (deallocate_small_class g k p ex)) _ _ E).
  assert (forall x, (forall i j, ~ sblk g s a k i j p) -> ~ block g s LL p x) as NB.
  { intros x H B. destruct (slab_block _ _ _ _ _ HI L B) as (a' & k' & i & j & SB & _). destruct (sblk_loc g s LL [] I _ _ _ _ _ SB) as [_ E']. rewrite E in E'. injection E' as <- <-. apply (H i j SB). }
  eapply wp_mono; [apply (dealloc_class_wp g s LL I a k Ck p ex Hp)| |].
  - intros [] s' (I' & SP & Er & H & (i & j & SB) & Ex & En & _ & Z0 & W0). exists (usable_of g k). split; [|split; [auto|split; [auto|auto]]]. constructor; auto.
    + left. exists a, k, i, j. auto.
    + eapply hinv_same; eauto.
    + rewrite Er. reflexivity.
  - assert (forall i j, sblk g s a k i j p /\ canary_intact g k (st_os s) (st_cls s a k) i j -> sound_block g s LL p) as BK.
    { intros i j [SB Hc]. split; [exists (usable_of g k); left; exists a, k, i, j; auto|]. intros a' k' i' j' SB'. destruct (sblk_inj g s LL [] I _ _ _ _ _ _ _ _ _ SB SB') as (-> & -> & -> & ->). exact Hc. }
    intros f [[H (i & j & SB)]|[[H (i & j & SB)]|[H|[[H N]|(-> & (i & j & SB) & N)]]]]; [left; left; eauto|left; right; left; eauto|right; auto| |]; left; right; right.
    + left. split; [apply free_msgs_fatal; auto|]. intros x. apply NB, N.
    + right. split; [auto|]. split; [auto|]. split; [|auto]. exists (usable_of g k). left. exists a, k, i, j. auto.
Qed.
Lemma dlarge_top_wp g s LL p ex : ready g s LL -> in_slab_region p s = false ->
  wp (run (deallocate_large_top g p ex)) s
    (fun _ s' => exists n, freed g s LL s' (drop p LL) p n /\ st_cls s' = st_cls s /\ (forall e, ex = Some e -> n = get_large_size_class g e))
    (fun f => free_fault g s LL p f \/ sized_large g LL p ex f).
Proof.
  intros R L. unfold deallocate_large_top. apply wp_run_pbind, wp_run_act. unfold enforce_init. apply wp_bind, wp_get. destruct (is_init s) eqn:Ei.
  2:{ apply wp_fail. left. right. right. left. split; [eexists; reflexivity|]. intros n. apply idle_block. destruct R as [R|R]; [|auto]. rewrite (hinv_init _ _ _ R) in Ei. discriminate. }
  apply wp_ret. pose proof (ready_hinv _ _ _ R Ei) as HI. pose proof HI as [I O S A C SC]. apply wp_pra.
  eapply wp_mono; [apply (deallocate_large_wp g s (ra_get s) LL [] p ex); auto; rewrite ra_put_get; exact I| |].
  - intros [] rs' (sz & gd & Hin & I' & OC & Le & Ex). exists sz. split; [|split; [reflexivity|auto]].
    assert (hstep g s LL (ra_put rs' s) (drop p LL) (Some p) None) as HS.
    { apply (large_hstep g s (ra_put rs' s) LL (drop p LL) (Some p) None [] I); auto; try discriminate.
      - eapply os_chg_mono; [|exact OC]. intros q. rewrite kept_drop. auto.
      - intros p0 n0 gd0. cbn [drop rl_own]. rewrite out_In. cbn. split; [intros [H N]; left; split; congruence|intros [[H N]|[=]]; split; congruence].
      - intros p0 [= <-]. apply in_map_iff. eexists. split; [|exact Hin]. reflexivity.
      - intros O0. split; discriminate. }
    constructor; auto.
    + right. exists gd. exact Hin.
    + eapply hinv_same; [exact HI|exact I'|constructor; reflexivity|reflexivity|exact O|]. intros r Hr. cbn [drop rl_own] in Hr. apply out_In in Hr. apply S. apply Hr.
    + congruence.
    + constructor; reflexivity.
    + intros a k i _ K K'. exfalso. change (st_cls (ra_put rs' s)) with (st_cls s) in K'. lia.
  - assert (In p (map rg_p (rl_own LL)) -> sound_block g s LL p) as BK.
    { intros H. apply in_map_iff in H. destruct H as ([p0 sz gd] & E0 & H). cbn in E0. subst p0. split; [exists sz; right; exists gd; exact H|].
      intros a k i j SB. destruct (sblk_loc g s LL [] I _ _ _ _ _ SB). congruence. }
    intros f [[H H0]|[[H H0]|[[-> N]|H]]]; [left; left; auto|left; right; left; auto| |right; exact H]. left. right. right. left. split; [eexists; reflexivity|].
    intros n B. destruct (large_block _ _ _ _ _ HI L B) as (gd & Hin). apply N. apply in_map_iff. eexists. split; [|exact Hin]. reflexivity.
Qed.
Lemma idle_slab g s LL p : 0 <= p -> idle g s LL -> in_slab_region p s = false.
Proof. intros Hp [E1 E2 E3 E4 E5 E6]. unfold in_slab_region. lia. Qed.
Lemma freed_errno g s LL s' LL' p n e : freed g s LL s' LL' p n -> freed g s LL (set_st_os (set_errno e (st_os s')) s') LL' p n.
Proof.
  intros [A B C D Z0 P W0]. constructor; auto.
  4:{ intros a k i Ck H H'. destruct (W0 a k i Ck H H') as [X|(E & F & X & Y)]; [left; exact X|]. right. destruct (gclass g (set_st_os (set_errno e (st_os s')) s') LL' []) with (a := a) (k := k) as (E2 & F2 & X2); [|auto|].
      - eapply hi_inv. apply (hinv_poke g s' LL' (fun _ => False)); [exact B|]. constructor; auto; [intros x K; elim K; reflexivity|split; [reflexivity|apply le_n]].
      - exists E2, F2. split; [exact X2|]. destruct (lists_fun _ _ _ _ _ _ _ _ _ X X2) as [-> _]. exact Y. }
  - apply (hinv_poke g s' LL' (fun _ => False)); [exact B|]. constructor; auto; [intros x H; elim H; reflexivity|split; [reflexivity|apply le_n]].
  - eapply hstep_ext; [exact C|reflexivity|reflexivity|split; [reflexivity|apply le_n]].
  - destruct P. constructor; auto.
Qed.
Lemma slab_hinv g s LL p : 0 <= p -> ready g s LL -> in_slab_region p s = true -> hinv g s LL.
Proof. intros Hp [H|H] L; [auto|]. rewrite (idle_slab _ _ _ _ Hp H) in L. discriminate. Qed.
Lemma block_nz g s LL p n : ready g s LL -> block g s LL p n -> p <> 0 /\ hinv g s LL.
Proof. intros [H|H] B; [|elim (idle_block _ _ _ _ _ H B)]. destruct (block_bounds g s LL [] (hi_inv _ _ _ H) p n B). split; [lia|auto]. Qed.

Lemma free_wp g s LL p : ready g s LL -> 0 <= p < 2 ^ 64 ->
  wp (run (h_free g p)) s (fun _ s' => if p =? 0 then s' = s else
      exists LL' n, freed g s LL s' LL' p n /\ (errno (st_os s') = errno (st_os s) \/ in_slab_region p s = true /\ errno (st_os s') = EINTR /\ intr (entq (st_os s))))
    (fun f => p <> 0 /\ free_fault g s LL p f).
Proof.
  intros R Hp. unfold h_free. destruct (Z.eqb_spec p 0) as [->|N0]; [apply wp_run_ret; reflexivity|].
  apply wp_run_pbind, wp_run_act, wp_get. destruct (in_slab_region p s) eqn:L.
  - pose proof (slab_hinv _ _ _ _ (proj1 Hp) R L) as HI. eapply wp_mono; [apply (dsmall_top_wp g s LL p None HI Hp L)| |].
    + intros [] s' (n & F & _ & E & _). exists LL, n. split; [auto|]. destruct E; auto.
    + intros f [H|(_ & e & [=] & _)]. auto.
  - apply wp_run_pbind, wp_run_act. apply wp_gets. apply wp_run_pbind. eapply wp_mono; [apply (dlarge_top_wp g s LL p None R L)| |].
    + intros [] s' (n & F & _ & _). unfold set_errno_to. apply wp_run_act, wp_zoom, wp_modify. exists (drop p LL), n. split; [apply freed_errno; exact F|]. left. reflexivity.
    + intros f [H|(_ & e & sz & gd & [=] & _)]. auto.
Qed.
Definition sized_fault (g : config) (s : state) (LL : regs) (p n : Z) (f : fault) : Prop :=
  sized_small g s p (Some (si_size (get_size_info (adjust_size_for_canary g n)))) f /\ in_slab_region p s = true \/ sized_large g LL p (Some (adjust_size_for_canary g n)) f /\ in_slab_region p s = false.
Lemma free_sized_wp g s LL p n : ready g s LL -> 0 <= p < 2 ^ 64 -> 0 <= n < 2 ^ 64 ->
  wp (run (h_free_sized g p n)) s (fun _ s' => if p =? 0 then s' = s else exists LL' m, freed g s LL s' LL' p m /\
       (if in_slab_region p s then si_size (get_size_info (adjust_size_for_canary g n)) = class_size g (snd (slab_size_class g s p)) else m = get_large_size_class g (adjust_size_for_canary g n)))
    (fun f => p <> 0 /\ (free_fault g s LL p f \/ sized_fault g s LL p n f)).
Proof.
  intros R Hp Hn. unfold h_free_sized. destruct (Z.eqb_spec p 0) as [->|N0]; [apply wp_run_ret; reflexivity|].
  apply wp_run_pbind, wp_run_act, wp_get. unfold sized_fault. destruct (in_slab_region p s) eqn:L.
  - pose proof (slab_hinv _ _ _ _ (proj1 Hp) R L) as HI. eapply wp_mono; [apply (dsmall_top_wp g s LL p (Some _) HI Hp L)| |].
    + intros [] s' (m & F & _ & E & Ex). exists LL, m. split; [auto|]. apply Ex. reflexivity.
    + intros f [H|H]; auto.
  - eapply wp_mono; [apply (dlarge_top_wp g s LL p (Some _) R L)| |].
    + intros [] s' (m & F & _ & Ex). exists (drop p LL), m. split; [auto|]. apply Ex. reflexivity.
    + intros f [H|H]; auto.
Qed.

(** ** queries *)
Record seen (g : config) (s : state) (LL : regs) (s' : state) : Prop := {
  se_inv : ready g s' LL;
  se_step : hstep g s LL s' LL None None;
  se_os : st_os s' = st_os s;
  se_ra : st_ra s' = st_ra s;
  se_cls : forall a k, st_cls s' a k = st_cls s a k;
  se_place : same_place s s'
}.
Lemma seen_refl g s LL : ready g s LL -> seen g s LL s.
Proof. intros R. constructor; auto; [apply hstep_refl|apply same_place_refl]. Qed.
Lemma seen_put g s LL a k : hinv g s LL -> class_in g a k -> seen g s LL (put_cls a k (st_cls s a k) (set_st_os (st_os s) s)).
Proof.
  intros HI C. pose proof HI as [I O S A Ct]. set (s' := put_cls _ _ _ _).
  assert (forall a0 k0, st_cls s' a0 k0 = st_cls s a0 k0) as Ec. { intros a0 k0. cbn. destruct ((a0 =? a) && (k0 =? k)) eqn:Q; [|reflexivity]. assert (a0 = a /\ k0 = k) as [-> ->] by lia. reflexivity. }
  assert (st_os s' = st_os s) as Eo by reflexivity.
  assert (forall a0 k0 i j p, sblk g s' a0 k0 i j p <-> sblk g s a0 k0 i j p) as SB by (intros; unfold sblk; rewrite Ec; tauto).
  assert (forall p n, block g s' LL p n <-> block g s LL p n) as BL. { intros p n. unfold block. split; (intros [(a0 & k0 & i & j & H & E)|H]; [left; exists a0, k0, i, j; split; [apply SB; auto|auto]|right; auto]). }
  constructor; auto.
  - left. eapply hinv_same; [exact HI| |constructor; reflexivity|reflexivity|auto|auto].
    assert (exists E F, cinvL g k (st_os s) (st_cls s a k) E F) as Iv by (destruct (gclass _ _ _ _ I a k C) as (E & F & H); eauto).
    apply (ginv_class_step g s LL [] a k (st_os s) (st_cls s a k)); auto. apply os_in_refl.
  - constructor.
    + intros p n. rewrite BL. split; [intros H; left; split; [auto|discriminate]|intros [[H _]|[=]]; auto].
    + discriminate.
    + reflexivity.
    + intros [X Y]. constructor.
      * intros a0 k0 i j. rewrite Ec, Eo. apply X.
      * intros ZF a0 k0 i j x. rewrite Ec, Eo. apply Y; auto.
    + constructor; try discriminate.
      * apply later_refl.
      * intros a0 k0 _. rewrite Ec. apply cp_refl.
      * intros a0 k0 i j p H _. rewrite SB, Ec. auto.
      * intros a0 k0 i j p H _. apply SB, H.
    + reflexivity.
    + auto.
  - constructor; reflexivity.
Qed.

(** reads leave the state as it was *)
Definition readonly {S A} (m : M S A) : Prop := forall s, match m s with Ok (_, s') => s' = s | Fail _ => True end.
Lemma ro_ret {S A} (x : A) : readonly (S := S) (ret x). Proof. intros s. reflexivity. Qed.
Lemma ro_fail {S A} f : readonly (S := S) (A := A) (fail f). Proof. intros s. exact I. Qed.
Lemma ro_bind {S A B} (m : M S A) (k : A -> M S B) : readonly m -> (forall x, readonly (k x)) -> readonly (bind m k).
Proof. intros H K s. unfold bind. specialize (H s). destruct (m s) as [[x s']|f]; [|exact I]. subst s'. apply K. Qed.
Lemma ro_gets {S A} (f : S -> A) : readonly (gets f). Proof. intros s. reflexivity. Qed.
Lemma ro_get {S} : readonly (S := S) get. Proof. intros s. reflexivity. Qed.
Lemma ro_if {S A} (b : bool) (m n : M S A) : readonly m -> readonly n -> readonly (if b then m else n). Proof. destruct b; auto. Qed.
Ltac ro := repeat first [apply ro_ret | apply ro_fail | apply ro_gets | apply ro_get | (apply ro_bind; [|intros ?]) | apply ro_if].
Lemma object_size_ro g k p : readonly (object_size_class g k p).
Proof. unfold object_size_class, get_metadata, md, is_used_slot, is_quarantine_slot, chk_bitmap. ro. Qed.
Lemma ro_wp {S A} (m : M S A) s (E : fault -> Prop) : readonly m -> (forall f, E f) -> wp m s (fun _ s' => s' = s) E.
Proof. intros H K. unfold wp. specialize (H s). destruct (m s) as [[x s']|f]; auto. Qed.

(** p lies in the slot of a live small block starting at [q] *)
Lemma usable_wp g s LL p : ready g s LL -> 0 <= p < 2 ^ 64 ->
  wp (run (h_malloc_usable_size g p)) s (fun r s' => seen g s LL s' /\ (if p =? 0 then r = 0 else block g s LL p r /\ sound_block g s LL p))
    (fun f => p <> 0 /\ (exists m, f = Fatal m) /\ (nonblock g s LL p \/ f = Fatal "canary corrupted" /\ in_slab_region p s = true /\ (exists n, block g s LL p n) /\ ~ clean g s)).
Proof.
  intros R Hp. unfold h_malloc_usable_size. destruct (Z.eqb_spec p 0) as [->|N0]; [apply wp_run_ret; split; [apply seen_refl; auto|reflexivity]|].
  apply wp_run_pbind, wp_run_act, wp_get. destruct (in_slab_region p s) eqn:L.
  - pose proof (slab_hinv _ _ _ _ (proj1 Hp) R L) as HI. pose proof HI as [I O S A C SC]. destruct (addr_class g s (gi_u _ _ _ _ I) (gi_pl _ _ _ _ I) p L) as (a & k & E & Ck & _).
    apply wp_run_pbind, wp_run_act. unfold slab_usable_size. rewrite E. cbn [snd]. apply (at_class_wp g s p a k (fun a k => on_class g a k (memory_corruption_check_class g k p)) _ _ E).
    apply on_class_wp; [exact Ck|]. destruct (gclass _ _ _ _ I a k Ck) as (E1 & F1 & Iv). eapply wp_mono; [apply (corruption_check_wp g k (st_os s) (st_cls s a k) E1 F1 p Iv Hp)| |].
    + intros [] cs (-> & i & j & Hj & Hg & Ep & Hcn). cbn [cs_os cs_c]. apply wp_run_ret. split; [apply seen_put; auto|].
      match goal with |- ?A /\ _ => assert A as BK end. 2:{ split; [exact BK|]. split; [eexists; exact BK|]. intros a' k' i' j' SB'.
        assert (sblk g s a k i j p) as SB by (split; auto). destruct (sblk_inj g s LL [] I _ _ _ _ _ _ _ _ _ SB SB') as (-> & -> & -> & ->). exact Hcn. }
      left. exists a, k, i, j. split; [split; auto|].
      unfold usable_of. pose proof (class_facts_all g k (proj2 Ck)) as []. rewrite cf_size. destruct (Z.eqb_spec k 0); [reflexivity|]. replace (slot_size g k =? 0) with false by lia. reflexivity.
    + intros f [[H N]|(-> & i & j & Hj & Hg & -> & K)]; (split; [auto|]).
      * split; [apply usable_msgs_fatal; auto|]. left. intros n B. destruct (slab_block _ _ _ _ _ HI L B) as (a' & k' & i & j & SB & _). destruct (sblk_loc g s LL [] I _ _ _ _ _ SB) as [_ E'].
        rewrite E in E'. injection E' as <- <-. destruct SB as (_ & Hj & Hg & Ep). exact (N i j Hj Hg Ep).
      * split; [eexists; reflexivity|]. right. split; [auto|]. split; [auto|]. split; [exists (usable_of g k); left; exists a, k, i, j; split; [split; auto|auto]|]. intros [Cc _]. apply K. apply Cc; auto.
  - apply wp_run_pbind, wp_run_act. unfold enforce_init. apply wp_bind, wp_get. destruct (is_init s) eqn:Ei.
    2:{ apply wp_fail. split; [auto|]. split; [eexists; reflexivity|]. left. intros n. apply idle_block. destruct R as [R|R]; [|auto]. rewrite (hinv_init _ _ _ R) in Ei. discriminate. }
    apply wp_ret. pose proof (ready_hinv _ _ _ R Ei) as HI. pose proof HI as [I O S A C SC]. apply wp_run_act. unfold on_ra. apply wp_zoom. unfold usable_find. apply wp_bind.
    apply (find_wp g s (ra_get s) LL []); [rewrite ra_put_get; exact I| |].
    + intros i sz gd Hin Hi _ Hc. apply wp_bind, wp_gets, wp_ret. rewrite ra_put_get. split; [apply seen_refl; auto|]. rewrite Hc. cbn [rg_size]. unfold rl_all in Hin. rewrite O, app_nil_r in Hin.
      assert (block g s LL p sz) as BK by (right; exists gd; exact Hin). split; [exact BK|]. split; [eexists; exact BK|]. intros a' k' i' j' SB'. destruct (sblk_loc g s LL [] I _ _ _ _ _ SB'). congruence.
    + intros N. apply wp_bind, wp_gets. apply wp_fail. split; [auto|]. split; [eexists; reflexivity|]. left. intros n B. destruct (large_block _ _ _ _ _ HI L B) as (gd & Hin). apply N. apply in_map_iff.
      eexists. split; [|unfold rl_all; rewrite O, app_nil_r; exact Hin]. reflexivity.
Qed.
(** pointers into a live small block *)
Definition inside (g : config) (s : state) (LL : regs) (p q n : Z) : Prop := block g s LL q n /\ in_slab_region q s = true /\ q <= p < q + n.
Lemma object_wp g s LL p : ready g s LL -> 0 <= p < 2 ^ 64 ->
  wp (run (h_malloc_object_size g p)) s (fun r s' => seen g s LL s' /\
       (p = 0 -> r = 0) /\ (forall q n, inside g s LL p q n -> r = q + n - p) /\ (forall n, in_slab_region p s = false -> block g s LL p n -> r = n) /\
       (p <> 0 -> in_slab_region p s = false -> nonblock g s LL p -> r = SIZE_MAX))
    (fun f => in_slab_region p s = true /\ forall q n, ~ inside g s LL p q n).
Proof.
  intros R Hp. unfold h_malloc_object_size. destruct (Z.eqb_spec p 0) as [->|N0].
  { apply wp_run_ret. split; [apply seen_refl; auto|]. split; [auto|]. split; [|split; [|congruence]].
    - intros q n (B & _ & H). destruct (block_nz _ _ _ _ _ R B) as [_ HI]. destruct (block_bounds g s LL [] (hi_inv _ _ _ HI) q n B). lia.
    - intros n _ B. destruct (block_nz _ _ _ _ _ R B). congruence. }
  apply wp_run_pbind, wp_run_act, wp_get. destruct (in_slab_region p s) eqn:L.
  - pose proof (slab_hinv _ _ _ _ (proj1 Hp) R L) as HI. pose proof HI as [I O S A C SC]. destruct (addr_class g s (gi_u _ _ _ _ I) (gi_pl _ _ _ _ I) p L) as (a & k & E & Ck & _).
    apply wp_run_pbind, wp_run_act. unfold slab_usable_size. rewrite E. cbn [snd]. apply (at_class_wp g s p a k (fun a k => on_class g a k (object_size_class g k p)) _ _ E).
    assert (forall q n, inside g s LL p q n -> exists i j, sblk g s a k i j q /\ n = usable_of g k) as IN.
    { intros q n (B & Lq & Hq). destruct (slab_block _ _ _ _ _ HI Lq B) as (a' & k' & i & j & SB & ->). pose proof (usable_bounds g k' ltac:(apply SB)).
      destruct (sblk_extent g s LL [] I _ _ _ _ _ SB p ltac:(lia)) as (_ & E' & _). rewrite E in E'. injection E' as <- <-. eauto. }
    apply on_class_wp; [exact Ck|]. destruct (gclass _ _ _ _ I a k Ck) as (E1 & F1 & Iv). pose proof (class_facts_all g k (proj2 Ck)) as CF. pose proof CF as [].
    destruct (Z.eq_dec k 0) as [K0|K0].
    + assert (forall q n, ~ inside g s LL p q n) as NI. { intros q n H. destruct (IN q n H) as (i & j & _ & ->). destruct H as (_ & _ & H). unfold usable_of in H. rewrite K0 in H. cbn in H. lia. }
      eapply wp_mono; [apply (ro_wp _ _ (fun _ => True)); [apply object_size_ro|auto]| |intros f _; split; [reflexivity|exact NI]].
      * intros r cs ->. cbn [cs_os cs_c]. apply wp_run_ret. split; [apply seen_put; auto|]. split; [congruence|]. split; [intros q n H; elim (NI q n H)|]. split; [discriminate|discriminate].
    + eapply wp_mono; [apply (object_size_wp g k (st_os s) (st_cls s a k) E1 F1 p Iv Hp K0)| |].
      * intros r cs (-> & i & j & Hj & Hg & Hq & ->). cbn [cs_os cs_c]. apply wp_run_ret. split; [apply seen_put; auto|]. split; [congruence|].
        split; [|split; discriminate]. intros q n H. pose proof H as (B & _ & H3). destruct (IN q n H) as (i' & j' & SB & ->). pose proof SB as (_ & Hj' & Hg' & ->).
        assert (sblk g s a k i j (sptr g k (st_cls s a k) i j)) as SB2 by (split; auto). pose proof (usable_bounds g k ltac:(apply Ck)) as UB.
        destruct (sptr_apart g k _ (ggeom g s LL [] I a k Ck) i j i' j' p Hj Hj' Hq ltac:(lia)) as [-> ->].
        rewrite cf_size. replace (k =? 0) with false by lia. replace (slot_size g k =? 0) with false by lia. unfold usable_of in *. replace (k =? 0) with false in * by lia.
        rewrite w64_small; [lia|]. change (2 ^ 64) with 18446744073709551616. pose proof (canary_le g). lia.
      * intros f (H & N). split; [auto|]. intros q n IQ. pose proof IQ as (B & _ & H3). destruct (IN q n IQ) as (i' & j' & SB & ->). pose proof SB as (_ & Hj' & Hg' & ->). pose proof (usable_bounds g k ltac:(apply Ck)).
        apply (N i' j' Hj' Hg'). lia.
  - assert (forall q n, ~ inside g s LL p q n) as NI.
    { intros q n (B & Lq & Hq). pose proof (block_nz _ _ _ _ _ R B) as [_ HI]. destruct (slab_block _ _ _ _ _ HI Lq B) as (a' & k' & i & j & SB & ->). pose proof (usable_bounds g k' ltac:(apply SB)).
      destruct (sblk_extent g s LL [] (hi_inv _ _ _ HI) _ _ _ _ _ SB p ltac:(lia)) as (E' & _). congruence. }
    destruct (is_init s) eqn:Ei; cbn [negb].
    2:{ apply wp_run_ret. split; [apply seen_refl; auto|]. split; [congruence|]. split; [intros q n H; elim (NI q n H)|]. split; [|auto]. intros n _ B. destruct (block_nz _ _ _ _ _ R B) as [_ HI]. rewrite (hinv_init _ _ _ HI) in Ei. discriminate. }
    pose proof (ready_hinv _ _ _ R Ei) as HI. pose proof HI as [I O S A C SC]. apply wp_run_act. unfold on_ra. apply wp_zoom. unfold object_find. apply wp_bind.
    apply (find_wp g s (ra_get s) LL []); [rewrite ra_put_get; exact I| |].
    + intros i sz gd Hin Hi _ Hc. apply wp_bind, wp_gets, wp_ret. rewrite ra_put_get. split; [apply seen_refl; auto|]. rewrite Hc. cbn [rg_size].
      assert (block g s LL p sz) as B. { right. exists gd. unfold rl_all in Hin. rewrite O, app_nil_r in Hin. exact Hin. }
      split; [congruence|]. split; [intros q n H; elim (NI q n H)|]. split; [|intros _ _ N; elim (N _ B)]. intros n _ B2. eapply block_fun; eauto.
    + intros N. apply wp_bind, wp_gets, wp_ret. rewrite ra_put_get. split; [apply seen_refl; auto|]. split; [congruence|]. split; [intros q n H; elim (NI q n H)|]. split; [|auto].
      intros n _ B. destruct (large_block _ _ _ _ _ HI L B) as (gd & Hin). elim N. apply in_map_iff. eexists. split; [|unfold rl_all; rewrite O, app_nil_r; exact Hin]. reflexivity.
Qed.
Lemma object_fast_wp g s LL p : ready g s LL -> 0 <= p < 2 ^ 64 ->
  wp (run (h_malloc_object_size_fast g p)) s (fun r s' => s' = s /\ (p = 0 -> r = 0) /\ forall q n, block g s LL q n -> q <= p < q + n -> q + n - p <= r) (fun f => False).
Proof.
  intros R Hp. unfold h_malloc_object_size_fast. destruct (Z.eqb_spec p 0) as [->|N0].
  { apply wp_run_ret. split; [auto|]. split; [auto|]. intros q n B H. destruct (block_nz _ _ _ _ _ R B) as [_ HI]. destruct (block_bounds g s LL [] (hi_inv _ _ _ HI) q n B). lia. }
  apply wp_run_pbind, wp_run_act, wp_get. destruct (in_slab_region p s) eqn:L.
  - apply wp_run_ret. split; [auto|]. split; [congruence|]. intros q n B H. pose proof (slab_hinv _ _ _ _ (proj1 Hp) R L) as HI. pose proof HI as [I O S A C SC].
    destruct B as [(a & k & i & j & SB & ->)|(gd & B)].
    + pose proof (usable_bounds g k ltac:(apply SB)). destruct (sblk_extent g s LL [] I _ _ _ _ _ SB p ltac:(lia)) as (_ & E & _). unfold slab_usable_size. rewrite E. cbn [snd].
      pose proof (class_facts_all g k ltac:(apply SB)) as []. rewrite cf_size. unfold usable_of in *. destruct (Z.eqb_spec k 0); [lia|]. replace (slot_size g k =? 0) with false by lia. lia.
    + rewrite (region_not_slab g s LL [] I _ B p) in L; [discriminate|cbn; lia].
  - destruct (is_init s) eqn:Ei; cbn [negb]; apply wp_run_ret; (split; [auto|]; split; [congruence|]); intros q n B H; destruct (block_nz _ _ _ _ _ R B) as [_ HI].
    + destruct (block_bounds g s LL [] (hi_inv _ _ _ HI) q n B). change SIZE_MAX with 18446744073709551615. change (2 ^ 48) with 281474976710656 in *. lia.
    + rewrite (hinv_init _ _ _ HI) in Ei. discriminate.
Qed.

(** ** trim *)
Record trimmed (g : config) (s : state) (LL : regs) (b : bool) (s' : state) : Prop := {
  tr_inv : ready g s' LL;
  tr_step : hstep g s LL s' LL None None;
  tr_ra : st_ra s' = st_ra s;
  tr_place : same_place s s';
  tr_cls : is_init s = true -> forall a k, class_in g a k -> k <> 0 -> exists o1 b1 o2, later (st_os s) o1 /\ later o2 (st_os s') /\ trim_cls g k o1 (st_cls s a k) b1 o2 (st_cls s' a k) /\ (b1 = true -> b = true);
  tr_zero : forall a, class_in g a 0 -> st_cls s' a 0 = st_cls s a 0;
  tr_res : b = true -> is_init s = true /\ exists a k o1 o2, class_in g a k /\ k <> 0 /\ later (st_os s) o1 /\ later o2 (st_os s') /\ trim_cls g k o1 (st_cls s a k) true o2 (st_cls s' a k)
}.
Definition trim_class_at (g : config) (s : state) (a k : Z) (b : bool) (s' : state) : Prop :=
  exists o1 o2, later (st_os s) o1 /\ later o2 (st_os s') /\ trim_cls g k o1 (st_cls s a k) b o2 (st_cls s' a k).
Lemma trim_classes_wp g LL l : forall b s, (forall a k, In (a, k) l -> class_in g a k) -> NoDup l -> hinv g s LL ->
  wp (run (trim_classes g l b)) s (fun b' s' => (ready g s' LL /\ hstep g s LL s' LL None None /\ st_ra s' = st_ra s /\ same_place s s' /\ hinv g s' LL) /\
      (forall a k, ~ In (a, k) l \/ k = 0 -> st_cls s' a k = st_cls s a k) /\
      (forall a k, In (a, k) l -> k <> 0 -> exists b1, trim_class_at g s a k b1 s' /\ (b1 = true -> b' = true)) /\
      (b = true -> b' = true) /\ (b' = true -> b = true \/ exists a k, In (a, k) l /\ k <> 0 /\ trim_class_at g s a k true s')) (fun f => sys_fault f \/ rng_fault f).
Proof.
  induction l as [|[a k] l IH]; intros b s Hl ND HI; cbn [trim_classes].
  - apply wp_run_ret. split; [split; [left; auto|split; [apply hstep_refl|split; [auto|split; [apply same_place_refl|auto]]]]|]. split; [auto|]. split; [intros a k []|]. auto.
  - inversion ND as [|x l0 NI ND']. subst. apply wp_run_pbind. destruct (Z.eqb_spec k 0) as [K|K].
    + apply wp_run_ret. rewrite orb_false_r. eapply wp_mono; [apply (IH b s); auto; intros a0 k0 H; apply Hl; right; auto| |auto].
      intros b' s' (T & N & In1 & B1 & B2). split; [auto|]. split; [|split; [|split; [auto|]]].
      * intros a0 k0 [H|H]; apply N; [left; intros X; apply H; right; auto|auto].
      * intros a0 k0 [[= <- <-]|H] Hk; [contradiction|auto].
      * intros Hb. destruct (B2 Hb) as [H|(a0 & k0 & H1 & H2 & H3)]; [auto|]. right. exists a0, k0. split; [right; auto|auto].
    + apply wp_run_act. eapply wp_mono; [apply (trim_wp g s LL (hi_inv _ _ _ HI) a k (Hl a k (or_introl eq_refl)) K)| |auto].
      intros b1 s1 ((I1 & P1 & R1 & H1) & TC & OT). assert (hinv g s1 LL) as HI1 by (eapply hinv_same; eauto; apply HI).
      eapply wp_mono; [apply (IH (b || b1) s1); auto; intros a0 k0 H; apply Hl; right; auto| |auto]. intros b2 s2 ((T1 & T2 & T3 & T4 & HI2) & N & In1 & B1 & B2).
      pose proof (hc_os _ _ _ _ _ (hs_cls _ _ _ _ _ _ _ H1)) as L1. pose proof (hc_os _ _ _ _ _ (hs_cls _ _ _ _ _ _ _ T2)) as L2.
      assert (trim_class_at g s a k b1 s2) as TA. { exists (st_os s), (st_os s1). split; [apply later_refl|]. split; [exact L2|]. rewrite (N a k (or_introl NI)). exact TC. }
      assert (forall a0 k0 b0, In (a0, k0) l -> trim_class_at g s1 a0 k0 b0 s2 -> trim_class_at g s a0 k0 b0 s2) as UP.
      { intros a0 k0 b0 Hin (o1 & o2 & X1 & X2 & X3). exists o1, o2. split; [eapply later_trans; eauto|]. split; [auto|]. rewrite OT in X3; [auto|].
        destruct (Z.eq_dec a0 a) as [->|]; [|auto]. destruct (Z.eq_dec k0 k) as [->|]; [contradiction|auto]. }
      split; [split; [auto|split; [|split; [congruence|split; [eapply same_place_trans; eauto|auto]]]]|split; [|split; [|split]]].
      * eapply hstep_trans; [exact H1|exact T2|]. left. auto.
      * intros a0 k0 H. assert (a0 <> a \/ k0 <> k) as D. { destruct H as [H|H]; [|lia]. destruct (Z.eq_dec a0 a) as [->|]; [|auto]. destruct (Z.eq_dec k0 k) as [->|]; [|auto]. elim H. left. reflexivity. }
        rewrite N; [apply OT, D|]. destruct H as [H|H]; [left; intros X; apply H; right; auto|auto].
      * intros a0 k0 [[= <- <-]|H] Hk; [exists b1; split; [exact TA|intros ->; apply B1; apply orb_true_r]|]. destruct (In1 a0 k0 H Hk) as (b0 & X1 & X2). exists b0. auto.
      * intros ->. apply B1. reflexivity.
      * intros Hb. destruct (B2 Hb) as [H|(a0 & k0 & X1 & X2 & X3)]; [apply orb_prop in H; destruct H as [H| ->]; [auto|]|]; right.
        -- exists a, k. split; [left; auto|auto].
        -- exists a0, k0. split; [right; auto|auto].
Qed.
Lemma all_classes_nodup g : NoDup (all_classes g).
Proof.
  unfold all_classes. assert (forall l : list Z, NoDup l -> NoDup (flat_map (fun a => map (fun k : Z => (a, k)) (zrange 0 (N_SIZE_CLASSES g))) l)) as H; [|apply H, zrange_NoDup].
  induction l as [|a l IH]; intros ND; cbn [flat_map]; [constructor|]. inversion ND as [|x l0 NI ND']. subst.
  apply NoDup_app_inv. split; [|split; [auto|]].
  - apply FinFun.Injective_map_NoDup; [intros x y [= ->]; reflexivity|apply zrange_NoDup].
  - intros [a0 k0] H1 H2. apply in_map_iff in H1. destruct H1 as (k1 & [= <- <-] & _). apply in_flat_map in H2. destruct H2 as (a1 & Ha & H2). apply in_map_iff in H2. destruct H2 as (k2 & [= -> _] & _). contradiction.
Qed.
Lemma trim_all_wp g s LL : ready g s LL ->
  wp (run (h_malloc_trim g)) s (fun b s' => trimmed g s LL b s') (fun f => sys_fault f \/ rng_fault f).
Proof.
  intros R. unfold h_malloc_trim. apply wp_run_pbind, wp_run_act, wp_get. destruct (is_init s) eqn:Ei; cbn [negb].
  - eapply wp_mono; [apply (trim_classes_wp g LL (all_classes g) false s); [intros a k H; apply all_classes_in; auto|apply all_classes_nodup|apply ready_hinv; auto]| |auto].
    intros b s' ((T1 & T2 & T3 & T4 & HI2) & N & In1 & B1 & B2). constructor; auto.
    + intros _ a k C K. apply all_classes_in in C. destruct (In1 a k C K) as (b1 & (o1 & o2 & X1 & X2 & X3) & X4). exists o1, b1, o2. auto.
    + intros Hb. split; [auto|]. destruct (B2 Hb) as [H|(a & k & H1 & H2 & (o1 & o2 & X1 & X2 & X3))]; [discriminate|]. exists a, k, o1, o2. split; [apply all_classes_in; auto|auto].
  - apply wp_run_ret. constructor; [auto|apply hstep_refl|auto|apply same_place_refl|congruence|auto|discriminate].
Qed.

(** ** stores by the program *)
Lemma store_wp g s LL x v : ready g s LL ->
  wp (run (act (store g x v))) s (fun _ s' => ready g s' LL /\ s' = set_st_os (set_mem (fupd (mem (st_os s)) x (w8 v)) (st_os s)) s /\ pages (st_os s) (page_of x) = Some PRW)
    (fun f => f = Segv /\ pages (st_os s) (page_of x) <> Some PRW \/ f = UB "store into the allocator state" /\ is_init s = true /\ in_pages (st_base s) (sizeof_allocator_state g) (page_of x) = true).
Proof.
  intros R. apply wp_run_act. unfold store. apply wp_bind, wp_get. destruct (is_rw (pages (st_os s) (page_of x))) eqn:W; cbn [negb].
  2:{ apply wp_fail. left. split; [auto|]. intros E. rewrite E in W. discriminate. }
  assert (pages (st_os s) (page_of x) = Some PRW) as RW. { destruct (pages (st_os s) (page_of x)) as [[]|]; cbn in W; try discriminate; auto. }
  destruct (is_init s && _) eqn:Q.
  { apply wp_fail. right. apply andb_prop in Q. destruct Q. auto. }
  unfold on_os. apply wp_zoom, wp_modify. split; [|auto]. destruct R as [R|R].
  - left. apply (hinv_poke g s LL (fun y => y = x)); [exact R|]. constructor; auto; [| |split; [reflexivity|apply le_n]].
    + intros y. cbn. unfold fupd. destruct (Z.eqb_spec y x) as [->|]; [auto|congruence].
    + intros y Hy. cbn. unfold fupd. destruct (Z.eqb_spec y x); [contradiction|auto].
  - right. destruct R. constructor; auto.
Qed.
