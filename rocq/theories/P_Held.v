(** Lemmas for C50 and C21: how large the ranges in the quarantine for large blocks are. *)
From Coq Require Import String ZArith List Bool Lia ZifyBool.
From Verif Require Import M_Base M_Config M_SizeClass M_Libdivide M_OS M_Random M_Slab M_Region M_Api M_Hist S_SizeClass S_Slab S_Heap S_Class S_Quar S_Guard S_Leak
  P_Base P_Count P_SizeClass P_SizeClass2 P_Libdivide P_Random P_OS P_Slab1 P_Slab2 P_Path
  P_Region P_Region2 P_Heap1 P_Heap2 P_Heap3 P_Heap4 P_Heap5 P_Heap6 P_Heap7 P_Heap8 P_Heap9 P_Heap10 P_Heap11 P_Init P_Api0 P_Api1 P_Api2 P_Api3 P_Api4 P_Api5 P_Api6 P_Api7 P_Api8 P_RQuar P_Arena P_Leak.
Import ListNotations.
Open Scope Z_scope.
Ltac Zify.zify_post_hook ::= idtac.
Section g.
Context (g : config) (B : Z).
Context (B0 : 0 <= B) (BS : REGION_QUARANTINE_SKIP_THRESHOLD g <= B).
(** no entry is longer than [B] *)
Definition rqb (r : ralloc) : Prop := forall e, In e (ra_qrandom r ++ ra_qqueue r) -> snd e <= B.
Definition qb (s : state) : Prop := rqb (st_ra s).
Definition mq {A} (m : M state A) : Prop := forall s, wp m s (fun _ s' => qb s -> qb s') anyf.
Definition pq {A} (p : prog state A) : Prop := mq (run p).
Lemma rqb_QU r r' : QU r' = QU r -> rqb r -> rqb r'.
Proof. unfold QU, rqb. intros [= -> -> _]. auto. Qed.
Lemma mq_bind {A C} (m : M state A) (f : A -> M state C) : mq m -> (forall a, mq (f a)) -> mq (bind m f).
Proof. intros H K s. apply wp_bind. eapply wp_mono; [apply H| |auto]. intros a s1 X. eapply wp_mono; [apply K| |auto]. auto. Qed.
Lemma pq_bind {A C} (p : prog state A) (f : A -> prog state C) : pq p -> (forall a, pq (f a)) -> pq (pbind p f).
Proof. intros H K s. apply wp_run_pbind. eapply wp_mono; [apply H| |auto]. intros a s1 X. eapply wp_mono; [apply K| |auto]. auto. Qed.
Lemma mq_ret {A} (a : A) : mq (ret a). Proof. intros s. apply wp_ret. auto. Qed.
Lemma mq_fail {A} f : mq (@fail state A f). Proof. intros s. exact Logic.I. Qed.
Lemma mq_fatal {A} f : mq (@fatal state A f). Proof. intros s. exact Logic.I. Qed.
Lemma mq_get : mq get. Proof. intros s. apply wp_get. auto. Qed.
Lemma mq_gets {A} (f : state -> A) : mq (gets f). Proof. intros s. apply wp_gets. auto. Qed.
Lemma mq_modify f : (forall s, qb s -> qb (f s)) -> mq (modify f). Proof. intros H s. apply wp_modify. auto. Qed.
Lemma mq_os {A} (m : M os A) : mq (on_os m). Proof. intros s. apply wp_zoom, wp_any. auto. Qed.
Lemma mq_rnd {A} (f : state -> rstate) (m : M rstate A) : mq (zoom f (fun r s => set_st_os (r_os r) s) m). Proof. intros s. apply wp_zoom, wp_any. auto. Qed.
Lemma mq_ra {A} (m : M rastate A) : calm m -> mq (on_ra m).
Proof. intros C s. unfold on_ra. apply wp_zoom. eapply wp_mono; [apply C| |auto]. intros a rs E. apply rqb_QU. exact E. Qed.
Lemma mq_class {A} a k (m : M cstate A) : mq (on_class g a k m).
Proof. intros s. unfold on_class. destruct (_ && _); [|exact Logic.I]. apply wp_zoom, wp_any. auto. Qed.
Lemma mq_at {A} p (m : Z -> Z -> M state A) : (forall a k, mq (m a k)) -> mq (fun s => let '(a, k) := slab_size_class g s p in m a k s).
Proof. intros H s. unfold wp. destruct (slab_size_class g s p) as [a k]. apply H. Qed.
Lemma pq_ret {A} (a : A) : pq (Ret a). Proof. apply mq_ret. Qed.
Lemma pq_act {A} (m : M state A) : mq m -> pq (act m). Proof. intros H s. apply wp_run_act, H. Qed.
Lemma pq_ra {A} (p : prog rastate A) : pcalm p -> pq (p_ra p).
Proof. intros C s. apply wp_pra. eapply wp_mono; [apply C| |auto]. intros a rs E. apply rqb_QU. exact E. Qed.
Lemma pq_os {A} (p : prog os A) : pq (p_os p). Proof. intros s. apply wp_pos, wp_any. auto. Qed.
Lemma mq_slow : mq (init_slow_path g).
Proof.
  unfold init_slow_path. apply mq_bind; [apply mq_get|intros s0]. destruct (is_init s0); [apply mq_ret|].
  repeat first [apply mq_bind; [|intros] | apply mq_os | apply mq_rnd | apply mq_fatal | apply mq_ret
    | match goal with |- mq (need _ ?x) => unfold need; destruct x | |- mq (must _ ?x) => unfold must; destruct x | |- mq (let '(_, _) := ?x in _) => destruct x end
    | apply mq_modify; intros s1 Q; first [exact Q | intros e H; cbn [set_st_ra st_ra ra_init ra_qrandom ra_qqueue] in H; apply in_app_iff in H; destruct H as [H|H]; apply repeat_spec in H; subst e; exact B0]].
Qed.
Lemma pq_init tid : pq (init g tid).
Proof.
  unfold init. apply pq_bind.
  - apply pq_act. intros s. unfold pick_arena. apply wp_bind, wp_get. destruct (N_ARENA g =? 1); [apply wp_ret; auto|]. destruct (st_arena s tid <? N_ARENA g); [apply wp_ret; auto|]. apply wp_bind, wp_put, wp_ret. auto.
  - intros [a r]. apply pq_bind; [|intros _; apply pq_ret]. destruct r; [apply pq_ret|]. apply pq_act, mq_slow.
Qed.
Lemma pq_trim l : forall b, pq (trim_classes g l b).
Proof. induction l as [|[a k] l IH]; intros b; cbn [trim_classes]; [apply pq_ret|]. apply pq_bind; [|intros; apply IH]. destruct (k =? 0); [apply pq_ret|apply pq_act, mq_class]. Qed.
Ltac keepq := repeat first
  [ apply pq_init | apply pq_trim | apply pq_ret | apply pq_ra | apply pq_os | apply mq_class | apply mq_os | apply mq_ra | apply mq_get | apply mq_gets | apply mq_fail | apply mq_ret
  | apply mq_at; intros | apply pq_act | apply pq_bind; intros | apply mq_bind; intros
  | match goal with
    | |- pq (if ?b then _ else _) => destruct b
    | |- mq (if ?b then _ else _) => destruct b
    | |- pq (match ?o with Some _ => _ | None => _ end) => destruct o
    | |- pq (match ?o with inl _ => _ | inr _ => _ end) => destruct o
    | |- pq (let '(_, _) := ?x in _) => destruct x
    end ].
Lemma allocate_q arena n : pq (allocate g arena n). Proof. unfold allocate, allocate_small. keepq. apply large_calm. Qed.
Lemma small_q p ex : pq (deallocate_small g p ex). Proof. unfold deallocate_small. keepq. Qed.
Lemma other_q tid c : match c with OFree _ | OFreeSized _ _ | ORealloc _ _ => False | _ => True end -> pq (op_run g tid c).
Proof.
  destruct c; intros X; try destruct X; cbn [op_run]; unfold pmap; (apply pq_bind; [|intros; apply pq_ret]);
  unfold h_malloc, h_calloc, h_posix_memalign, h_aligned_alloc, h_valloc, h_pvalloc, alloc_aligned_simple, alloc_aligned, allocate_aligned, alloc,
    h_malloc_usable_size, h_malloc_object_size, h_malloc_object_size_fast, h_malloc_trim, store, set_errno_to, enforce_init, allocate, allocate_small; keepq; auto using large_calm, ufind_calm, ofind_calm, aligned_calm.
Qed.
(** one pass through the quarantine *)
Lemma pass_q e rs : snd e <= B -> wp (region_quarantine_pass g e) rs (fun _ rs' => rqb (rs_ra rs) -> rqb (rs_ra rs')) anyf.
Proof.
  intros He. unfold region_quarantine_pass. apply wp_bind.
  eapply wp_mono with (Q := fun out rs1 => rqb (rs_ra rs) -> rqb (rs_ra rs1) /\ forall x, out = Some x -> snd x <= B) (E := anyf); [| |auto].
  - destruct (0 <? _); [|apply wp_ret; intros H; split; [exact H|intros x [= <-]; exact He]].
    apply wp_bind. unfold ra_rand at 1. apply wp_zoom, wp_any. intros i rr. set (rs1 := _ : rastate). assert (QU (rs_ra rs1) = QU (rs_ra rs)) as E1 by reflexivity. clearbody rs1.
    apply wp_bind, wp_gets, wp_bind. unfold aget. destruct (lget (ra_qrandom (rs_ra rs1)) i) as [old|] eqn:EO; [|exact Logic.I]. apply wp_ret, wp_bind, wp_modify, wp_ret. intros H. apply (rqb_QU _ _ E1) in H. split.
    + intros y Hy. cbn in Hy. apply in_app_iff in Hy. destruct Hy as [Hy|Hy]; [apply lset_In in Hy; destruct Hy as [->|Hy]; [exact He|]|]; apply H, in_app_iff; auto.
    + intros x Hx. destruct (fst old =? 0); [discriminate|]. injection Hx as <-. apply H, in_app_iff. left. eapply lget_In; eauto.
  - intros [x|] rs1 H; [|apply wp_ret; intros K; apply (H K)]. destruct (0 <? _); [|apply wp_ret; intros K; apply (H K)].
    apply wp_bind, wp_gets, wp_bind. unfold aget. destruct (lget (ra_qqueue (rs_ra rs1)) (ra_qqidx (rs_ra rs1))) as [old|] eqn:EO; [|exact Logic.I]. apply wp_ret, wp_bind, wp_modify, wp_bind, wp_modify, wp_ret.
    intros K. destruct (H K) as [K1 K2]. intros y Hy. cbn in Hy. apply in_app_iff in Hy. destruct Hy as [Hy|Hy]; [|apply lset_In in Hy; destruct Hy as [->|Hy]; [apply (K2 x eq_refl)|]]; apply K1, in_app_iff; auto.
Qed.
Lemma quar_q p n gd rs : (n < REGION_QUARANTINE_SKIP_THRESHOLD g -> w64 (n + gd * 2) <= B) -> wp (run (regions_quarantine_deallocate_pages g p n gd)) rs (fun _ rs' => rqb (rs_ra rs) -> rqb (rs_ra rs')) anyf.
Proof.
  intros HB. unfold regions_quarantine_deallocate_pages. destruct (negb (REGION_QUARANTINE g) || (REGION_QUARANTINE_SKIP_THRESHOLD g <=? n)) eqn:Z0; [apply wp_psys, wp_any; auto|].
  apply wp_run_pbind, wp_run_act, wp_zoom, wp_any. intros f o. apply wp_run_pbind. set (rs1 := _ : rastate). assert (rs_ra rs1 = rs_ra rs) as E1 by reflexivity. clearbody rs1.
  eapply wp_mono with (Q := fun _ rs2 => rs_ra rs2 = rs_ra rs) (E := anyf); [|intros [] rs2 E2|auto].
  { destruct f; [|apply wp_run_ret; exact E1]. apply wp_run_pbind, wp_run_act, wp_zoom, wp_any. intros. apply wp_run_ret. exact E1. }
  apply wp_run_pbind, wp_run_act. eapply wp_mono; [apply (pass_q (w64 (p - gd), w64 (n + gd * 2)) rs2)| |auto]; [cbn [snd]; apply HB; lia|]. rewrite E2. intros tg rs3 H.
  destruct (fst tg =? 0); [apply wp_run_ret; exact H|]. apply wp_run_pbind, wp_run_act, wp_zoom, wp_any. intros. apply wp_run_ret. exact H.
Qed.
Lemma w64_le x : 0 <= x -> w64 x <= x.
Proof. intros H. unfold w64. apply Z.mod_le; lia. Qed.
(** blocks below the threshold, with their guards, are no longer than [B] *)
Definition short (LL : regs) : Prop := forall r, In r (rl_own LL) -> rg_size r < REGION_QUARANTINE_SKIP_THRESHOLD g -> rg_size r + 2 * rg_guard r <= B.
Lemma large_q s LL p ex : hinv g s LL -> short LL -> wp (run (deallocate_large_top g p ex)) s (fun _ s' => qb s -> qb s') anyf.
Proof.
  intros HI SH. pose proof HI as [I O S A C SC]. unfold deallocate_large_top. apply wp_run_pbind, wp_run_act. unfold enforce_init. apply wp_bind, wp_get. rewrite (hinv_init _ _ _ HI). apply wp_ret. apply wp_pra. unfold deallocate_large. apply wp_run_pbind, wp_run_act.
  eapply wp_mono; [apply (remove_section_wp g s (ra_get s) LL [] p ex); [rewrite ra_put_get; exact I|rewrite O; intros []]| |intros; exact Logic.I].
  intros [n gd] rs1 (r & -> & Hin & _ & _ & _ & _ & Q1 & Q2 & Q3). cbn [fst snd] in *.
  eapply wp_mono; [apply quar_q| |auto].
  - intros L. pose proof (SH _ Hin) as X. cbn [rg_size rg_guard] in X. specialize (X L). destruct (gi_reg _ _ _ _ I _ Hin). cbn [rg_size rg_guard rg_p] in *. pose proof (region_p g s LL [] I _ Hin) as (P1 & _). cbn [rg_size rg_guard rg_p] in P1. eapply Z.le_trans; [apply w64_le|]; lia.
  - intros [] rs2 H K. apply H. unfold rqb. rewrite Q1, Q2. exact K.
Qed.
Lemma shrink_q old n gd m : pq (realloc_shrink g old n gd m).
Proof.
  unfold realloc_shrink. cbv zeta. apply pq_bind; [keepq|intros [|]]; [apply pq_ret|]. apply pq_bind; [|intros []; keepq; apply rresize_calm].
  intros s. apply wp_pra. eapply wp_mono; [apply quar_q| |auto].
  - intros L. rewrite Z.mul_0_l, Z.add_0_r. unfold w64 at 1. rewrite Z.mod_small; [lia|]. unfold w64. apply Z.mod_pos_bound. lia.
  - intros [] rs' H K. apply H. exact K.
Qed.
Lemma mremap_q old n gd m : pq (realloc_mremap g old n gd m).
Proof. unfold realloc_mremap. keepq; auto using large_calm, rdelete_calm. Qed.

Context (GS : forall size gd, guard_ok g size gd -> size < REGION_QUARANTINE_SKIP_THRESHOLD g -> size + 2 * gd <= B).
Lemma copy_q tid old old_size size s LL : ready g s LL -> ra_leftover (st_ra s) = false -> 0 <= size < 2 ^ 64 -> short LL -> wp (run (realloc_copy g tid old old_size size)) s (fun _ s' => qb s -> qb s') anyf.
Proof.
  intros R Le Hs SH. unfold realloc_copy. pose proof (max_slab_bounds g) as MB. pose proof (canary_le g) as CB.
  apply wp_run_pbind. eapply wp_mono; [apply (wp_and _ _ _ _ _ (init_call_wp g tid s LL R) (pq_init tid s))| |intros; exact Logic.I]. intros arena s1 ((Ha & IN) & Q1). pose proof IN as [i1 i2 i3 i4 i5 i7 i6].
  apply wp_run_pbind. eapply wp_mono; [apply (wp_and _ _ _ _ _ (allocate_wp g arena s1 LL size i1 (i5 Le) Ha Hs) (allocate_q arena size s1))| |intros; exact Logic.I]. intros [q|] s2; [|intros (_ & Q2); apply wp_run_ret; auto].
  intros ((LL' & G & Sh) & Q2). pose proof (got_ares _ _ _ _ _ _ _ _ IN G) as AR. set (m := grant g size) in *.
  pose proof (ar_inv _ _ _ _ _ _ _ AR) as HI2. pose proof (ar_step _ _ _ _ _ _ _ AR) as HS2.
  assert (block g s2 LL' q m) as BN by (apply HS2; right; reflexivity).
  assert (max_slab_size_class g < size -> m <> 0) as MNZ by (intros H; eapply shape_nz; [exact HI2|exact BN|exact Sh|lia|lia]).
  pose proof (grant_min g size Hs MNZ) as GM. fold m in GM. cbv zeta.
  set (cs := if (0 <? Z.min size old_size) && (Z.min size old_size <=? max_slab_size_class g) then Z.min size old_size - canary_size g else Z.min size old_size).
  assert (cs <= m \/ cs <= 0) as C2.
  { unfold cs. clear cs. destruct (Z.leb_spec size (max_slab_size_class g)); destruct (Z.min_spec size old_size) as [[? ->]|[? ->]]; destruct (_ && _) eqn:Q; lia. }
  clearbody cs.
  assert (forall x, q <= x < q + cs -> pages (st_os s2) (page_of x) = Some PRW) as RWq. { intros x Hx. eapply (block_rw g s2 LL' [] (hi_inv _ _ _ HI2)); [exact BN|lia]. }
  apply wp_run_pbind, wp_run_act. unfold on_os. apply wp_zoom. unfold mem_copy. apply wp_bind, wp_get. destruct ((cs <=? 0) || _); [|exact Logic.I]. apply wp_put.
  match goal with |- context [set_st_os ?o s2] => set (o3 := o) end. assert (poke (fun x => q <= x < q + cs) (st_os s2) o3) as PK by (apply poke_copy; exact RWq).
  assert (poke (fun x => q <= x < q + m) (st_os s2) o3) as PK2 by (eapply poke_mono; [|exact PK]; cbn; lia).
  set (s3 := set_st_os o3 s2). assert (hinv g s3 LL') as HI3 by (eapply hinv_poke; eauto).
  assert (qb s -> qb s3) as Q3 by (intros K; apply Q2, Q1, K).
  apply wp_run_pbind. destruct (old_size <=? max_slab_size_class g).
  - eapply wp_mono; [apply small_q| |auto]. intros [] s4 K. apply wp_run_ret. auto.
  - eapply wp_mono; [apply (large_q s3 LL' old None HI3)| |auto].
    + intros r Hr L. destruct (proj2 (hs_guard _ _ _ _ _ _ _ HS2 (ready_open _ _ _ R)) r Hr) as [X|(_ & [X|([=] & _)])]; [exact (SH r X L)|exact (GS _ _ X L)].
    + intros [] s4 K. apply wp_run_ret. auto.
Qed.
Lemma large_ready_q s LL p ex : ready g s LL -> short LL -> wp (run (deallocate_large_top g p ex)) s (fun _ s' => qb s -> qb s') anyf.
Proof.
  intros R SH. destruct (is_init s) eqn:Ei; [apply (large_q s LL); auto; apply ready_hinv; auto|]. unfold deallocate_large_top. apply wp_run_pbind, wp_run_act. unfold enforce_init. apply wp_bind, wp_get. rewrite Ei. exact Logic.I.
Qed.
Lemma realloc_q tid s LL old n : ready g s LL -> ra_leftover (st_ra s) = false -> word n -> short LL -> wp (run (h_realloc g tid old n)) s (fun _ s' => qb s -> qb s') anyf.
Proof.
  intros R Le Hn SH. unfold word in Hn. pose proof (max_slab_bounds g) as MB. destruct (adjust_spec g n Hn) as (A1 & _ & _). unfold h_realloc. set (v := adjust_size_for_canary g n) in *.
  destruct (old =? 0); [apply (ltac:(unfold alloc; keepq; apply allocate_q) : pq (alloc g tid v))|].
  set (size := if max_slab_size_class g <? v then get_large_size_class g v else v). destruct (large_any g v A1) as (G1 & G2 & G3).
  assert (0 <= size < 2 ^ 64) as Hsz by (unfold size; destruct (max_slab_size_class g <? v); lia). clearbody size. cbv zeta.
  destruct (_ && (size =? 0)); [apply (ltac:(unfold set_errno_to; keepq) : pq (set_errno_to ENOMEM ;;; Ret None))|].
  apply wp_run_pbind, wp_run_act, wp_get. destruct (in_slab_region old s).
  - destruct (_ && _); [apply wp_run_ret; auto|]. eapply copy_q; eauto.
  - apply wp_run_pbind, wp_run_act. unfold enforce_init. apply wp_bind, wp_get. destruct (is_init s) eqn:Ei; [|exact Logic.I]. apply wp_ret.
    apply wp_run_pbind, wp_run_act. eapply wp_mono; [apply P_Arena.find_same| |auto]. intros [n0 gd] s1 ->.
    destruct (n0 =? size); [apply wp_run_ret; auto|]. destruct (max_slab_size_class g <? size); [|eapply copy_q; eauto]. destruct (size <? n0); [apply shrink_q|]. destruct (_ <=? _); [apply mremap_q|eapply copy_q; eauto].
Qed.
Lemma step_q W t s LL tid c a s' : linv g t s LL -> short LL -> calls g W t s tid c a s' -> qb s -> qb s'.
Proof.
  intros LI SH (TC & WD & _ & _ & RUN). pose proof (li_ready _ _ _ _ LI) as R.
  destruct c; try (refine (run_wp _ _ _ _ _ _ (other_q tid _ _ s) RUN); exact Logic.I); cbn [words] in WD; cbn [op_run] in RUN; destruct (run_pmap _ _ _ _ _ RUN) as (r & RUN' & _); clear RUN.
  - exact (run_wp _ _ _ _ _ _ (realloc_q tid s LL p n R TC ltac:(apply WD) SH) RUN').
  - assert (wp (run (h_free g p)) s (fun _ s' => qb s -> qb s') anyf) as W0; [|exact (run_wp _ _ _ _ _ _ W0 RUN')].
    unfold h_free. destruct (p =? 0); [apply wp_run_ret; auto|]. apply wp_run_pbind, wp_run_act, wp_get. destruct (in_slab_region p s); [apply small_q|]. apply wp_run_pbind, wp_run_act, wp_gets. apply wp_run_pbind.
    eapply wp_mono; [apply (large_ready_q s LL); auto| |auto]. intros [] s1 K. unfold set_errno_to. apply wp_run_act, wp_zoom, wp_any. intros. apply K. assumption.
  - assert (wp (run (h_free_sized g p n)) s (fun _ s' => qb s -> qb s') anyf) as W0; [|exact (run_wp _ _ _ _ _ _ W0 RUN')].
    unfold h_free_sized. destruct (p =? 0); [apply wp_run_ret; auto|]. cbv zeta. apply wp_run_pbind, wp_run_act, wp_get. destruct (in_slab_region p s); [apply small_q|]. apply (large_ready_q s LL); auto.
Qed.
End g.
(** the longest entry *)
Definition entry_limit (g : config) : Z := REGION_QUARANTINE_SKIP_THRESHOLD g + 2 * guard_limit g (REGION_QUARANTINE_SKIP_THRESHOLD g).
Lemma limit_mono g x y : 1 <= GUARD_SIZE_DIVISOR g -> x <= y -> guard_limit g x <= guard_limit g y.
Proof.
  intros G L. unfold guard_limit. assert (x / 4096 / GUARD_SIZE_DIVISOR g <= y / 4096 / GUARD_SIZE_DIVISOR g) by (apply Z.div_le_mono; [lia|]; apply Z.div_le_mono; lia). lia.
Qed.
Lemma history_qb g W o t s : usable_config g = true -> history g W o t s -> (forall p, ~ resized_in_place t p) -> qb (entry_limit g) s.
Proof.
  intros U H. pose proof (ucfg_of g U) as UC. assert (1 <= GUARD_SIZE_DIVISOR g) as Gd by apply UC.
  assert (0 <= REGION_QUARANTINE_SKIP_THRESHOLD g) as S0 by apply UC.
  assert (forall n, 4096 <= guard_limit g n) as GL by (intros n; unfold guard_limit; lia). pose proof (GL (REGION_QUARANTINE_SKIP_THRESHOLD g)) as GL0.
  induction H as [|t s tid c a s' H IH TC WD PM ST E]; intros NR; [intros e []|].
  assert (forall p, ~ resized_in_place t p) as NR' by (intros p (d & n & X); apply (NR p); exists d, n; right; exact X).
  destruct (history_gok _ _ _ _ _ U H) as (LL & LI & _ & GK & _).
  assert (forall size gd, guard_ok g size gd -> size < REGION_QUARANTINE_SKIP_THRESHOLD g -> size + 2 * gd <= entry_limit g) as GS.
  { intros size gd (_ & _ & X) L. fold (guard_limit g size) in X. pose proof (limit_mono g size (REGION_QUARANTINE_SKIP_THRESHOLD g) Gd ltac:(lia)). unfold entry_limit. lia. }
  apply (step_q g (entry_limit g) ltac:(unfold entry_limit; lia) ltac:(unfold entry_limit; lia) GS W t s LL tid c a s'); [exact LI| |repeat split; auto|auto].
  intros r Hr L. destruct (GK r Hr) as [X|X]; [auto|elim (NR' _ X)].
Qed.
Lemma held_short g s e : qb (entry_limit g) s -> In e (held_ranges (st_ra s)) -> snd e - fst e < entry_limit g + 8192.
Proof.
  intros Q H. unfold held_ranges in H. apply in_map_iff in H. destruct H as (x & <- & Hx). apply filter_In in Hx. specialize (Q x (proj1 Hx)). unfold range_of. cbn [fst snd]. unfold page_up.
  pose proof (Z.div_mod (fst x) 4096 ltac:(lia)). pose proof (Z.mod_pos_bound (fst x) 4096 ltac:(lia)). pose proof (Z.div_mod (fst x + snd x + 4095) 4096 ltac:(lia)). pose proof (Z.mod_pos_bound (fst x + snd x + 4095) 4096 ltac:(lia)). lia.
Qed.
(** with no realloc in place, every guard is as small as the size of its block asks for *)
Lemma C21_tight_l g W o t s : usable_config g = true -> history g W o t s -> is_init s = true ->
  exists lo hi, lo <= hi <= lo + page_up (sizeof_allocator_state g) + 2 * REAL_CLASS_REGION_SIZE g /\
    forall t' s', continues g W t s t' s' -> never_refused s' -> (forall p, ~ resized_in_place t' p) ->
    exists held, Z.of_nat (length held) <= REGION_QUARANTINE_RANDOM_LENGTH g + REGION_QUARANTINE_QUEUE_LENGTH g /\ (forall x, in_ranges held x -> inaccessible s' x) /\
      (forall r, In r held -> snd r - fst r <= REGION_QUARANTINE_SKIP_THRESHOLD g + 2 * guard_limit g (REGION_QUARANTINE_SKIP_THRESHOLD g) + 8192) /\
      forall x, mapped s' x -> mapped (boot g o) x \/ lo <= x < hi \/ in_small_area s x \/ in_ranges held x \/
        exists p c n, In (p, c) (live t') /\ ~ in_small_area s' p /\ usable_size g s' p n /\ p - guard_limit g n <= x < page_up (p + n) + guard_limit g n.
Proof.
  intros U H Hi. destruct (C50_core0 g W o t s U H Hi) as (lo & hi & B & K). exists lo, hi. split; [exact B|]. intros t' s' C N NR. destruct (K t' s' C N) as (held & H0 & H1 & H2 & H3). exists held. split; [exact H1|]. split; [exact H2|].
  split. { intros r Hr. subst held. pose proof (held_short g s' r (history_qb g W o t' s' U (cont_history _ _ _ _ _ _ _ H C) NR) Hr) as X. unfold entry_limit in X. lia. }
  intros x Hx. destruct (H3 x Hx) as [X|[X|[X|[(p & c & n & gd & X1 & X2 & X3 & _ & _ & X4 & [X5|X5] & _)|X]]]]; auto 6; [|elim (NR p X5)].
  do 4 right. exists p, c, n. split; [exact X1|]. split; [exact X2|]. split; [exact X3|]. lia.
Qed.

(** whatever realloc did: every guard is as small as some size its block has had asks for *)
Lemma C21_once_l g W o t s : usable_config g = true -> history g W o t s -> is_init s = true ->
  exists lo hi, lo <= hi <= lo + page_up (sizeof_allocator_state g) + 2 * REAL_CLASS_REGION_SIZE g /\
    forall t' s', continues g W t s t' s' -> never_refused s' ->
    exists held, Z.of_nat (length held) <= REGION_QUARANTINE_RANDOM_LENGTH g + REGION_QUARANTINE_QUEUE_LENGTH g /\ (forall x, in_ranges held x -> inaccessible s' x) /\
      forall x, mapped s' x -> mapped (boot g o) x \/ lo <= x < hi \/ in_small_area s x \/ in_ranges held x \/
        exists p c n n0, In (p, c) (live t') /\ ~ in_small_area s' p /\ usable_size g s' p n /\ once_of_size g W o t' s' p n0 /\
          p - guard_limit g n0 <= x < page_up (p + n) + guard_limit g n0.
Proof.
  intros U H Hi. destruct (C50_core0 g W o t s U H Hi) as (lo & hi & B & K). exists lo, hi. split; [exact B|]. intros t' s' C N. destruct (K t' s' C N) as (held & H0 & H1 & H2 & H3). exists held. split; [exact H1|]. split; [exact H2|].
  intros x Hx. destruct (H3 x Hx) as [X|[X|[X|[(p & c & n & gd & X1 & X2 & X3 & _ & _ & X4 & _ & n0 & X5 & X6)|X]]]]; auto 6.
  do 4 right. exists p, c, n, n0. split; [exact X1|]. split; [exact X2|]. split; [exact X3|]. split; [exact X5|]. lia.
Qed.
(** an example *)
From Verif Require Import P_Demo P_Guard P_Demo6.
Lemma shrink_unrefused s : looks g0 true t_shrink s shrink_calm -> never_refused s.
Proof. intros H. apply never_refusedb_ok. exact H. Qed.
