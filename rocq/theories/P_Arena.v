(** Lemmas for C22 and C39: a thread's small blocks lie in its arena. *)
From Coq Require Import String ZArith List Bool Lia ZifyBool.
From Verif Require Import M_Base M_Config M_SizeClass M_Libdivide M_OS M_Random M_Slab M_Region M_Api M_Hist S_SizeClass S_Slab S_Heap S_Class S_Arena
  P_Base P_Count P_SizeClass P_SizeClass2 P_Libdivide P_Random P_Bitmap P_Bitmap2 P_OS P_Links P_Slab1 P_Slab2 P_Slab3 P_Slab4 P_Slab5 P_Slab6 P_Slab7 P_Slab8 P_Slab9 P_Slab11 P_Path P_Quar
  P_Region P_Heap1 P_Heap2 P_Heap3 P_Heap4 P_Heap5 P_Heap6 P_Heap7 P_Heap8 P_Heap9 P_Heap10 P_Heap11 P_Init P_Api0 P_Api1 P_Api2 P_Api3 P_Api4 P_Api5 P_Api6 P_Api7 P_Api8 P_Api9 P_Api10 P_Conc0.
Import ListNotations.
Open Scope Z_scope.
Ltac Zify.zify_post_hook ::= idtac.

Section A.
Context (g : config).
Lemma each_stays {A} (p : prog state A) : each (msy g) p -> forall s, wp (run p) s (fun _ s' => stays g s s') anyf.
Proof.
  induction p as [a|B m k IH]; intros H s; cbn [run]; [apply wp_ret, stays_refl|]. destruct H as [H1 H2].
  apply wp_bind. eapply wp_mono; [apply (H1 s)| |intros; exact I]. intros b s1 S1. eapply wp_mono; [apply (IH b (H2 b) s1)| |intros; exact I].
  intros a s2 S2. exact (stays_trans _ _ _ _ S1 S2).
Qed.
Lemma part_of s LL X a k x : ginv g s LL X -> class_in g a k -> class_lo g s a k <= x < class_lo g s a k + REAL_CLASS_REGION_SIZE g ->
  arena_at g s x = a /\ part_at g s x = N_SIZE_CLASSES g * a + k.
Proof.
  intros I C H. pose proof (gfacts_of g (gi_u _ _ _ _ I)) as []. destruct C as [C1 C2]. unfold class_lo, ARENA_SIZE, REAL_CLASS_REGION_SIZE in H. unfold arena_at, part_at.
  set (R := CLASS_REGION_SIZE g) in *. set (N := N_SIZE_CLASSES g) in *.
  assert (x - st_start s = 2 * R * (N * a + k) + (x - st_start s - 2 * R * (N * a + k))) as Ex by lia.
  split.
  - symmetry. apply Z.div_unique_pos with (r := x - st_start s - 2 * R * N * a); [|lia]. split; [nia|]. assert (2 * R * (k + 1) <= 2 * R * N) by (apply Z.mul_le_mono_nonneg_l; lia). nia.
  - symmetry. apply Z.div_unique_pos with (r := x - st_start s - 2 * R * (N * a + k)); [|lia]. nia.
Qed.
Lemma sblk_part s LL X a k i j p x : ginv g s LL X -> sblk g s a k i j p -> p <= x < p + slot_size g k -> arena_at g s x = a /\ part_at g s x = N_SIZE_CLASSES g * a + k.
Proof.
  intros I (C & Hj & Hg & ->) Hx. destruct (slot_info g s LL X I a k i j C Hj (granted_used _ _ _ Hg)) as (_ & _ & B1 & B2).
  apply (part_of s LL X a k x I C). apply (class_region_lo g s LL X I a k x C). lia.
Qed.

(** [p] is a large block or lies in the arena of the thread *)
Definition lands (tid : Z) (s : state) (p : Z) : Prop :=
  is_init s = true /\ (in_slab_region p s = true -> 0 <= thread_arena g s tid < N_ARENA g /\ arena_at g s p = thread_arena g s tid).
Lemma lands_stays tid s s' p : lands tid s p -> stays g s s' -> lands tid s' p.
Proof.
  intros [Hi L] [S A _]. destruct (S Hi) as (E1 & E2 & E3). split; [eapply sited_init; eauto|].
  intros Hp. assert (in_slab_region p s = true) as Hp0 by (unfold in_slab_region in *; rewrite E1, E2 in Hp || rewrite E2, E3 in Hp || rewrite E1, E3 in Hp; exact Hp).
  destruct (L Hp0) as [L1 L2]. assert (thread_arena g s' tid = thread_arena g s tid) as ->.
  { unfold thread_arena in *. destruct (N_ARENA g =? 1); [reflexivity|]. apply A. lia. }
  split; [exact L1|]. rewrite <- L2. unfold arena_at. congruence.
Qed.
Definition gives (tid : Z) (r : option Z) (s : state) : Prop := forall p, r = Some p -> lands tid s p.
Lemma large_lands tid s LL p n gd : hinv g s LL -> In (mkRegion p n gd) (rl_own LL) -> lands tid s p.
Proof.
  intros HI Hin. split; [eapply hinv_init; eauto|]. intros E. destruct (region_p g s LL [] (hi_inv _ _ _ HI) _ Hin) as (P & _). cbn in P.
  rewrite (region_not_slab g s LL [] (hi_inv _ _ _ HI) _ Hin) in E; [discriminate|cbn; lia].
Qed.
Lemma allocate_lands tid arena s LL size : hinv g s LL -> ra_leftover (st_ra s) = false -> 0 <= arena < N_ARENA g -> thread_arena g s tid = arena -> 0 <= size < 2 ^ 64 ->
  wp (run (allocate g arena size)) s (gives tid) anyf.
Proof.
  intros HI Le Ha Ht Hs. unfold allocate. destruct (Z.leb_spec size (max_slab_size_class g)) as [Sm|Lg].
  - unfold allocate_small. apply wp_run_act. destruct (gsi_class_range g size ltac:(lia)) as (K1 & _ & K3).
    replace (negb (size =? 0)) with (negb (si_class (get_size_info size) =? 0)) by (f_equal; destruct (Z.eqb_spec size 0), (Z.eqb_spec (si_class (get_size_info size)) 0); tauto).
    set (k := si_class (get_size_info size)) in *.
    eapply wp_mono; [apply wp_and; [apply (alloc_class_wp g s LL (hi_inv _ _ _ HI) arena k); split; auto|apply (msy_class g arena k)]| |intros; exact I].
    intros r s' [(I' & SP & Er & H) ST] p ->. destruct H as (HS & (i & j & SB) & _). pose proof (sy_site _ _ _ ST (hinv_init _ _ _ HI)) as E.
    split; [eapply sited_init; [apply ST|eapply hinv_init; eauto]|]. intros _.
    assert (thread_arena g s' tid = arena) as ->.
    { unfold thread_arena in *. destruct (N_ARENA g =? 1); [exact Ht|]. rewrite <- Ht. apply (sy_arena _ _ _ ST). lia. }
    split; [exact Ha|]. pose proof (class_facts_all g k K1) as []. apply (sblk_part s' LL [] arena k i j p p I' SB). lia.
  - eapply wp_mono; [apply (large_alloc_wp g s LL size HI Le Hs)| |intros; exact I]. intros r s' (_ & H) p ->.
    destruct H as (gd & G & _). eapply large_lands; [apply G|left; reflexivity].
Qed.
Lemma init_lands tid s LL : ready g s LL -> ra_leftover (st_ra s) = false ->
  wp (run (init g tid)) s (fun a s' => 0 <= a < N_ARENA g /\ thread_arena g s' tid = a /\ hinv g s' LL /\ ra_leftover (st_ra s') = false) anyf.
Proof.
  intros R Le. pose proof (init_call_wp g tid s LL R) as W. unfold wp in *. destruct (run (init g tid) s) as [[a s']|f] eqn:E; [|exact I].
  destruct W as (Ha & IN). split; [exact Ha|]. split; [|split; [apply IN|apply (in_left _ _ _ _ IN Le)]].
  unfold thread_arena. destruct (Z.eqb_spec (N_ARENA g) 1) as [E1|E1]; [lia|].
  assert (0 <= st_arena s tid) as A0 by (destruct R as [H|H]; [apply (hi_arena _ _ _ H)|pose proof (id_arena _ _ _ H tid); lia]).
  destruct (init_result g tid s a s' ltac:(lia) A0 E) as (_ & H). apply H. lia.
Qed.
Lemma alloc_lands tid s LL n : ready g s LL -> ra_leftover (st_ra s) = false -> 0 <= n < 2 ^ 64 -> wp (run (alloc g tid n)) s (gives tid) anyf.
Proof.
  intros R Le Hn. unfold alloc. apply wp_run_pbind. eapply wp_mono; [apply (init_lands tid s LL R Le)| |intros; exact I].
  intros a s1 (Ha & Ht & HI & L1). apply (allocate_lands tid a s1 LL n HI L1 Ha Ht Hn).
Qed.
Lemma malloc_lands tid s LL n : ready g s LL -> ra_leftover (st_ra s) = false -> 0 <= n < 2 ^ 64 -> wp (run (h_malloc g tid n)) s (gives tid) anyf.
Proof. intros R Le Hn. destruct (adjust_spec g n Hn) as (A1 & _). apply (alloc_lands tid s LL _ R Le A1). Qed.
(** a program whose steps keep lands, after one that gives *)
Lemma gives_stays {A} tid s (p : prog state A) (r : option Z) : gives tid r s -> each (msy g) p -> wp (run p) s (fun _ s' => gives tid r s') anyf.
Proof. intros G E. eapply wp_mono; [apply (each_stays p E)| |intros; exact I]. intros x s' S q Hq. eapply lands_stays; [apply (G q Hq)|exact S]. Qed.
Lemma calloc_lands tid s LL m n : ready g s LL -> ra_leftover (st_ra s) = false -> 0 <= m < 2 ^ 64 -> 0 <= n < 2 ^ 64 -> wp (run (h_calloc g tid m n)) s (gives tid) anyf.
Proof.
  intros R Le Hm Hn. unfold h_calloc. destruct (Z.leb_spec (2 ^ 64) (m * n)) as [L|L].
  - apply wp_run_pbind. apply wp_any. intros a s'. apply wp_run_ret. intros p [=].
  - destruct (adjust_spec g (m * n) ltac:(nia)) as (A1 & _). apply wp_run_pbind. eapply wp_mono; [apply (alloc_lands tid s LL _ R Le A1)| |intros; exact I].
    intros [p|] s1 G; [|apply wp_run_ret; intros p [=]]. apply wp_run_pbind. eapply wp_mono; [apply (gives_stays tid s1 _ (Some p) G)| |intros; exact I].
    + destruct (_ && _); [apply each_act, msy_os|exact I].
    + intros x s' G'. apply wp_run_ret. exact G'.
Qed.
Lemma aligned_lands tid s LL al n mn : ready g s LL -> ra_leftover (st_ra s) = false -> 0 <= n < 2 ^ 64 -> 0 <= al < 2 ^ 64 -> 1 <= mn ->
  wp (run (alloc_aligned g tid al n mn)) s (fun r s' => forall p, r = inr p -> lands tid s' p) anyf.
Proof.
  intros R Le Hn Hal Hmn. unfold alloc_aligned. destruct (adjust_spec g n Hn) as (A1 & A2 & A3). set (u := adjust_size_for_canary g n) in *.
  apply wp_run_pbind. eapply wp_mono; [apply (init_lands tid s LL R Le)| |intros; exact I]. intros a s1 (Ha & Ht & HI & L1).
  unfold allocate_aligned. destruct (negb (Z.land (w64 (al - 1)) al =? 0) || (al <? mn)) eqn:Ck; [apply wp_run_ret; intros p [=]|].
  assert (pow2 al) as (k & Hk & Ek) by (apply pow2_check; lia). pose proof (max_slab_bounds g) as MB.
  destruct (Z.leb_spec al PAGE_SIZE) as [Pg|Pg].
  - assert (k <= 12) as Hk12. { apply (Z.pow_le_mono_r_iff 2); [lia|lia|]. rewrite <- Ek. exact Pg. }
    apply wp_run_pbind.
    assert (forall v, 0 <= v < 2 ^ 64 -> wp (run (do! p := allocate g a v in match p with None => Ret (inl ENOMEM) | Some p => Ret (inr p) end)) s1 (fun r s' => forall p, r = inr p -> lands tid s' p) anyf) as W.
    { intros v Hv. apply wp_run_pbind. eapply wp_mono; [apply (allocate_lands tid a s1 LL v HI L1 Ha Ht Hv)| |intros; exact I]. intros [p|] s2 G; apply wp_run_ret; intros q [=]. subst. apply G. reflexivity. }
    destruct ((u <=? max_slab_size_class g) && (min_align <? al)) eqn:Q.
    + destruct (gsia_spec g u k ltac:(lia) ltac:(lia)) as (info & E1 & E2 & E3 & E4 & E5 & E6 & _). rewrite Ek, E1. apply wp_run_ret. apply W. lia.
    + apply wp_run_ret. apply W. lia.
  - assert (12 < k) as Hk12. { apply (Z.pow_lt_mono_r_iff 2); [lia|lia|]. rewrite <- Ek. exact Pg. }
    pose proof HI as [I0 O S Arn C]. apply wp_pra. rewrite Ek. eapply wp_mono; [apply (allocate_large_aligned_wp g s1 (ra_get s1) LL [] k u); auto; [rewrite ra_put_get; exact I0|lia]| |intros; exact I].
    intros r rs' (OC & H) p ->. destruct H as (N0 & Pm & LS). destruct (large_any g u A1) as (B1 & B2 & B3).
    destruct (large_got g s1 rs' LL p (get_large_size_class g u) HI L1) as (gd & G & _); auto; [split; [lia|auto]|].
    eapply large_lands; [apply G|left; reflexivity].
Qed.
Lemma simple_lands tid s LL al n : ready g s LL -> ra_leftover (st_ra s) = false -> 0 <= n < 2 ^ 64 -> 0 <= al < 2 ^ 64 ->
  wp (run (alloc_aligned_simple g tid al n)) s (gives tid) anyf.
Proof.
  intros R Le Hn Hal. unfold alloc_aligned_simple. apply wp_run_pbind. eapply wp_mono; [apply (aligned_lands tid s LL al n 1 R Le Hn Hal ltac:(lia))| |intros; exact I].
  intros [e|p] s1 G; [|apply wp_run_ret; intros q [= ->]; apply G; reflexivity]. apply wp_run_pbind, wp_any. intros a s'. apply wp_run_ret. intros q [=].
Qed.
Lemma copy_lands tid s LL old os n : hinv g s LL -> ra_leftover (st_ra s) = false -> 0 <= n < 2 ^ 64 -> wp (run (realloc_copy g tid old os n)) s (gives tid) anyf.
Proof.
  intros HI Le Hn. unfold realloc_copy. apply wp_run_pbind. eapply wp_mono; [apply (init_lands tid s LL (or_introl HI) Le)| |intros; exact I].
  intros a s1 (Ha & Ht & H1 & L1). apply wp_run_pbind. eapply wp_mono; [apply (allocate_lands tid a s1 LL n H1 L1 Ha Ht Hn)| |intros; exact I].
  intros [p|] s2 G; [|apply wp_run_ret; intros p [=]]. apply wp_run_pbind. eapply wp_mono; [apply (gives_stays tid s2 _ (Some p) G), each_act, msy_os| |intros; exact I].
  intros x3 s3 G3. apply wp_run_pbind. eapply wp_mono; [apply (gives_stays tid s3 _ (Some p) G3)| |intros; exact I].
  - unfold deallocate_small, deallocate_large_top. destruct (_ <=? _); [apply each_act, msy_at; intros; apply msy_class|]. apply each_bind; [apply each_act, msy_enforce|]. intros _. apply each_zoom. intros. apply msy_ra.
  - intros x4 s4 G4. apply wp_run_ret. exact G4.
Qed.
Lemma mremap_lands tid s LL old os gd n : hinv g s LL -> ra_leftover (st_ra s) = false -> 0 <= n < 2 ^ 64 -> wp (run (realloc_mremap g old os gd n)) s (gives tid) anyf.
Proof.
  intros HI Le Hn. unfold realloc_mremap. apply wp_run_pbind. eapply wp_mono; [apply (large_alloc_wp g s LL n HI Le Hn)| |intros; exact I].
  intros [p|] s2 (_ & H); [|apply wp_run_ret; intros p [=]]. assert (gives tid (Some p) s2) as G. { intros q [= <-]. destruct H as (gd' & G & _). eapply large_lands; [apply G|left; reflexivity]. }
  apply wp_run_pbind. eapply wp_mono; [apply (gives_stays tid s2 _ (Some p) G), each_act, msy_ra| |intros; exact I]. intros x3 s3 G3.
  apply wp_run_pbind. eapply wp_mono; [apply (gives_stays tid s3 _ (Some p) G3), each_act, msy_os| |intros; exact I]. intros f s4 G4.
  apply wp_run_pbind. eapply wp_mono; [apply (gives_stays tid s4 _ (Some p) G4)| |intros; exact I].
  - destruct f.
    + apply each_bind; [apply each_act, msy_os|]. intros _. apply each_zoom. intros. apply msy_os.
    + apply each_bind; [apply each_act, msy_os|]. intros _. apply each_bind; [apply each_act, msy_os|]. intros _. exact I.
  - intros x5 s5 G5. apply wp_run_ret. exact G5.
Qed.
Lemma find_same old s : wp (on_ra (realloc_find old)) s (fun _ s' => s' = s) anyf.
Proof.
  unfold on_ra. apply wp_zoom. unfold realloc_find, regions_find. apply wp_bind, wp_bind, wp_gets.
  destruct (probe_key _ _ _ _ _) as [i|]; [|exact I]. apply wp_ret, wp_bind, wp_gets. destruct (_ && _); [|exact I]. apply wp_ret. apply ra_put_get.
Qed.
(** realloc, unless the block stays where it is *)
Lemma realloc_lands tid s LL old n : hinv g s LL -> ra_leftover (st_ra s) = false -> 0 <= n < 2 ^ 64 -> old <> 0 ->
  wp (run (h_realloc g tid old n)) s (fun r s' => forall p, r = Some p -> p <> old -> lands tid s' p) anyf.
Proof.
  intros HI Le Hn Ho. destruct (adjust_spec g n Hn) as (A1 & A2 & A3). unfold h_realloc. set (v := adjust_size_for_canary g n) in *. replace (old =? 0) with false by lia.
  destruct (large_any g v A1) as (G1 & G2 & G3). set (size := if max_slab_size_class g <? v then get_large_size_class g v else v).
  assert (0 <= size < 2 ^ 64) as Hsz by (unfold size; destruct (max_slab_size_class g <? v); lia).
  destruct ((max_slab_size_class g <? v) && (size =? 0)). { apply wp_run_pbind, wp_any. intros a s'. apply wp_run_ret. intros q [=]. }
  clearbody size.
  assert (forall os, wp (run (realloc_copy g tid old os size)) s (fun r s' => forall p, r = Some p -> p <> old -> lands tid s' p) anyf) as COPY.
  { intros os. eapply wp_mono; [apply (copy_lands tid s LL old os size HI Le Hsz)| |intros; exact I]. intros r s' G p E _. apply G, E. }
  assert (wp (run (Ret (Some old))) s (fun r s' => forall p, r = Some p -> p <> old -> lands tid s' p) anyf) as SAME by (apply wp_run_ret; intros p [= <-] N; elim N; reflexivity).
  apply wp_run_pbind, wp_run_act, wp_get. destruct (in_slab_region old s).
  { destruct ((size <=? _) && _); [exact SAME|apply COPY]. }
  apply wp_run_pbind, wp_run_act. unfold enforce_init. apply wp_bind, wp_get. rewrite (hinv_init _ _ _ HI). apply wp_ret.
  apply wp_run_pbind, wp_run_act. eapply wp_mono; [apply (find_same old s)| |intros; exact I]. intros [os gd] s1 ->.
  destruct (os =? size); [exact SAME|]. destruct (_ <? size); [|apply COPY]. destruct (size <? os).
  - unfold realloc_shrink. apply wp_run_pbind, wp_any. intros f s1. destruct f; [apply wp_run_ret; intros p [=]|].
    apply wp_run_pbind, wp_any. intros u1 s2. apply wp_run_pbind, wp_any. intros u2 s3. apply wp_run_ret. intros p [= <-] N. elim N. reflexivity.
  - destruct (MREMAP_MOVE_THRESHOLD <=? _); [|apply COPY]. eapply wp_mono; [apply (mremap_lands tid s LL old os gd size HI Le Hsz)| |intros; exact I]. intros r s' G p E _. apply G, E.
Qed.
Lemma op_lands t s LL tid c : linv g t s LL -> table_cleared s -> words c -> permitted g (live t) c ->
  wp (run (op_run g tid c)) s (fun a s' => forall p, handed_out (mkEv tid c a) = Some p -> lands tid s' p) anyf.
Proof.
  intros LI TC WD PM. pose proof (li_ready _ _ _ _ LI) as R. unfold handed_out. cbn [e_op e_ans].
  assert (forall (b : option Z) s', gives tid b s' -> forall p, match ans_ptr b with APtr q => Some q | _ => None end = Some p -> lands tid s' p) as K.
  { intros [b|] s' G p; cbn [ans_ptr]; [intros [= ->]; apply G; reflexivity|discriminate]. }
  destruct c; cbn [op_run words permitted allocates] in *; unfold word in *; apply wp_pmap; try (apply wp_any; intros ? ? ? [=]; fail).
  - eapply wp_mono; [apply (malloc_lands tid s LL n R TC WD)| |intros; exact I]. exact K.
  - eapply wp_mono; [apply (calloc_lands tid s LL nmemb n R TC); apply WD| |intros; exact I]. exact K.
  - destruct WD as [WD1 WD2]. destruct PM as [->|(b & Hb & NO)].
    + change (h_realloc g tid 0 n) with (h_malloc g tid n). eapply wp_mono; [apply (malloc_lands tid s LL n R TC WD2)| |intros; exact I].
      intros [q|] s' G p; cbn [ans_ptr]; [|discriminate]. destruct (q =? 0); [discriminate|]. intros [= ->]. apply G. reflexivity.
    + destruct (li_blk _ _ _ _ LI _ _ Hb) as (n0 & B & _ & _ & _ & _ & _ & P0). pose proof (ready_block _ _ _ _ _ R B) as HI.
      eapply wp_mono; [apply (realloc_lands tid s LL p n HI TC WD2 ltac:(lia))| |intros; exact I].
      intros [q|] s' G p'; cbn [ans_ptr]; [|discriminate]. destruct (Z.eqb_spec q p); [discriminate|]. intros [= <-]. apply G; auto.
  - destruct WD as [WD1 WD2]. eapply wp_mono; [apply (aligned_lands tid s LL al n 8 R TC WD2 WD1 ltac:(lia))| |intros; exact I].
    intros [e|q] s' G p; cbn [ans_code]; [discriminate|]. intros [= ->]. apply G. reflexivity.
  - destruct WD as [WD1 WD2]. eapply wp_mono; [apply (simple_lands tid s LL al n R TC WD2 WD1)| |intros; exact I]. exact K.
  - destruct WD as [WD1 WD2]. eapply wp_mono; [apply (simple_lands tid s LL al n R TC WD2 WD1)| |intros; exact I]. exact K.
  - eapply wp_mono; [apply (simple_lands tid s LL PAGE_SIZE n R TC WD); unfold PAGE_SIZE; lia| |intros; exact I]. exact K.
  - unfold h_pvalloc. destruct (Z.eqb_spec (page_align n) 0) as [E|E].
    + apply wp_run_pbind, wp_any. intros a s'. apply wp_run_ret. apply K. intros q [=].
    + eapply wp_mono; [apply (simple_lands tid s LL PAGE_SIZE (page_align n) R TC); [|unfold PAGE_SIZE; lia]| |intros; exact I]; [|exact K]. destruct (page_align_ge n WD E). lia.
Qed.
Lemma history_lands W o t s : usable_config g = true -> history g W o t s -> forall e p, In e t -> handed_out e = Some p -> lands (e_tid e) s p.
Proof.
  intros U H. induction H as [|t s tid c a s' H IH TC WD PM ST E]; [intros e p []|]. intros e p [<-|Hin] He.
  - destruct (history_linv _ _ _ _ _ U H) as (LL & LI). cbn [e_tid]. exact (run_wp _ _ _ _ _ _ (op_lands t s LL tid c LI TC WD PM) E p He).
  - eapply lands_stays; [apply (IH e p Hin He)|]. exact (run_wp _ _ _ _ _ _ (each_stays _ (esy_op g tid c) s) E).
Qed.
Lemma C22_own_arena_l W o t s e p : usable_config g = true -> history g W o t s -> In e t -> handed_out e = Some p -> in_small_area s p ->
  0 <= thread_arena g s (e_tid e) < N_ARENA g /\ arena_at g s p = thread_arena g s (e_tid e).
Proof. intros U H Hin He Hp. destruct (history_lands W o t s U H e p Hin He) as [_ L]. apply L, small_region, Hp. Qed.
Lemma C22_part_l W o t s p c n x : usable_config g = true -> history g W o t s -> In (p, c) (live t) -> in_small_area s p -> usable_size g s p n -> p <= x < p + n ->
  part_at g s x = part_at g s p /\ arena_at g s x = arena_at g s p.
Proof.
  intros U H HL Hp US Hx. destruct (history_linv _ _ _ _ _ U H) as (LL & LI). destruct (li_blk _ _ _ _ LI _ _ HL) as (m & B & _ & _ & _ & _ & _ & P0).
  pose proof (ready_block _ _ _ _ _ (li_ready _ _ _ _ LI) B) as HI. apply small_region in Hp.
  pose proof (block_bounds g s LL [] (hi_inv _ _ _ HI) p m B) as Bb.
  assert (m = n) as ->. { eapply (block_fun g s LL [] (hi_inv _ _ _ HI)); [exact B|]. apply (usable_block g s LL p n (li_ready _ _ _ _ LI)); [change (2 ^ 64) with 18446744073709551616; change (2 ^ 48) with 281474976710656 in *; lia|exact US]. }
  destruct B as [(a & k & i & j & SB & En)|(gd & Hin)].
  - pose proof SB as (C & _). pose proof (usable_bounds g k (proj2 C)). pose proof (class_facts_all g k (proj2 C)) as [].
    destruct (sblk_part s LL [] a k i j p x (hi_inv _ _ _ HI) SB ltac:(lia)) as [-> ->]. destruct (sblk_part s LL [] a k i j p p (hi_inv _ _ _ HI) SB ltac:(lia)) as [-> ->]. auto.
  - exfalso. destruct (large_lands 0 s LL p n gd HI Hin) as [_ L]. pose proof (region_not_slab g s LL [] (hi_inv _ _ _ HI) _ Hin p) as F. cbn in F. rewrite F in Hp; [discriminate|lia].
Qed.
Lemma cont_In W t s t' s' : continues g W t s t' s' -> forall e, In e t -> In e t'.
Proof. induction 1; intros e0 He; [exact He|]. right. auto. Qed.
Lemma C22_arena_l W o t s t' s' p c n q d m x e f : usable_config g = true -> history g W o t s -> continues g W t s t' s' ->
  In (p, c) (live t) -> In (q, d) (live t') -> usable_size g s p n -> usable_size g s' q m -> p <= x < p + n -> q <= x < q + m ->
  in_small_area s x -> In e t -> handed_out e = Some p -> In f t' -> handed_out f = Some q ->
  thread_arena g s' (e_tid e) = thread_arena g s' (e_tid f).
Proof.
  intros U H K HL HL' US US' Hx Hx' Sx He Ep Hf Eq. pose proof (cont_history _ _ _ _ _ _ _ H K) as H'.
  destruct (history_lands W o t s U H e p He Ep) as [Hi _]. destruct (cont_sited _ _ _ _ _ _ K Hi) as (E1 & E2 & _).
  unfold in_small_area in *.
  destruct (C22_large_l g W o t s p c n x U H HL (or_intror US) Hx) as [_ Q1]. destruct (C22_large_l g W o t' s' q d m x U H' HL' (or_intror US') Hx') as [_ Q2].
  assert (st_start s <= p < st_end s) as Sp by tauto. assert (st_start s' <= q < st_end s') as Sq by (apply Q2; rewrite E1, E2; exact Sx).
  destruct (C22_part_l W o t s p c n x U H HL Sp US Hx) as [_ P1]. destruct (C22_part_l W o t' s' q d m x U H' HL' Sq US' Hx') as [_ P2].
  destruct (C22_own_arena_l W o t' s' e p U H' (cont_In _ _ _ _ _ K e He) Ep) as [_ A1]; [unfold in_small_area; rewrite E1, E2; exact Sp|].
  destruct (C22_own_arena_l W o t' s' f q U H' Hf Eq Sq) as [_ A2]. rewrite <- A1, <- A2, <- P2.
  unfold arena_at in *. rewrite E1 in *. auto.
Qed.
End A.

(** ** an example: four arenas, three threads *)
From Verif Require Import P_Demo.
Definition g4 : config := mkConfig true true true true 1 1 false true 1 2 2 2 33554432 4 1048576 4 true 1048576.
Definition demo_arenas : script := [fun _ => (7, OMalloc 100); fun _ => (8, OMalloc 100); fun _ => (9, OMalloc 200000); fun t => (8, OFree (ptr 0 t)); fun _ => (8, ORealloc 0 100); fun _ => (9, OMalloc 30)].
Definition t_arenas : trace := [mkEv 9 (OMalloc 30) (APtr 25931509648); mkEv 8 (ORealloc 0 100) (APtr 25862793072); mkEv 8 (OFree 25784834800) AUnit;
  mkEv 9 (OMalloc 200000) (APtr 51539636224); mkEv 8 (OMalloc 100) (APtr 25862794640); mkEv 7 (OMalloc 100) (APtr 25784834800)].
Definition s_arenas : state := final g4 o0 true demo_arenas.
Definition arena_looks : list look := [LUsable 25931509648 40; LOther (fun s => (st_start s <=? 25931509648) && (25931509648 <? st_end s));
  LOther (fun s => forallb (fun x => thread_arena g4 s (fst (fst x)) =? snd (fst x)) [(7, 0, 0); (8, 1, 1); (9, 2, 2)]);
  LOther (fun s => forallb (fun x => arena_at g4 s (fst x) =? snd x) [(25931509648, 2); (25862793072, 1); (25862794640, 1); (25784834800, 0)])].
Lemma arenas_check : check g4 o0 true demo_arenas t_arenas arena_looks = true.
Proof. vm_cast_no_check (eq_refl true). Qed.
Lemma arenas_history : history g4 (own_store g4) o0 t_arenas s_arenas.
Proof. exact (proj1 (check_ok _ _ _ _ _ _ arenas_check)). Qed.
Lemma arenas_looks k : In k arena_looks -> looks g4 true t_arenas s_arenas k.
Proof. exact (proj2 (check_ok _ _ _ _ _ _ arenas_check) k). Qed.
