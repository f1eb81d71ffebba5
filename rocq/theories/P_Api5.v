(** Single calls: free, realloc, sizes, valid use. *)
From Coq Require Import String ZArith List Bool Lia ZifyBool Permutation.
From Verif Require Import M_Base M_Config M_SizeClass M_Libdivide M_OS M_Random M_Slab M_Region M_Api M_Hist S_SizeClass S_Heap
  P_Base P_Count P_SizeClass P_SizeClass2 P_Libdivide P_Random P_OS P_Slab1 P_Slab2 P_Region P_Heap1 P_Heap2 P_Heap3 P_Heap4 P_Heap5 P_Heap6 P_Heap7 P_Heap8 P_Heap9 P_Heap10 P_Heap11 P_Init P_Api0 P_Api1 P_Api2 P_Api3 P_Api4.
Import ListNotations.
Open Scope Z_scope.
Ltac Zify.zify_post_hook ::= idtac.

Lemma run_pmap_dead {S A B} (h : A -> B) (p : prog S A) s f : run p s = Fail f -> run (pmap h p) s = Fail f.
Proof.
  intros H. destruct (run (pmap h p) s) as [[b s1]|f'] eqn:E.
  - apply run_pmap in E. destruct E as (a' & E & ->). congruence.
  - apply run_pmap_fail in E. congruence.
Qed.
Lemma live_iff g t s LL p : linv g t s LL -> (exists n, block g s LL p n) <-> is_live t p.
Proof. intros LI. apply (li_live _ _ _ _ LI). Qed.
Lemma dead_nonblock g t s LL p : linv g t s LL -> ~ is_live t p -> nonblock g s LL p.
Proof. intros LI N n B. apply N, (li_live _ _ _ _ LI). exists n. exact B. Qed.

(** ** C08 *)
Lemma free_returns g W t s tid p a s' : calls g W t s tid (OFree p) a s' -> a = AUnit /\ run (h_free g p) s = Ok (tt, s').
Proof. intros (_ & _ & _ & _ & E). cbn [op_run] in E. apply run_pmap in E. destruct E as ([] & E & ->). auto. Qed.
Lemma C08_only_live g W o t s tid p a s' : usable_config g = true -> history g W o t s -> calls g W t s tid (OFree p) a s' -> p = 0 \/ is_live t p.
Proof.
  intros U H K. destruct (history_linv _ _ _ _ _ U H) as (LL & LI). pose proof K as (_ & WD & _). destruct (free_returns _ _ _ _ _ _ _ _ K) as [-> E].
  pose proof (run_wp _ _ _ _ _ _ (free_wp g s LL p (li_ready _ _ _ _ LI) WD) E) as F. cbv beta in F. destruct (Z.eqb_spec p 0); [auto|]. right.
  destruct F as (LL' & n0 & F & _). apply (live_iff _ _ _ _ _ LI). exists n0. apply F.
Qed.
Lemma C08_aborts g W o t s tid p : usable_config g = true -> history g W o t s -> word p -> p <> 0 -> ~ is_live t p -> exists m, run (op_run g tid (OFree p)) s = Fail (Fatal m).
Proof.
  intros U H WD P0 NL. destruct (history_linv _ _ _ _ _ U H) as (LL & LI). pose proof (dead_nonblock _ _ _ _ _ LI NL) as NB. cbn [op_run].
  pose proof (free_wp g s LL p (li_ready _ _ _ _ LI) WD) as Wp. unfold wp in Wp. destruct (run (h_free g p) s) as [[[] s']|f] eqn:E.
  - exfalso. destruct (Z.eqb_spec p 0); [auto|]. destruct Wp as (LL' & n0 & F & _). apply (NB n0). apply F.
  - destruct Wp as (_ & [(_ & (n & B) & _)|[(_ & (n & B) & _)|[((m & ->) & _)|(-> & _)]]]); try (elim (NB n B)).
    + exists m. apply (run_pmap_dead (fun _ : unit => AUnit)). exact E.
    + eexists. apply (run_pmap_dead (fun _ : unit => AUnit)). exact E.
Qed.
Lemma C08_valid_any g W o t s tid p : usable_config g = true -> history g W o t s -> word p -> p = 0 \/ is_live t p ->
  (exists s', run (op_run g tid (OFree p)) s = Ok (AUnit, s')) \/ exists f, run (op_run g tid (OFree p)) s = Fail f /\ (kernel_abort f \/ f = Fatal "canary corrupted" /\ ~ clean g s).
Proof.
  intros U H WD V. destruct (history_linv _ _ _ _ _ U H) as (LL & LI). cbn [op_run].
  pose proof (free_wp g s LL p (li_ready _ _ _ _ LI) WD) as Wp. unfold wp in Wp. destruct (run (h_free g p) s) as [[[] s']|f] eqn:E.
  - left. exists s'. exact (run_pmap_ok (fun _ : unit => AUnit) _ _ _ _ E).
  - right. exists f. split; [apply (run_pmap_dead (fun _ : unit => AUnit)); exact E|]. destruct Wp as (P0 & [(F & _)|[(F & _)|[(_ & F)|(-> & _ & _ & F)]]]).
    + left. apply sys_abort; auto.
    + left. apply rng_abort; auto.
    + exfalso. destruct V as [V|V]; [auto|]. apply (live_iff _ _ _ _ _ LI) in V. destruct V as (n & B). exact (F n B).
    + auto.
Qed.
Lemma C08_valid g o t s tid p : usable_config g = true -> history g (own_store g) o t s -> word p -> p = 0 \/ is_live t p ->
  (exists s', run (op_run g tid (OFree p)) s = Ok (AUnit, s')) \/ exists f, run (op_run g tid (OFree p)) s = Fail f /\ kernel_abort f.
Proof.
  intros U H WD V. destruct (C08_valid_any g (own_store g) o t s tid p U H WD V) as [X|(f & E & [F|(F & C)])]; [auto|right; eauto|]. subst f.
  right. eexists. split; [exact E|]. exfalso. destruct (history_linv _ _ _ _ _ U H) as (LL & LI).
  assert (hinv g s LL) as HI.
  { destruct (Z.eq_dec p 0) as [->|N]; [cbn in E; discriminate|]. destruct V as [V|V]; [contradiction|]. destruct V as (c & V). destruct (live_block _ _ _ _ _ _ LI V) as (n & _ & _ & HI & _). exact HI. }
  apply C. apply (history_steady _ _ _ _ U H), (hinv_init _ _ _ HI).
Qed.

(** ** C27 *)
Lemma C27_errno g W o t s tid p a s' : usable_config g = true -> history g W o t s -> calls g W t s tid (OFree p) a s' -> (forall n, en_errno (entq (st_os s) n) <> EINTR) -> errno (st_os s') = errno (st_os s).
Proof.
  intros U H K NI. destruct (history_linv _ _ _ _ _ U H) as (LL & LI). pose proof K as (_ & WD & _). destruct (free_returns _ _ _ _ _ _ _ _ K) as [-> E].
  pose proof (run_wp _ _ _ _ _ _ (free_wp g s LL p (li_ready _ _ _ _ LI) WD) E) as F. cbv beta in F. destruct (Z.eqb_spec p 0); [subst; auto|].
  destruct F as (LL' & n0 & F & [E1|(_ & _ & n1 & E1)]); [auto|]. elim (NI _ E1).
Qed.

(** ** small blocks *)
Lemma small_slab g t s LL p c n : linv g t s LL -> In (p, c) (live t) -> small g s p c n -> in_slab_region p s = true /\ block g s LL p n.
Proof.
  intros LI H (US & SZ & NO). destruct (li_blk _ _ _ _ LI _ _ H) as (m & B & _ & _ & G & _). rewrite (usable_eq _ _ _ _ _ _ _ _ LI H B US) in *. split; [|auto].
  destruct G as [G|G]; [contradiction|]. destruct (in_slab_region p s) eqn:L; [reflexivity|]. exfalso. pose proof (ready_block _ _ _ _ _ (li_ready _ _ _ _ LI) B) as HI.
  destruct (large_block _ _ _ _ _ HI L B) as (gd & Hin). specialize (G _ _ Hin). pose proof (canary_le g). lia.
Qed.
Lemma C13_wiped g W o t s tid p c n x e s' : usable_config g = true -> ZERO_ON_FREE g = true -> history g W o t s -> In (p, c) (live t) -> small g s p c n ->
  (e = OFree p \/ exists m, e = OFreeSized p m) -> calls g W t s tid e AUnit s' -> p <= x < p + n -> content s' x = 0.
Proof.
  intros U ZF H HL SM Ee K Hx. destruct (history_linv _ _ _ _ _ U H) as (LL & LI). destruct (small_slab _ _ _ _ _ _ _ LI HL SM) as [L B]. pose proof (ready_block _ _ _ _ _ (li_ready _ _ _ _ LI) B) as HI.
  pose proof (block_word _ _ _ _ _ HI B) as PW. destruct Ee as [->|(m & ->)].
  - destruct (free_returns _ _ _ _ _ _ _ _ K) as [_ E]. pose proof (run_wp _ _ _ _ _ _ (free_wp g s LL p (li_ready _ _ _ _ LI) ltac:(lia)) E) as F. cbv beta in F. replace (p =? 0) with false in F by lia.
    destruct F as (LL' & n0 & F & _). apply (fr_zero _ _ _ _ _ _ _ F ZF L). rewrite (block_fun g s LL [] (hi_inv _ _ _ HI) p n0 n (fr_blk _ _ _ _ _ _ _ F) B). auto.
  - pose proof K as (_ & [WD1 WD2] & _ & _ & E). cbn [op_run] in E. apply run_pmap in E. destruct E as ([] & E & _).
    pose proof (run_wp _ _ _ _ _ _ (free_sized_wp g s LL p m (li_ready _ _ _ _ LI) ltac:(lia) WD2) E) as F. cbv beta in F. replace (p =? 0) with false in F by lia.
    destruct F as (LL' & n0 & F & _). apply (fr_zero _ _ _ _ _ _ _ F ZF L). rewrite (block_fun g s LL [] (hi_inv _ _ _ HI) p n0 n (fr_blk _ _ _ _ _ _ _ F) B). auto.
Qed.

(** ** C14, C15 *)
Lemma C14_moved g W o t s tid p c n0 n q s' : usable_config g = true -> history g W o t s -> In (p, c) (live t) -> extent g s p c n0 -> calls g W t s tid (ORealloc p n) (APtr q) s' ->
  (forall i, 0 <= i < Z.min n n0 -> content s' (q + i) = content s (p + i)) /\
  (exists m, n <= m /\ (forall x, q <= x < q + m -> accessible s' x) /\ forall m', usable_size g s' q m' -> m' = m) /\
  undisturbed g (forget p (live t)) s s' /\
  (q <> p -> ~ is_live (mkEv tid (ORealloc p n) (APtr q) :: t) p) /\ is_live (mkEv tid (ORealloc p n) (APtr q) :: t) q.
Proof.
  intros U H HL X K. destruct (history_linv _ _ _ _ _ U H) as (LL & LI). destruct (ext_block _ _ _ _ _ _ _ LI HL X) as (n1 & B & L1). pose proof (ready_block _ _ _ _ _ (li_ready _ _ _ _ LI) B) as HI.
  pose proof (block_word _ _ _ _ _ HI B) as PW. pose proof K as (TC & [WD1 WD2] & PM & _ & E). cbn [op_run] in E. apply run_pmap in E. destruct E as ([q'|] & E & [= <-]).
  split; [|split; [|split; [|split]]].
  - destruct PM as [PM|(b & Hb & NO)]; [lia|]. destruct (li_blk _ _ _ _ LI _ _ Hb) as (n2 & B2 & _ & _ & [G|G] & _); [contradiction|].
    destruct (run_wp _ _ _ _ _ _ (realloc_wp g tid s LL p n1 n HI TC WD2 ltac:(lia) B G) E) as (LL' & m & _ & _ & _ & _ & _ & CP). intros i Hi. apply CP. lia.
  - apply (C01_alloc g W o t s tid (ORealloc p n) q s' U H K eq_refl).
  - eapply frame_released; eauto.
  - intros NE (d & Hd). cbn in Hd. destruct Hd as [[= Hd]|Hd]; [auto|]. apply forget_In in Hd. tauto.
  - exists (ORealloc p n). left. reflexivity.
Qed.
Lemma C15_intact g W o t s tid p n s' : usable_config g = true -> history g W o t s -> calls g W t s tid (ORealloc p n) ANull s' ->
  undisturbed g (live t) s s' /\ live (mkEv tid (ORealloc p n) ANull :: t) = live t.
Proof. intros U H K. split; [|reflexivity]. eapply frame_all; eauto. Qed.

(** ** C17 *)
Lemma least_fun P n r r' : least P n r -> least P n r' -> r = r'.
Proof. intros (A1 & A2 & A3) (B1 & B2 & B3). pose proof (A3 _ B1 B2). pose proof (B3 _ A1 A2). lia. Qed.
Lemma padded_bounds g n : 0 <= n < 2 ^ 64 -> n <= padded g n < 2 ^ 64 /\ (padded g n = 0 <-> n = 0).
Proof.
  intros H. pose proof (max_slab_bounds g). pose proof (canary_le g). unfold padded. change (2 ^ 64) with 18446744073709551616 in *. destruct ((0 <? n) && (n <=? max_slab_size_class g)) eqn:Q; [rewrite andb_true_iff in Q|rewrite andb_false_iff in Q]; lia.
Qed.
Lemma max_ge g : 16384 <= max_slab_size_class g.
Proof. unfold max_slab_size_class. destruct (EXTENDED_SIZE_CLASSES g); lia. Qed.
Lemma rounds_small g n r : 0 <= n < 2 ^ 64 -> padded g n <= max_slab_size_class g -> (rounds_to g n r <-> r = si_size (get_size_info (padded g n))).
Proof.
  intros Hn L. destruct (padded_bounds g n Hn) as [B _]. unfold rounds_to. replace (padded g n <=? max_slab_size_class g) with true by lia.
  destruct (small_rounding g (padded g n) ltac:(lia)) as [R _]. split; [intros H; apply (least_fun _ _ _ _ H R)|intros ->; exact R].
Qed.
Lemma rounds_large g n r : 0 <= n < 2 ^ 64 -> max_slab_size_class g < padded g n -> get_large_size_class g (padded g n) <> 0 -> (rounds_to g n r <-> r = get_large_size_class g (padded g n)).
Proof.
  intros Hn L NZ. destruct (padded_bounds g n Hn) as [B _]. pose proof (max_ge g). unfold rounds_to. replace (padded g n <=? max_slab_size_class g) with false by lia.
  destruct (large_rounding g (padded g n) ltac:(lia)) as (t & R & E). rewrite E in *. destruct (t <? 2 ^ 64); [|congruence]. split; [intros X; apply (least_fun _ _ _ _ X R)|intros ->; exact R].
Qed.
Lemma rounds_ge g n r : rounds_to g n r -> padded g n <= r. Proof. intros (_ & H & _). exact H. Qed.
Lemma grant_malloc g n : 0 <= n < 2 ^ 64 -> grant g (padded g n) <> 0 \/ padded g n <= max_slab_size_class g -> malloc_size g n (grant g (padded g n)).
Proof.
  intros Hn HH. destruct (padded_bounds g n Hn) as [B Z0]. unfold malloc_size, grant in *. destruct (Z.leb_spec (padded g n) (max_slab_size_class g)) as [L|L].
  - exists (si_size (get_size_info (padded g n))). split; [apply rounds_small; auto|]. destruct (gsi_class_range g (padded g n) ltac:(lia)) as (R & E & C0). unfold usable_of.
    pose proof (class_facts_all g _ R) as []. rewrite cf_size in E. destruct (Z.eqb_spec n 0) as [->|N0].
    + replace (si_class _ =? 0) with true by lia. reflexivity.
    + destruct (Z.eqb_spec (si_class (get_size_info (padded g n))) 0) as [K|K]; [lia|]. rewrite <- E. reflexivity.
  - exists (get_large_size_class g (padded g n)). assert (get_large_size_class g (padded g n) <> 0) by lia. split; [apply rounds_large; auto|]. pose proof (max_ge g). destruct (Z.eqb_spec n 0) as [->|N0]; [lia|reflexivity].
Qed.
Lemma live_exact g t s LL p c m n : linv g t s LL -> In (p, c) (live t) -> (c = OMalloc m \/ exists a b, c = OCalloc a b /\ m = a * b) -> 0 <= m < 2 ^ 64 -> block g s LL p n -> malloc_size g m n /\ n = grant g (padded g m) /\ (n <> 0 \/ padded g m <= max_slab_size_class g).
Proof.
  intros LI HL Hc Hm B. destruct (li_blk _ _ _ _ LI _ _ HL) as (n' & B' & RQ & Ex & G & _). pose proof (ready_block _ _ _ _ _ (li_ready _ _ _ _ LI) B) as HI.
  rewrite (block_fun g s LL [] (hi_inv _ _ _ HI) p n' n B' B) in *. assert (n = grant g (padded g m)) as E by (rewrite <- adjust_padded by auto; destruct Hc as [->|(a & b & -> & ->)]; exact Ex).
  assert (n <> 0 \/ padded g m <= max_slab_size_class g) as NZ.
  { destruct (Z_le_gt_dec (padded g m) (max_slab_size_class g)) as [L|L]; [auto|left]. assert (m <= n) by (destruct Hc as [->|(a & b & -> & ->)]; exact RQ). destruct (padded_bounds g m Hm) as [_ Z0]. pose proof (max_ge g). lia. }
  split; [|auto]. rewrite E in *. apply grant_malloc; auto.
Qed.
