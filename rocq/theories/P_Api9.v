(** Canaries, the write-after-free check and the order in which slabs are used again, along
    histories. *)
From Coq Require Import String ZArith List Bool Lia ZifyBool Permutation.
From Verif Require Import M_Base M_Config M_SizeClass M_Libdivide M_OS M_Random M_Slab M_Region M_Api M_Hist S_SizeClass S_Slab S_Heap S_Class
  P_Base P_Count P_SizeClass P_SizeClass2 P_Libdivide P_Random P_Bitmap P_Bitmap2 P_OS P_Links P_Slab1 P_Slab2 P_Slab3 P_Slab4 P_Slab5 P_Slab6 P_Slab7 P_Slab8 P_Slab9 P_Slab11 P_Path P_Quar
  P_Region P_Heap1 P_Heap2 P_Heap3 P_Heap4 P_Heap5 P_Heap6 P_Heap7 P_Heap8 P_Heap9 P_Heap10 P_Heap11 P_Init P_Api0 P_Api1 P_Api2 P_Api3 P_Api4 P_Api5 P_Api6 P_Api7 P_Api8.
Import ListNotations.
Open Scope Z_scope.
Ltac Zify.zify_post_hook ::= idtac.

(** ** C10 *)
Definition damaged (g : config) (s : state) (p : Z) : Prop := exists a k i j, sblk g s a k i j p /\ ~ canary_intact g k (st_os s) (st_cls s a k) i j.
Lemma damaged_unsound g s LL p : damaged g s p -> ~ sound_block g s LL p.
Proof. intros (a & k & i & j & SB & N) [_ S]. apply N, S, SB. Qed.
Lemma damaged_block g s p LL : damaged g s p -> exists n, block g s LL p n.
Proof. intros (a & k & i & j & SB & N). exists (usable_of g k). left. exists a, k, i, j. auto. Qed.
Lemma damaged_hcls g s s' p add : damaged g s p -> hcls g s s' (Some p) add -> exists n, add = Some (p, n).
Proof.
  intros (a & k & i & j & SB & N) H. destruct add as [[q n]|].
  - destruct (Z.eq_dec q p) as [->|D]; [eauto|]. exfalso. apply N. apply (hc_can _ _ _ _ _ H a k i j p eq_refl); [intros m [= E _]; auto|auto].
  - exfalso. apply N. apply (hc_can _ _ _ _ _ H a k i j p eq_refl); [discriminate|auto].
Qed.
Lemma damaged_free g t s LL tid p : linv g t s LL -> word p -> p <> 0 -> damaged g s p -> run (op_run g tid (OFree p)) s = Fail (Fatal "canary corrupted"%string).
Proof.
  intros LI WD P0 D. cbn [op_run]. pose proof (free_wp g s LL p (li_ready _ _ _ _ LI) WD) as Wp. unfold wp in Wp. destruct (run (h_free g p) s) as [[[] s']|f] eqn:E.
  - exfalso. replace (p =? 0) with false in Wp by lia. destruct Wp as (LL' & n0 & F & _). destruct (damaged_hcls _ _ _ _ _ D (hs_cls _ _ _ _ _ _ _ (fr_step _ _ _ _ _ _ _ F))) as (n & [=]).
  - apply (run_pmap_dead (fun _ : unit => AUnit)). rewrite E. destruct (damaged_block _ _ _ LL D) as (n & B). destruct Wp as (_ & [(_ & S)|[(_ & S)|[(_ & N)|(-> & _)]]]); [elim (damaged_unsound _ _ _ _ D S)|elim (damaged_unsound _ _ _ _ D S)|elim (N n B)|reflexivity].
Qed.
Lemma damaged_sized g t s LL tid p n : linv g t s LL -> word p -> word n -> p <> 0 -> damaged g s p -> exists m, run (op_run g tid (OFreeSized p n)) s = Fail (Fatal m).
Proof.
  intros LI WD Wn P0 D. cbn [op_run]. pose proof (free_sized_wp g s LL p n (li_ready _ _ _ _ LI) WD Wn) as Wp. unfold wp in Wp. destruct (run (h_free_sized g p n) s) as [[[] s']|f] eqn:E.
  - exfalso. replace (p =? 0) with false in Wp by lia. destruct Wp as (LL' & n0 & F & _). destruct (damaged_hcls _ _ _ _ _ D (hs_cls _ _ _ _ _ _ _ (fr_step _ _ _ _ _ _ _ F))) as (m & [=]).
  - destruct (damaged_block _ _ _ LL D) as (n0 & B). destruct Wp as (_ & [[(_ & S)|[(_ & S)|[(_ & N)|(-> & _)]]]|[((-> & _) & _)|((-> & _) & _)]]);
      [elim (damaged_unsound _ _ _ _ D S)|elim (damaged_unsound _ _ _ _ D S)|elim (N n0 B)| | |]; eexists; apply (run_pmap_dead (fun _ : unit => AUnit)); exact E.
Qed.
Lemma damaged_usable g t s LL tid p : linv g t s LL -> word p -> p <> 0 -> damaged g s p -> run (op_run g tid (OUsableSize p)) s = Fail (Fatal "canary corrupted"%string).
Proof.
  intros LI WD P0 D. cbn [op_run]. pose proof (usable_wp g s LL p (li_ready _ _ _ _ LI) WD) as Wp. unfold wp in Wp. destruct (run (h_malloc_usable_size g p) s) as [[n s']|f] eqn:E.
  - exfalso. replace (p =? 0) with false in Wp by lia. destruct Wp as (_ & _ & S). elim (damaged_unsound _ _ _ _ D S).
  - apply (run_pmap_dead (fun n : Z => ASize n)). rewrite E. destruct (damaged_block _ _ _ LL D) as (n & B). destruct Wp as (_ & _ & [N|(-> & _)]); [elim (N n B)|reflexivity].
Qed.
Lemma damaged_realloc g W t s LL tid p n q s' : linv g t s LL -> p <> 0 -> damaged g s p -> calls g W t s tid (ORealloc p n) (APtr q) s' -> q = p.
Proof.
  intros LI P0 D C. destruct (calls_step _ _ _ _ _ _ _ _ _ LI C) as (LL' & SP). destruct (sp_cls _ _ _ _ _ _ _ _ _ SP eq_refl) as (m & H). cbn in H. replace (p =? 0) with false in H by lia.
  destruct (damaged_hcls _ _ _ _ _ D H) as (n' & [= E _]). auto.
Qed.
Lemma number_u64 s x : number_at s x = u64_at (mem (st_os s)) x.
Proof.
  unfold number_at, content, u64_at. replace (zrange x (x + 8)) with [x; x + 1; x + 2; x + 3; x + 4; x + 5; x + 6; x + 7].
  2:{ unfold zrange. replace (x + 8 - x) with 8 by lia. change (Z.to_nat 8) with 8%nat. cbn [zseq]. repeat match goal with |- _ :: _ = _ :: _ => apply f_equal2; [lia|] end. reflexivity. }
  cbn [map le_of_bytes]. lia.
Qed.
Lemma le_inj (l : list Z) m m' : (forall x, In x l -> 0 <= m x < 256) -> (forall x, In x l -> 0 <= m' x < 256) -> le_of_bytes (map m l) = le_of_bytes (map m' l) -> forall x, In x l -> m x = m' x.
Proof.
  induction l as [|y l IH]; intros B B' E x I; [destruct I|]. cbn [map le_of_bytes] in E. pose proof (B y (or_introl eq_refl)). pose proof (B' y (or_introl eq_refl)).
  assert (m y = m' y /\ le_of_bytes (map m l) = le_of_bytes (map m' l)) as [E1 E2] by lia. destruct I as [<-|I]; [auto|]. apply IH; auto; intros z Hz; [apply B|apply B']; right; auto.
Qed.
Lemma u64_inj m m' a : u64_at m a = u64_at m' a -> (forall x, a <= x < a + 8 -> 0 <= m x < 256) -> (forall x, a <= x < a + 8 -> 0 <= m' x < 256) -> forall x, a <= x < a + 8 -> m x = m' x.
Proof. intros E B B' x Hx. apply (le_inj (zrange a (a + 8))); auto; try (intros y Hy; apply in_zrange in Hy; auto). apply in_zrange. auto. Qed.
(** the slot of a small block *)
Lemma live_small g t s LL p d : linv g t s LL -> In (p, d) (live t) -> in_small_area s p -> exists a k i j, hinv g s LL /\ sblk g s a k i j p.
Proof.
  intros LI Hl Hp. destruct (live_block _ _ _ _ _ _ LI Hl) as (n' & B & _ & HI & _). destruct B as [(a & k & i & j & S & E)|(gd & Hr)]; [exists a, k, i, j; auto|].
  exfalso. pose proof (region_p g s LL [] (hi_inv _ _ _ HI) _ Hr) as (S & _). cbn [rg_p rg_size] in *. pose proof (region_not_slab g s LL [] (hi_inv _ _ _ HI) _ Hr p ltac:(cbn; lia)) as X. unfold in_slab_region, in_small_area in *. lia.
Qed.
Lemma sblk_no g s LL a k i j p : hinv g s LL -> sblk g s a k i j p -> in_slab_no g s a k i p.
Proof.
  intros HI SB. pose proof (sblk_inb _ _ _ _ _ _ _ _ HI SB) as B. destruct SB as (C & Hj & Hg & Ep). unfold in_slab_no. rewrite (slab_bytes_eq g k (proj2 C)). unfold inb in B. split; [lia|].
  destruct (gclass g s LL [] (hi_inv _ _ _ HI) a k C) as (E & F & CI). pose proof CI as (P & I & _). pose proof (ci_geom _ _ _ _ _ _ _ _ _ I) as G. pose proof (slot_in_slab g k _ G i j Hj) as L.
  pose proof (class_facts_all g k (proj2 C)) as []. unfold slabp in L. rewrite <- Ep in L. lia.
Qed.
Lemma no_fun g s LL a k i p a' k' i' : hinv g s LL -> exists_class g a k -> exists_class g a' k' -> in_slab_no g s a k i p -> in_slab_no g s a' k' i' p -> a' = a /\ k' = k /\ i' = i.
Proof.
  intros HI C C' [H1 H2] [H1' H2']. pose proof (hi_inv _ _ _ HI) as I.
  pose proof (class_region_lo g s LL [] I a k p C H1) as R. pose proof (class_region_lo g s LL [] I a' k' p C' H1') as R'.
  destruct (class_of_addr g s (gi_u _ _ _ _ I) (gi_pl _ _ _ _ I) a k p C R) as [_ X]. destruct (class_of_addr g s (gi_u _ _ _ _ I) (gi_pl _ _ _ _ I) a' k' p C' R') as [_ X']. rewrite X in X'. injection X' as <- <-. split; [auto|split; [auto|]].
  rewrite (slab_bytes_eq g k (proj2 C)) in *. pose proof (class_facts_all g k (proj2 C)) as []. nia.
Qed.
Lemma canary_damaged g s LL p n v t d : linv g t s LL -> In (p, d) (live t) -> SLAB_CANARY g = true -> canary_of g s p n v -> number_at s (p + n) <> v -> damaged g s p.
Proof.
  intros LI Hl SC (a & k & i & C & K0 & B & -> & ->) N. pose proof (live_block _ _ _ _ _ _ LI Hl) as (n' & _ & _ & HI & _).
  assert (in_small_area s p) as Ar. { destruct B as [B _]. pose proof (hi_inv _ _ _ HI) as I. pose proof (class_region_lo g s LL [] I a k p C B) as R. destruct (class_of_addr g s (gi_u _ _ _ _ I) (gi_pl _ _ _ _ I) a k p C R) as [Q _]. unfold in_slab_region, in_small_area in *. lia. }
  destruct (live_small _ _ _ _ _ _ LI Hl Ar) as (a' & k' & i' & j & _ & SB). destruct (no_fun _ _ _ _ _ _ _ _ _ _ HI C (proj1 SB) B (sblk_no _ _ _ _ _ _ _ _ HI SB)) as (-> & -> & ->).
  exists a, k, i, j. split; [auto|]. intros K. apply N. specialize (K SC K0). destruct SB as (_ & _ & _ & Ep). rewrite <- Ep in K. rewrite number_u64. unfold canary_size. rewrite SC. replace (p + (slot_size g k - 8)) with (p + slot_size g k - 8) by lia. exact K.
Qed.
Lemma C10_detected_l g W o t s p d n v tid : usable_config g = true -> history g W o t s -> SLAB_CANARY g = true -> In (p, d) (live t) -> canary_of g s p n v -> number_at s (p + n) <> v ->
  run (op_run g tid (OFree p)) s = Fail (Fatal "canary corrupted"%string) /\
  run (op_run g tid (OUsableSize p)) s = Fail (Fatal "canary corrupted"%string) /\
  (forall m, word m -> exists msg, run (op_run g tid (OFreeSized p m)) s = Fail (Fatal msg)) /\
  (forall m q s', calls g W t s tid (ORealloc p m) (APtr q) s' -> q = p).
Proof.
  intros U H SC Hl CO N. destruct (history_linv _ _ _ _ _ U H) as (LL & LI). pose proof (canary_damaged _ _ _ _ _ _ _ _ LI Hl SC CO N) as D. pose proof (live_block _ _ _ _ _ _ LI Hl) as (n' & _ & _ & _ & P & _).
  assert (word p) by (unfold word; lia). assert (p <> 0) by lia. split; [eapply damaged_free; eauto|]. split; [eapply damaged_usable; eauto|]. split; [intros; eapply damaged_sized; eauto|]. intros; eapply damaged_realloc; eauto.
Qed.
Lemma C10_live_l g W o t s p n v tid : usable_config g = true -> history g W o t s -> SLAB_CANARY g = true -> is_live t p -> canary_of g s p n v -> number_at s (p + n) <> v ->
  run (op_run g tid (OFree p)) s = Fail (Fatal "canary corrupted"%string) /\
  run (op_run g tid (OUsableSize p)) s = Fail (Fatal "canary corrupted"%string) /\
  (forall m, word m -> exists msg, run (op_run g tid (OFreeSized p m)) s = Fail (Fatal msg)) /\
  (forall m q s', calls g W t s tid (ORealloc p m) (APtr q) s' -> q = p).
Proof. intros U H SC (d & Hl). eapply C10_detected_l; eauto. Qed.
Lemma slab_canary_low g s LL a k i : hinv g s LL -> class_in g a k -> can (st_cls s a k) i mod 256 = 0.
Proof.
  intros HI C. destruct (gclass g s LL [] (hi_inv _ _ _ HI) a k C) as (E & F & CI). pose proof CI as (P & I & _). apply (so_can _ _ (ci_slabs _ _ _ _ _ _ _ _ _ I i)).
Qed.
Lemma canary_unique g s LL p n v n' v' : hinv g s LL -> canary_of g s p n v -> canary_of g s p n' v' -> n' = n /\ v' = v.
Proof.
  intros HI (a & k & i & C & K0 & B & -> & ->) (a' & k' & i' & C' & K0' & B' & -> & ->). destruct (no_fun _ _ _ _ _ _ _ _ _ _ HI C C' B B') as (-> & -> & ->). auto.
Qed.
(** the slot and the canary of a block stay the same until it is freed *)
Lemma keep_slot g W t s LL tid c a s' ar k i j p : linv g t s LL -> calls g W t s tid c a s' -> sblk g s ar k i j p -> freed_by (mkEv tid c a) <> Some p -> p <> 0 ->
  sblk g s' ar k i j p /\ can (st_cls s' ar k) i = can (st_cls s ar k) i.
Proof.
  intros LI C SB F P0. destruct (calls_step _ _ _ _ _ _ _ _ _ LI C) as (LL' & SP). destruct (stores c) as [x|] eqn:S.
  - destruct (sp_store _ _ _ _ _ _ _ _ _ SP x S) as (_ & E & _). unfold sblk. rewrite E. auto.
  - destruct (sp_cls _ _ _ _ _ _ _ _ _ SP S) as (m & H). assert ({evrm c a = Some p} + {evrm c a <> Some p}) as [E|N] by (decide equality; apply Z.eq_dec).
    + assert (evadd c a m = Some (p, m)) as A.
      { unfold freed_by in F. cbn [e_op e_ans] in F. destruct c; try discriminate E; destruct a; try discriminate E; cbn in *; destruct (Z.eqb_spec p0 0); try discriminate E; injection E as ->; try (elim F; reflexivity).
        destruct (Z.eqb_spec p1 p) as [->|]; [reflexivity|]. elim F. reflexivity. }
      destruct (hc_keep _ _ _ _ _ H ar k i j p m E A SB) as (X1 & X2 & _). auto.
    + destruct (hc_slot _ _ _ _ _ H ar k i j p SB N) as (X1 & X2 & _). auto.
Qed.
Lemma cont_slot g W o t s t' s' ar k i j p : usable_config g = true -> history g W o t s -> continues g W t s t' s' -> sblk g s ar k i j p -> p <> 0 -> (forall e, In e (since t t') -> freed_by e <> Some p) ->
  sblk g s' ar k i j p /\ can (st_cls s' ar k) i = can (st_cls s ar k) i.
Proof.
  intros U H K SB P0. induction K as [|t1 s1 tid c a s2 K IH C]; intros F; [auto|]. rewrite since_call in F by (eapply cont_len; eauto). destruct IH as [S1 E1]; [intros e He; apply F; right; auto|].
  destruct (history_linv _ _ _ _ _ U (cont_history _ _ _ _ _ _ _ H K)) as (LL & LI). destruct (keep_slot _ _ _ _ _ _ _ _ _ _ _ _ _ _ LI C S1 (F _ (or_introl eq_refl)) P0) as [S2 E2]. split; [auto|congruence].
Qed.
(** what a call hands out *)
Lemma handed_rm tid c a p m : handed_out (mkEv tid c a) = Some p -> p <> 0 -> evadd c a m = Some (p, m) /\ evrm c a <> Some p /\ stores c = None.
Proof.
  unfold handed_out. cbn [e_op e_ans]. intros H P0. destruct c; try discriminate; destruct a; try discriminate; cbn in *; try (injection H as ->; repeat split; discriminate).
  destruct (Z.eqb_spec p1 p0); [discriminate|]. injection H as ->. split; [reflexivity|]. split; [|reflexivity]. destruct (Z.eqb_spec p0 0); congruence.
Qed.
Lemma handed_live tid c a p t : handed_out (mkEv tid c a) = Some p -> In (p, c) (live (mkEv tid c a :: t)).
Proof.
  unfold handed_out. cbn [e_op e_ans live e_tid]. intros H. destruct c; try discriminate; destruct a; try discriminate; cbn in *; try (injection H as ->; left; reflexivity).
  destruct (Z.eqb_spec p1 p0); [discriminate|]. injection H as ->. left. reflexivity.
Qed.
Lemma handed_slot g W o t s tid c a s' p : usable_config g = true -> history g W o t s -> calls g W t s tid c a s' -> handed_out (mkEv tid c a) = Some p -> in_small_area s' p ->
  exists LL' ar k i j, hinv g s' LL' /\ sblk g s' ar k i j p /\ canary_intact g k (st_os s') (st_cls s' ar k) i j.
Proof.
  intros U H C HO Ar. destruct (history_linv _ _ _ _ _ U H) as (LL & LI). destruct (calls_step _ _ _ _ _ _ _ _ _ LI C) as (LL' & SP). pose proof (sp_inv _ _ _ _ _ _ _ _ _ SP) as LI'.
  pose proof (handed_live tid c a p t HO) as Hl. destruct (live_small _ _ _ _ _ _ LI' Hl Ar) as (ar & k & i & j & HI' & SB). destruct (live_block _ _ _ _ _ _ LI' Hl) as (_ & _ & _ & _ & P & _).
  exists LL', ar, k, i, j. split; [auto|]. split; [auto|]. destruct (handed_rm tid c a p 0 HO ltac:(lia)) as (_ & R & S). destruct (sp_cls _ _ _ _ _ _ _ _ _ SP S) as (m & HC).
  destruct (handed_rm tid c a p m HO ltac:(lia)) as (A & _ & _). apply (hc_fresh _ _ _ _ _ HC ar k i j p m A R SB).
Qed.
Lemma C10_written_l g W o t s tid c a s' p n v : usable_config g = true -> history g W o t s -> SLAB_CANARY g = true -> calls g W t s tid c a s' -> handed_out (mkEv tid c a) = Some p ->
  canary_of g s' p n v -> number_at s' (p + n) = v /\ v mod 256 = 0 /\ (bytes_at s' (p + n) (p + n + 8) -> content s' (p + n) = 0).
Proof.
  intros U H SC C HO CO. pose proof (calls_history _ _ _ _ _ _ _ _ _ H C) as H'. destruct (history_linv _ _ _ _ _ U H') as (LL' & LI'). pose proof (handed_live tid c a p t HO) as Hl. destruct (live_block _ _ _ _ _ _ LI' Hl) as (_ & _ & _ & HI' & P & _).
  assert (in_small_area s' p) as Ar. { destruct CO as (ar & k & i & Ck & _ & (B & _) & _). pose proof (hi_inv _ _ _ HI') as I. pose proof (class_region_lo g s' LL' [] I ar k p Ck B) as R. destruct (class_of_addr g s' (gi_u _ _ _ _ I) (gi_pl _ _ _ _ I) ar k p Ck R) as [Q _]. unfold in_slab_region, in_small_area in *. lia. }
  destruct (handed_slot _ _ _ _ _ _ _ _ _ _ U H C HO Ar) as (L2 & ar & k & i & j & HI2 & SB & CI). destruct CO as (a2 & k2 & i2 & Ck & K0 & B & -> & ->).
  destruct (no_fun _ _ _ _ _ _ _ _ _ _ HI2 (proj1 SB) Ck (sblk_no _ _ _ _ _ _ _ _ HI2 SB) B) as (-> & -> & ->). specialize (CI SC K0). pose proof (slab_canary_low _ _ _ ar k i HI2 Ck) as Lw. unfold can in *.
  destruct SB as (_ & _ & _ & Ep). rewrite <- Ep in CI. assert (number_at s' (p + (slot_size g k - canary_size g)) = sb_canary (c_slabs (st_cls s' ar k) i)) as N.
  { rewrite number_u64. unfold canary_size. rewrite SC. replace (p + (slot_size g k - 8)) with (p + slot_size g k - 8) by lia. exact CI. }
  split; [exact N|]. split; [exact Lw|]. intros BY. rewrite <- N in Lw. specialize (BY (p + (slot_size g k - canary_size g)) ltac:(lia)). unfold number_at in Lw.
  set (x := p + (slot_size g k - canary_size g)) in *. change (2 ^ 8) with 256 in Lw. change (2 ^ 16) with (256 * 256) in Lw. change (2 ^ 24) with (256 * 65536) in Lw. change (2 ^ 32) with (256 * 16777216) in Lw.
  change (2 ^ 40) with (256 * 4294967296) in Lw. change (2 ^ 48) with (256 * 1099511627776) in Lw. change (2 ^ 56) with (256 * 281474976710656) in Lw. apply Z.mod_divide in Lw; [|lia]. destruct Lw as (z & Lw). lia.
Qed.
Lemma C10_changed_l g W o t s tid c a s0 p n t' s' x : usable_config g = true -> history g W o t s -> SLAB_CANARY g = true -> calls g W t s tid c a s0 -> handed_out (mkEv tid c a) = Some p ->
  in_small_area s0 p -> usable_size g s0 p n -> n <> 0 -> continues g W (mkEv tid c a :: t) s0 t' s' -> (forall e, In e (since (mkEv tid c a :: t) t') -> freed_by e <> Some p) ->
  p + n <= x < p + n + 8 -> bytes_at s0 (p + n) (p + n + 8) -> bytes_at s' (p + n) (p + n + 8) -> content s' x <> content s0 x ->
  forall tid', run (op_run g tid' (OFree p)) s' = Fail (Fatal "canary corrupted"%string) /\
  run (op_run g tid' (OUsableSize p)) s' = Fail (Fatal "canary corrupted"%string) /\
  (forall m, word m -> exists msg, run (op_run g tid' (OFreeSized p m)) s' = Fail (Fatal msg)) /\
  (forall m q s2, calls g W t' s' tid' (ORealloc p m) (APtr q) s2 -> q = p).
Proof.
  intros U H SC C HO Ar US N0 K F Hx B0 B1 D tid'. destruct (handed_slot _ _ _ _ _ _ _ _ _ _ U H C HO Ar) as (LL0 & ar & k & i & j & HI & SB & CI). pose proof (calls_history _ _ _ _ _ _ _ _ _ H C) as H0.
  destruct (history_linv _ _ _ _ _ U H0) as (L0 & LI0). pose proof (handed_live tid c a p t HO) as Hl. destruct (live_block _ _ _ _ _ _ LI0 Hl) as (n' & B & _ & HI0 & P & _).
  assert (n = usable_of g k) as En. { apply (usable_eq _ _ _ _ _ _ _ _ LI0 Hl); [left; exists ar, k, i, j; auto|exact US]. }
  assert (k <> 0) as K0. { intros ->. apply N0. rewrite En. reflexivity. }
  destruct (cont_slot _ _ _ _ _ _ _ _ _ _ _ _ U H0 K SB ltac:(lia) F) as [SB' Ec]. destruct (history_linv _ _ _ _ _ U (cont_history _ _ _ _ _ _ _ H0 K)) as (L' & LI').
  assert (damaged g s' p) as DM.
  { exists ar, k, i, j. split; [auto|]. intros CI'. specialize (CI SC K0). specialize (CI' SC K0). destruct SB as (_ & _ & _ & E1), SB' as (_ & _ & _ & E2). rewrite <- E1 in CI. rewrite <- E2, Ec, <- CI in CI'.
    assert (p + n = p + slot_size g k - 8) as Ex. { rewrite En. unfold usable_of, canary_size. rewrite SC. replace (k =? 0) with false by lia. lia. }
    rewrite <- Ex in CI'. apply D. apply (u64_inj _ _ _ CI' B1 B0 x Hx). }
  assert (word p) by (unfold word; lia). assert (p <> 0) by lia. split; [eapply damaged_free; eauto|]. split; [eapply damaged_usable; eauto|]. split; [intros; eapply damaged_sized; eauto|]. intros; eapply damaged_realloc; eauto.
Qed.
Lemma C10_false_l g o t s tid c f : usable_config g = true -> history g (own_store g) o t s -> ends g (own_store g) t s tid c f -> valid_call g t s c -> f <> Fatal "canary corrupted"%string.
Proof.
  intros U H E V. destruct (C45_valid_l g o t s tid c f U H E V) as [X|[[X _]|[X _]]]; intros ->; clear - X.
  - destruct X as [X|X]; [discriminate|]. cbn in X. intuition discriminate.
  - unfold startup_abort in X. cbn in X. intuition discriminate.
  - destruct X as [X|X]; discriminate.
Qed.
