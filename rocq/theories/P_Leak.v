(** Lemmas for C50: the address space in use is accounted for. *)
From Coq Require Import String ZArith List Bool Lia ZifyBool.
From Verif Require Import M_Base M_Config M_SizeClass M_Libdivide M_OS M_Random M_Slab M_Region M_Api M_Hist S_SizeClass S_Slab S_Heap S_Class S_Quar S_Guard S_Leak
  P_Base P_Count P_SizeClass P_SizeClass2 P_Libdivide P_Random P_OS P_Slab1 P_Slab2 P_Path
  P_Region P_Region2 P_Heap1 P_Heap2 P_Heap3 P_Heap4 P_Heap5 P_Heap6 P_Heap7 P_Heap8 P_Heap9 P_Heap10 P_Heap11 P_Init P_Api0 P_Api1 P_Api2 P_Api3 P_Api4 P_Api5 P_Api6 P_Api7 P_Api8.
Import ListNotations.
Open Scope Z_scope.
Ltac Zify.zify_post_hook ::= idtac.

Definition rebase (b : ground) (LL : regs) : regs := mkRegs (rl_own LL) (rl_open LL) (rl_strict LL) b.
Lemma hinv_rebase g s LL b : hinv g s LL ->
  (unrefused (st_os s) -> exists gd, (0 <= gd <= gr_slack b /\ gd mod 4096 = 0) /\ forall q, pages (st_os s) q <> None -> b q = true \/ halo g s gd q = true \/ cover (spans g s LL []) q <> 0) ->
  hinv g s (rebase b LL).
Proof.
  intros [I O S A C SC] H. constructor; auto. destruct I as [U PL CL RA RQ ND RG FL AP MP GP GC GT]. constructor; auto.
Qed.
Lemma linv_rebase g t s LL b : linv g t s LL -> hinv g s (rebase b LL) -> linv g t s (rebase b LL).
Proof.
  intros [L1 L2 L3 L4] HI. constructor; auto. left. exact HI.
Qed.
Lemma large_usable g s LL p n : hinv g s LL -> in_slab_region p s = false -> 0 < p < 2 ^ 64 -> block g s LL p n -> usable_size g s p n.
Proof.
  intros HI L Hp B. pose proof (usable_wp g s LL p (or_introl HI) ltac:(lia)) as W. unfold wp in W. destruct (run (h_malloc_usable_size g p) s) as [[r s']|f] eqn:E.
  - destruct W as (_ & W). replace (p =? 0) with false in W by lia. destruct W as [W _]. exists s'. rewrite E. f_equal. f_equal. apply (block_fun g s LL [] (hi_inv _ _ _ HI) p); auto.
  - exfalso. destruct W as (_ & _ & [N|(_ & L' & _)]); [exact (N n B)|congruence].
Qed.
(** the guards of the blocks in use *)
Definition gok (g : config) (t : trace) (LL : regs) : Prop := forall r, In r (rl_own LL) -> guard_ok g (rg_size r) (rg_guard r) \/ resized_in_place t (rg_p r).
Lemma gok_step g t s LL tid c a s' LL' : stepped g t s LL tid c a s' LL' -> gok g t LL -> gok g (mkEv tid c a :: t) LL'.
Proof.
  intros SP G r Hr. destruct (sp_guard _ _ _ _ _ _ _ _ _ SP r Hr) as [K|[K|(K & _)]]; [|auto|].
  - destruct (G r K) as [X|(d & n & X)]; [auto|]. right. exists d, n. right. exact X.
  - right. assert (is_live (mkEv tid c a :: t) (rg_p r)) as (b & HL). { apply (li_live _ _ _ _ (sp_inv _ _ _ _ _ _ _ _ _ SP)). exists (rg_size r). right. exists (rg_guard r). destruct r; exact Hr. }
    unfold evrm in K. destruct c; try discriminate; destruct a; try discriminate; destruct (Z.eqb_spec p 0); try discriminate; injection K as ->; cbn [live after e_op e_ans allocates] in HL.
    + destruct HL as [[= <- <-]|HL]; [exists tid, n; left; reflexivity|]. apply forget_In in HL. destruct HL as [_ HL]. elim HL; reflexivity.
    + apply forget_In in HL. destruct HL as [_ HL]. elim HL; reflexivity.
    + apply forget_In in HL. destruct HL as [_ HL]. elim HL; reflexivity.
Qed.
(** every guard was drawn for a size the block once had *)
Definition gsz (g : config) (W : store_rule) (o : os) (t : trace) (s : state) (LL : regs) : Prop :=
  forall r, In r (rl_own LL) -> exists n, once_of_size g W o t s (rg_p r) n /\ rg_guard r <= guard_limit g n.
Lemma since_step p t0 t e c : held_since p t0 t -> In (p, c) (live (e :: t)) -> held_since p t0 (e :: t).
Proof.
  intros (l & -> & H) L. exists (e :: l). split; [reflexivity|]. intros [|e1 l1] l2 E; cbn in E; [subst l2; eauto|]. injection E as -> E. eapply H; eauto.
Qed.
Lemma since_here p t c : In (p, c) (live t) -> held_since p t t.
Proof. intros H. exists []. split; [reflexivity|]. intros l1 l2 E. symmetry in E. apply app_eq_nil in E. destruct E as [-> ->]. eauto. Qed.
Lemma gsz_step g W o t s LL tid c a s' LL' : usable_config g = true -> history g W o t s -> calls g W t s tid c a s' -> stepped g t s LL tid c a s' LL' -> gsz g W o t s LL -> gsz g W o (mkEv tid c a :: t) s' LL'.
Proof.
  intros U H K SP G r Hr. pose proof (sp_inv _ _ _ _ _ _ _ _ _ SP) as LI'.
  assert (block g s' LL' (rg_p r) (rg_size r)) as B by (right; exists (rg_guard r); destruct r; exact Hr).
  assert (is_live (mkEv tid c a :: t) (rg_p r)) as (b & HL) by (apply (li_live _ _ _ _ LI'); eauto).
  assert (forall n0, once_of_size g W o t s (rg_p r) n0 -> once_of_size g W o (mkEv tid c a :: t) s' (rg_p r) n0) as EXT.
  { intros n0 (t0 & s0 & H0 & C0 & S0 & U0). exists t0, s0. split; [exact H0|]. split; [eapply (continues_call g W t0 s0 t s); eauto|]. split; [eapply since_step; eauto|exact U0]. }
  destruct (sp_guard _ _ _ _ _ _ _ _ _ SP r Hr) as [X|[X|(_ & n & X)]].
  - destruct (G r X) as (n & O & L). eauto.
  - exists (rg_size r). split; [|apply X]. exists (mkEv tid c a :: t), s'. split; [eapply calls_history; eauto|]. split; [constructor|]. split; [eapply since_here; eauto|].
    destruct (li_ready _ _ _ _ LI') as [HI|ID]; [|rewrite (id_regs _ _ _ ID) in Hr; destruct Hr].
    pose proof (region_p g s' LL' [] (hi_inv _ _ _ HI) _ Hr) as (P1 & P2 & P3). change (2 ^ 47) with 140737488355328 in P3.
    apply (large_usable g s' LL'); [exact HI| |change (2 ^ 64) with 18446744073709551616; lia|exact B]. apply (region_not_slab g s' LL' [] (hi_inv _ _ _ HI) _ Hr). lia.
  - destruct (G _ X) as (n0 & O & L). cbn [rg_p rg_guard] in O, L. eauto.
Qed.
Lemma history_gok g W o t s : usable_config g = true -> history g W o t s -> exists LL, linv g t s LL /\ rl_base LL = ground0 g o /\ gok g t LL /\ gsz g W o t s LL.
Proof.
  intros U H. induction H as [|t s tid c a s' H (LL & LI & EB & G & GZ) TC WD PM ST E]; [exists (no_regs (ground0 g o)); split; [apply boot_linv; auto|]; split; [reflexivity|]; split; intros r []|].
  pose proof (op_step g t s LL tid c LI TC WD PM) as K. unfold wp in K. rewrite E in K. destruct K as (LL' & K). exists LL'. split; [apply K|]. split; [rewrite (sp_base _ _ _ _ _ _ _ _ _ K); exact EB|]. split; [exact (gok_step _ _ _ _ _ _ _ _ _ K G)|].
  apply (gsz_step g W o t s LL tid c a s' LL' U H); [repeat split; auto|exact K|exact GZ].
Qed.
Lemma cont_base g W o t s t' s' LL : usable_config g = true -> history g W o t s -> linv g t s LL -> gok g t LL -> gsz g W o t s LL -> continues g W t s t' s' -> exists LL', linv g t' s' LL' /\ rl_base LL' = rl_base LL /\ gok g t' LL' /\ gsz g W o t' s' LL'.
Proof.
  intros U H LI G GZ C. induction C as [|t1 s1 tid c a s2 C (LL1 & L1 & E1 & G1 & Z1) K]; [eauto 6|].
  destruct (calls_step _ _ _ _ _ _ _ _ _ L1 K) as (LL2 & St). exists LL2. split; [apply St|]. split; [rewrite (sp_base _ _ _ _ _ _ _ _ _ St); exact E1|]. split; [exact (gok_step _ _ _ _ _ _ _ _ _ St G1)|].
  apply (gsz_step g W o t1 s1 LL1 tid c a s2 LL2 U (cont_history _ _ _ _ _ _ _ H C)); auto.
Qed.
Lemma calls_later g W o t s tid c a s' : usable_config g = true -> history g W o t s -> calls g W t s tid c a s' -> later (st_os s) (st_os s').
Proof.
  intros U H K. destruct (history_linv _ _ _ _ _ U H) as (LL & LI). destruct (calls_step _ _ _ _ _ _ _ _ _ LI K) as (LL2 & St).
  destruct (stores c) as [x|] eqn:E.
  - apply (sp_store _ _ _ _ _ _ _ _ _ St x E).
  - destruct (sp_cls _ _ _ _ _ _ _ _ _ St E) as (m & [X _ _ _ _ _ _ _]). exact X.
Qed.
Lemma cont_later g W o t s t' s' : usable_config g = true -> history g W o t s -> continues g W t s t' s' -> later (st_os s) (st_os s').
Proof.
  intros U H C. induction C as [|t1 s1 tid c a s2 C IH K]; [apply later_refl|]. eapply later_trans; [exact IH|]. eapply calls_later; [exact U|eapply cont_history; eauto|exact K].
Qed.
Lemma refused_later g W o t s t' s' : usable_config g = true -> history g W o t s -> continues g W t s t' s' -> never_refused s' -> never_refused s.
Proof. intros U H C NV. destruct (cont_later _ _ _ _ _ _ _ U H C) as [L1 L2]. intros i Hn. specialize (NV i ltac:(lia)). rewrite L1 in NV. exact NV. Qed.
Lemma unrefused_dec o : unrefused o \/ ~ unrefused o.
Proof.
  unfold unrefused. generalize (sysn o). intros n. induction n as [|n IH]; [left; intros i Hi; lia|]. destruct IH as [IH|IH].
  - destruct (Z.eq_dec (sa_errno (sysq o n)) ENOMEM) as [E|E]; [right; intros H; apply (H n); [lia|exact E]|]. left. intros i Hi. destruct (Nat.eq_dec i n) as [->|]; [exact E|apply IH; lia].
  - right. intros H. apply IH. intros i Hi. apply H. lia.
Qed.

(** pages and addresses *)
Lemma pages_bytes a l x : a mod 4096 = 0 -> in_pages a l (page_of x) = true -> a <= x < page_up (a + l).
Proof.
  intros Ha H. apply P_OS.in_pages_spec in H. unfold page_of, page_up in *. pose proof (Z.div_mod x 4096 ltac:(lia)). pose proof (Z.mod_pos_bound x 4096 ltac:(lia)). pose proof (Z.div_mod a 4096 ltac:(lia)). lia.
Qed.
Lemma bytes_pages a l x : a / 4096 * 4096 <= x < page_up (a + l) -> in_pages a l (page_of x) = true.
Proof.
  intros H. apply P_OS.in_pages_spec. unfold page_of, page_up in *. pose proof (Z.div_mod x 4096 ltac:(lia)). pose proof (Z.mod_pos_bound x 4096 ltac:(lia)). lia.
Qed.
Lemma pages_bytes2 a l x : in_pages a l (page_of x) = true -> a / 4096 * 4096 <= x < page_up (a + l).
Proof.
  intros H. apply P_OS.in_pages_spec in H. unfold page_of, page_up in *. pose proof (Z.div_mod x 4096 ltac:(lia)). pose proof (Z.mod_pos_bound x 4096 ltac:(lia)). lia.
Qed.
Lemma page_up_add a b : a mod 4096 = 0 -> page_up (a + b) = a + page_up b.
Proof.
  intros H. apply Z.mod_divide in H; [|lia]. destruct H as [z ->]. unfold page_up. replace (z * 4096 + b + 4095) with (b + 4095 + z * 4096) by lia. rewrite Z.div_add by lia. lia.
Qed.

(** ranges in the quarantine *)
Definition range_of (e : Z * Z) : Z * Z := (fst e / 4096 * 4096, page_up (fst e + snd e)).
Definition held_ranges (r : ralloc) : list (Z * Z) := map range_of (filter (fun e => negb (fst e =? 0)) (ra_qrandom r ++ ra_qqueue r)).
Lemma filter_le {A} (f : A -> bool) l : (length (filter f l) <= length l)%nat.
Proof. induction l as [|x l IH]; cbn; [lia|]. destruct (f x); cbn; lia. Qed.
Lemma held_length g r : rq_ok g r -> Z.of_nat (length (held_ranges r)) <= REGION_QUARANTINE_RANDOM_LENGTH g + REGION_QUARANTINE_QUEUE_LENGTH g.
Proof.
  intros [K1 K2 _ _]. unfold held_ranges. rewrite map_length. pose proof (filter_le (fun e : Z * Z => negb (fst e =? 0)) (ra_qrandom r ++ ra_qqueue r)) as H. rewrite app_length in H. unfold zlen in *. lia.
Qed.
Lemma held_span r x : in_ranges (held_ranges r) x <-> exists f, In f (qspans r) /\ f (page_of x) = true.
Proof.
  unfold in_ranges, held_ranges, qspans. split.
  - intros (e' & H & Hx). apply in_map_iff in H. destruct H as (e & <- & He). exists (in_pages (fst e) (snd e)). split; [apply in_map_iff; eauto|]. apply bytes_pages. exact Hx.
  - intros (f & H & Hx). apply in_map_iff in H. destruct H as (e & <- & He). exists (range_of e). split; [apply in_map; exact He|]. apply pages_bytes2. exact Hx.
Qed.

(** a large block in use or its guards, with what is known of the guards *)
Definition large_or_guard (g : config) (W : store_rule) (o : os) (t : trace) (s : state) (x : Z) : Prop :=
  exists p c n gd, In (p, c) (live t) /\ ~ in_small_area s p /\ usable_size g s p n /\
    guarded s (p - gd) p /\ guarded s (page_up (p + n)) (page_up (p + n) + gd) /\ p - gd <= x < page_up (p + n) + gd /\
    (gd <= guard_limit g n \/ resized_in_place t p) /\ exists n0, once_of_size g W o t s p n0 /\ gd <= guard_limit g n0.
Lemma own_large g W o t s LL r x : linv g t s LL -> hinv g s LL -> gok g t LL -> gsz g W o t s LL -> In r (rl_own LL) -> region_span r (page_of x) = true -> large_or_guard g W o t s x.
Proof.
  intros LI HI GK GZ Hr Hx. destruct r as [p n gd]. pose proof (gi_reg _ _ _ _ (hi_inv _ _ _ HI) _ Hr) as [K1 K2 K3 K4 K5 K6 K7]. pose proof (region_p g s LL [] (hi_inv _ _ _ HI) _ Hr) as (P1 & _). cbn [rg_p rg_size rg_guard] in *. change (2 ^ 47) with 140737488355328 in *.
  pose proof (region_not_slab g s LL [] (hi_inv _ _ _ HI) _ Hr p ltac:(cbn; lia)) as L.
  assert (block g s LL p n) as B by (right; exists gd; exact Hr).
  assert (exists c, In (p, c) (live t)) as (c & HL) by (apply (live_iff _ _ _ _ p LI); eauto).
  destruct (live_block _ _ _ _ _ _ LI HL) as (n' & B' & _ & _ & PW & _). assert (n' = n) as -> by (apply (block_fun g s LL [] (hi_inv _ _ _ HI) p); auto).
  exists p, c, n, gd. split; [exact HL|]. split; [unfold in_small_area; unfold in_slab_region in L; lia|]. split; [apply (large_usable g s LL); auto|].
  assert ((p - gd) mod 4096 = 0) as Mg by (apply mod_sub2; [exact K1|apply K2]).
  assert (page_up (p - gd + (n + 2 * gd)) = page_up (p + n) + gd) as EP.
  { replace (p - gd + (n + 2 * gd)) with (gd + (p + n)) by lia. rewrite page_up_add by apply K2. lia. }
  assert (p + n <= page_up (p + n)) as PU. { unfold page_up. pose proof (Z.div_mod (p + n + 4095) 4096 ltac:(lia)). pose proof (Z.mod_pos_bound (p + n + 4095) 4096 ltac:(lia)). lia. }
  assert (forall y, p - gd <= y < p \/ page_up (p + n) <= y < page_up (p + n) + gd -> inaccessible s y) as NA.
  { intros y Hy. apply K7.
    - unfold region_span. cbn [rg_p rg_size rg_guard]. apply bytes_pages. rewrite EP. apply Z.mod_divide in Mg; [|lia]. destruct Mg as [z Ez]. rewrite Ez, Z.div_mul by lia. lia.
    - destruct (in_pages p n (page_of y)) eqn:Q; [|reflexivity]. apply pages_bytes in Q; [lia|exact K1]. }
  split; [split; [lia|auto]|]. split; [split; [lia|auto]|].
  unfold region_span in Hx. cbn [rg_p rg_size rg_guard] in Hx. apply pages_bytes in Hx; [|exact Mg]. split; [lia|].
  split; [destruct (GK _ Hr) as [(_ & _ & X)|X]; cbn [rg_p rg_size rg_guard] in X; [left; exact X|right; exact X]|]. exact (GZ _ Hr).
Qed.

(** before the first call nothing is added *)
Lemma C50_idle_l g W o t s x : usable_config g = true -> history g W o t s -> is_init s = false -> mapped s x -> mapped (boot g o) x.
Proof.
  intros U H Hi M. destruct (history_base _ _ _ _ _ U H) as (LL & LI & EB). destruct (li_ready _ _ _ _ LI) as [HI|ID]; [rewrite (hinv_init _ _ _ HI) in Hi; discriminate|].
  pose proof (id_base _ _ _ ID _ M) as B. rewrite EB in B. cbn in B. unfold mapped0 in B. unfold mapped. cbn. destruct (pages o (x / 4096)); congruence.
Qed.
Lemma sizeof_pos g : usable_config g = true -> 0 < sizeof_allocator_state g.
Proof.
  intros U. destruct (gfacts_of g U) as [f1 f2 f3 f4 f5 f6 f7]. unfold sizeof_allocator_state. rewrite off_i. assert (0 <= N_ARENA g * N_SIZE_CLASSES g * sizeof_slab_info_mapping g) by (apply Z.mul_nonneg_nonneg; nia). lia.
Qed.
Lemma slab_region_pages g : usable_config g = true -> slab_region_size g mod 4096 = 0.
Proof.
  intros U. destruct (gfacts_of g U) as [f1 f2 f3 f4 f5 f6 f7]. apply Z.mod_divide in f7; [|lia]. destruct f7 as [z E]. unfold slab_region_size, ARENA_SIZE, REAL_CLASS_REGION_SIZE. rewrite E.
  replace (z * 4096 * 2 * N_SIZE_CLASSES g * N_ARENA g) with (z * 2 * N_SIZE_CLASSES g * N_ARENA g * 4096) by ring. apply Z.mod_mul. lia.
Qed.
Lemma C50_core0 g W o t s : usable_config g = true -> history g W o t s -> is_init s = true ->
  exists lo hi, lo <= hi <= lo + page_up (sizeof_allocator_state g) + 2 * REAL_CLASS_REGION_SIZE g /\
    forall t' s', continues g W t s t' s' -> never_refused s' ->
    exists held, held = held_ranges (st_ra s') /\ Z.of_nat (length held) <= REGION_QUARANTINE_RANDOM_LENGTH g + REGION_QUARANTINE_QUEUE_LENGTH g /\ (forall x, in_ranges held x -> inaccessible s' x) /\
      forall x, mapped s' x -> mapped (boot g o) x \/ lo <= x < hi \/ in_small_area s x \/ large_or_guard g W o t' s' x \/ in_ranges held x.
Proof.
  intros U H Hi. destruct (history_gok _ _ _ _ _ U H) as (LL & LI & EB & GK & GZ). pose proof (ready_hinv _ _ _ (li_ready _ _ _ _ LI) Hi) as HI.
  assert (0 <= page_up (sizeof_allocator_state g) + 2 * REAL_CLASS_REGION_SIZE g) as NN.
  { pose proof (gfacts_of g U) as []. unfold REAL_CLASS_REGION_SIZE. pose proof (gi_pl _ _ _ _ (hi_inv _ _ _ HI)) as [B _ _ _]. unfold page_up.
    assert (0 <= (sizeof_allocator_state g + 4095) / 4096) by (apply Z.div_pos; [|lia]; pose proof (sizeof_pos g U); lia). lia. }
  destruct (unrefused_dec (st_os s)) as [UR|NR].
  2:{ exists 0, 0. split; [lia|]. intros t' s' C NV. elim NR. destruct (cont_later _ _ _ _ _ _ _ U H C) as [L1 L2]. intros i Hn. specialize (NV i ltac:(lia)). rewrite L1 in NV. exact NV. }
  destruct (gi_tight _ _ _ _ (hi_inv _ _ _ HI) (hi_strict _ _ _ HI) UR) as (gd & (Bg & Mg) & T). rewrite EB in Bg, T. cbn [ground0 gr_slack gr_page] in Bg, T.
  pose proof (gi_pl _ _ _ _ (hi_inv _ _ _ HI)) as [B _ _ _].
  set (b := mkGround (fun q => mapped0 o q || halo g s gd q) 0).
  assert (hinv g s (rebase b LL)) as HI'.
  { apply hinv_rebase; [exact HI|]. intros _. exists 0. split; [cbn; split; [lia|reflexivity]|]. intros q Hq. cbn [b gr_page]. destruct (T q Hq) as [E|[E|E]]; [left; rewrite E; reflexivity|left; rewrite E; apply orb_true_r|auto]. }
  pose proof (linv_rebase _ _ _ _ _ LI HI') as LI'.
  assert ((st_base s - gd) mod 4096 = 0) as Mb by (apply mod_sub2; [apply B|exact Mg]).
  assert (page_up (st_base s - gd + (sizeof_allocator_state g + 2 * gd)) = st_base s + page_up (sizeof_allocator_state g) + gd) as EP.
  { replace (st_base s - gd + (sizeof_allocator_state g + 2 * gd)) with (st_base s + gd + sizeof_allocator_state g) by lia. rewrite page_up_add by (apply mod_add2; [apply B|exact Mg]). lia. }
  exists (st_base s - gd), (st_base s + page_up (sizeof_allocator_state g) + gd).
  assert (0 <= page_up (sizeof_allocator_state g)) as PP by (unfold page_up; assert (0 <= (sizeof_allocator_state g + 4095) / 4096) by (apply Z.div_pos; [|lia]; pose proof (sizeof_pos g U); lia); lia).
  split; [lia|]. intros t' s' C NV. destruct (cont_base _ _ _ _ _ _ _ _ U H LI' GK GZ C) as (LL2 & LI2 & EB2 & GK2 & GZ2). cbn [rebase rl_base] in EB2.
  pose proof (cont_sited _ _ _ _ _ _ C Hi) as (S1 & S2 & S3). assert (is_init s' = true) as Hi2 by (unfold is_init in *; rewrite S2; exact Hi).
  pose proof (ready_hinv _ _ _ (li_ready _ _ _ _ LI2) Hi2) as HI2. exists (held_ranges (st_ra s')). split; [reflexivity|].
  split; [apply held_length, (gi_rq _ _ _ _ (hi_inv _ _ _ HI2))|]. split.
  - intros x Hx. apply held_span in Hx. destruct Hx as (f & Hf & Hx). exact (gi_cold _ _ _ _ (hi_inv _ _ _ HI2) (hi_strict _ _ _ HI2) NV _ _ Hf Hx).
  - intros x Hx. destruct (gi_tight _ _ _ _ (hi_inv _ _ _ HI2) (hi_strict _ _ _ HI2) NV) as (gd2 & (Bg2 & _) & T2). rewrite EB2 in Bg2, T2. cbn [b gr_slack gr_page] in Bg2, T2. assert (gd2 = 0) as -> by lia.
    pose proof (gi_pl _ _ _ _ (hi_inv _ _ _ HI2)) as [B2 St2 En2 _].
    destruct (T2 (page_of x) Hx) as [E|E].
    + rewrite orb_true_iff in E. destruct E as [E|E].
      * left. unfold mapped. cbn. unfold mapped0, page_of in E. destruct (pages o (x / 4096)); congruence.
      * right. left. unfold halo in E. apply pages_bytes in E; [|exact Mb]. lia.
    + assert (cover (spans g s' LL2 []) (page_of x) <> 0) as CV.
      { destruct E as [E|E]; [|exact E]. unfold halo in E. replace (st_base s' - 0) with (st_base s') in E by lia. replace (sizeof_allocator_state g + 2 * 0) with (sizeof_allocator_state g) in E by lia.
        pose proof (cover_In (spans g s' LL2 []) (meta_span g s') (page_of x) ltac:(left; reflexivity) E). lia. }
      destruct (cover_pos (spans g s' LL2 []) (page_of x)) as (f & Hf & Hq); [pose proof (cover_nonneg (spans g s' LL2 []) (page_of x)); lia|].
      unfold spans, fixed in Hf. rewrite !in_app_iff in Hf. destruct Hf as [[<-|[<-|[]]]|[Hf|[Hf|[]]]].
      * right. left. unfold meta_span in Hq. apply pages_bytes in Hq; [|apply B2]. rewrite S3 in Hq. rewrite page_up_add in Hq by apply B. lia.
      * right. right. left. unfold slab_span in Hq. unfold in_small_area. apply in_pages_addr in Hq; [lia|apply St2|apply slab_region_pages; exact U].
      * right. right. right. left. apply in_map_iff in Hf. destruct Hf as (r & <- & Hr). exact (own_large _ _ _ _ _ _ _ _ LI2 HI2 GK2 GZ2 Hr Hq).
      * right. right. right. right. apply held_span. eauto.
Qed.

Lemma C50_core g W o t s : usable_config g = true -> history g W o t s -> is_init s = true ->
  exists lo hi, lo <= hi <= lo + page_up (sizeof_allocator_state g) + 2 * REAL_CLASS_REGION_SIZE g /\
    forall t' s', continues g W t s t' s' -> never_refused s' ->
    exists held, Z.of_nat (length held) <= REGION_QUARANTINE_RANDOM_LENGTH g + REGION_QUARANTINE_QUEUE_LENGTH g /\ (forall x, in_ranges held x -> inaccessible s' x) /\
      forall x, mapped s' x -> mapped (boot g o) x \/ lo <= x < hi \/ in_small_area s x \/ of_large_block g t' s' x \/ in_ranges held x.
Proof.
  intros U H Hi. destruct (C50_core0 g W o t s U H Hi) as (lo & hi & B & K). exists lo, hi. split; [exact B|]. intros t' s' C N. destruct (K t' s' C N) as (held & _ & H1 & H2 & H3). exists held. split; [exact H1|]. split; [exact H2|].
  intros x Hx. destruct (H3 x Hx) as [X|[X|[X|[(p & c & n & gd & X1 & X2 & X3 & X4 & X5 & X6 & X7 & _)|X]]]]; auto 6. do 3 right. left. exists p, c, n, gd. auto 10.
Qed.

