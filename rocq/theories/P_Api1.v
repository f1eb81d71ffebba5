(** The blocks of the heap are the blocks the program owns, in every history. *)
From Coq Require Import String ZArith List Bool Lia ZifyBool Permutation.
From Verif Require Import M_Base M_Config M_SizeClass M_Libdivide M_OS M_Random M_Slab M_Region M_Api M_Hist S_Heap
  P_Base P_Count P_SizeClass P_Libdivide P_Random P_OS P_Slab1 P_Slab2 P_Path P_Region P_Heap1 P_Heap2 P_Heap3 P_Heap4 P_Heap5 P_Heap6 P_Heap7 P_Heap8 P_Heap9 P_Heap10 P_Heap11 P_Init P_Api0.
Import ListNotations.
Open Scope Z_scope.
Ltac Zify.zify_post_hook ::= idtac.

(** ** the aligned allocation functions *)
Definition al_ok (g : config) (s : state) (LL : regs) (s' : state) (al n p : Z) : Prop :=
  pow2 al /\ exists LL' u, ares g s LL s' LL' p u /\ n <= u /\ p mod al = 0 /\ p mod 16 = 0 /\ (4096 < al /\ n + canary_size g <= max_slab_size_class g \/ big g LL' p).
Lemma simple_wp g tid s LL al n : ready g s LL -> ra_leftover (st_ra s) = false -> 0 <= n < 2 ^ 64 -> 0 <= al < 2 ^ 64 ->
  wp (run (alloc_aligned_simple g tid al n)) s (fun r s' =>
     match r with
     | None => anone g s LL s' /\ (errno (st_os s') = EINVAL /\ ~ pow2 al \/ errno (st_os s') = ENOMEM /\ pow2 al)
     | Some p => al_ok g s LL s' al n p
     end) (api_fault g s).
Proof.
  intros R Le Hn Ha. unfold alloc_aligned_simple. apply wp_run_pbind. eapply wp_mono; [apply (aligned_wp g tid s LL al n 1 R Le Hn Ha ltac:(lia))| |auto]. intros [e|p] s'.
  - intros (A & E). unfold set_errno_to. apply wp_run_pbind, wp_run_act. unfold on_os. apply wp_zoom, wp_modify, wp_run_ret. split; [apply anone_errno; exact A|]. cbn [set_st_os st_os set_errno errno].
    destruct E as [(-> & E)|(-> & E & _)]; [left|right]; split; auto. intros P. apply E. split; [exact P|]. destruct P as (k & Hk & ->). pose proof (Z.pow_pos_nonneg 2 k). lia.
  - intros (P & _ & H). apply wp_run_ret. split; [exact P|exact H].
Qed.
Lemma pow2_page : pow2 4096. Proof. exists 12. split; [lia|reflexivity]. Qed.
Lemma valloc_wp g tid s LL n : ready g s LL -> ra_leftover (st_ra s) = false -> 0 <= n < 2 ^ 64 ->
  wp (run (h_valloc g tid n)) s (fun r s' =>
     match r with
     | None => anone g s LL s' /\ errno (st_os s') = ENOMEM
     | Some p => al_ok g s LL s' 4096 n p
     end) (api_fault g s).
Proof.
  intros R Le Hn. eapply wp_mono; [apply (simple_wp g tid s LL 4096 n R Le Hn); lia| |auto]. intros [p|] s'; [auto|]. intros (A & [[_ E]|[E _]]); [elim E; apply pow2_page|auto].
Qed.
Lemma page_align_zero n : 0 <= n < 2 ^ 64 -> page_align n = 0 <-> n = 0 \/ 2 ^ 64 - 4096 < n.
Proof.
  intros Hn. destruct (Z_le_gt_dec n (2 ^ 64 - 4096)) as [L|L].
  - rewrite page_align_small by lia. assert ((n + 4095) / 4096 = 0 <-> n = 0); [|lia]. split; [|intros ->; reflexivity]. intros H. pose proof (Z.div_mod (n + 4095) 4096 ltac:(lia)). pose proof (Z.mod_pos_bound (n + 4095) 4096 ltac:(lia)). lia.
  - rewrite page_align_eq by auto. unfold w64. replace (n + 4095) with (n + 4095 - 2 ^ 64 + 1 * 2 ^ 64) by lia. rewrite Z.mod_add by lia. rewrite Z.mod_small by (change (2 ^ 64) with 18446744073709551616 in *; lia). rewrite Z.div_small by (change (2 ^ 64) with 18446744073709551616 in *; lia). lia.
Qed.
Lemma page_align_ge n : 0 <= n < 2 ^ 64 -> page_align n <> 0 -> n <= page_align n < 2 ^ 64 /\ page_align n mod 4096 = 0 /\ page_align n < n + 4096.
Proof.
  intros Hn Z. destruct (Z_le_gt_dec n (2 ^ 64 - 4096)) as [L|L]; [|elim Z; apply page_align_zero; lia].
  rewrite page_align_small by lia. rewrite Z.mod_mul by lia. pose proof (Z.div_mod (n + 4095) 4096 ltac:(lia)). pose proof (Z.mod_pos_bound (n + 4095) 4096 ltac:(lia)).
  assert ((n + 4095) / 4096 * 4096 < 2 ^ 64); [|lia].
  assert ((n + 4095) / 4096 <= (2 ^ 64 - 1) / 4096) as D by (apply Z.div_le_mono; lia). change ((2 ^ 64 - 1) / 4096) with 4503599627370495 in D. change (2 ^ 64) with 18446744073709551616. lia.
Qed.
Lemma pvalloc_wp g tid s LL n : ready g s LL -> ra_leftover (st_ra s) = false -> 0 <= n < 2 ^ 64 ->
  wp (run (h_pvalloc g tid n)) s (fun r s' =>
     match r with
     | None => anone g s LL s' /\ errno (st_os s') = ENOMEM
     | Some p => page_align n <> 0 /\ al_ok g s LL s' 4096 (page_align n) p
     end) (fun f => api_fault g s f /\ page_align n <> 0).
Proof.
  intros R Le Hn. unfold h_pvalloc. destruct (Z.eqb_spec (page_align n) 0) as [E|E].
  - unfold set_errno_to. apply wp_run_pbind, wp_run_act. unfold on_os. apply wp_zoom, wp_modify, wp_run_ret. split; [|reflexivity]. apply anone_errno, anone_refl; auto.
  - destruct (page_align_ge n Hn E) as (B & _). eapply wp_mono; [apply (simple_wp g tid s LL 4096 (page_align n) R Le); lia| |auto]. intros [p|] s'; [auto|]. intros (A & [[_ X]|[X _]]); [elim X; apply pow2_page|auto].
Qed.

(** ** the invariant *)
Definition exact_size (g : config) (c : op) (n : Z) : Prop :=
  match c with
  | OMalloc m => n = grant g (adjust_size_for_canary g m)
  | OCalloc a b => n = grant g (adjust_size_for_canary g (a * b))
  | _ => True
  end.
Record linv (g : config) (t : trace) (s : state) (LL : regs) : Prop := {
  li_ready : ready g s LL;
  li_live : forall p, (exists n, block g s LL p n) <-> is_live t p;
  li_nd : NoDup (map fst (live t));
  li_blk : forall p c, In (p, c) (live t) -> exists n, block g s LL p n /\ request c <= n /\ exact_size g c n /\ (overaligned g c \/ big g LL p) /\ p mod 16 = 0 /\ p mod alignment c = 0 /\ 0 < p
}.
Lemma forget_In p l q c : In (q, c) (forget p l) <-> In (q, c) l /\ q <> p.
Proof. unfold forget. rewrite filter_In. cbn. rewrite negb_true_iff, Z.eqb_neq. tauto. Qed.
Lemma forget_NoDup p l : NoDup (map fst l) -> NoDup (map fst (forget p l)).
Proof.
  induction l as [|[q c] l IH]; cbn; [auto|]. intros H. inversion H as [|x y H1 H2]; subst. destruct (q =? p); cbn; [auto|]. constructor; [|auto].
  intros X. apply H1. apply in_map_iff in X. destruct X as ([q' c'] & E & X). cbn in E. subst q'. apply forget_In in X. apply in_map_iff. exists (q, c'). tauto.
Qed.
Lemma live_ptr t p : is_live t p <-> In p (map fst (live t)).
Proof. unfold is_live. split; [intros (c & H); apply in_map_iff; exists (p, c); auto|]. intros H. apply in_map_iff in H. destruct H as ([q c] & <- & H). exists c. exact H. Qed.
Lemma ready_block g s LL p n : ready g s LL -> block g s LL p n -> hinv g s LL.
Proof. intros [H|H] B; [auto|]. elim (idle_block _ _ _ _ _ H B). Qed.
Lemma big_keep g s LL s' LL' p n : ready g s LL -> ready g s' LL' -> sited s s' -> block g s LL p n -> block g s' LL' p n -> big g LL p -> big g LL' p.
Proof.
  intros R R' ST B B' G sz gd Hin. pose proof (ready_block _ _ _ _ _ R B) as HI. pose proof (ready_block _ _ _ _ _ R' B') as HI'.
  destruct (ST (hinv_init _ _ _ HI)) as (E1 & E2 & _). destruct (region_p g s' LL' [] (hi_inv _ _ _ HI') _ Hin) as (P & _). cbn in P.
  assert (in_slab_region p s' = false) as N by (apply (region_not_slab g s' LL' [] (hi_inv _ _ _ HI') _ Hin); cbn; lia).
  assert (in_slab_region p s = false) as N2 by (unfold in_slab_region in *; rewrite E1, E2 in N; exact N).
  assert (sz = n) as -> by (eapply (block_fun g s' LL' [] (hi_inv _ _ _ HI')); [right; exists gd; exact Hin|exact B']).
  destruct (large_block _ _ _ _ _ HI N2 B) as (gd' & H). apply (G _ _ H).
Qed.
Lemma linv_step g t s LL e s' LL' rm add : linv g t s LL -> ready g s' LL' -> sited s s' ->
  hstep g s LL s' LL' rm (match add with Some (p, _, m) => Some (p, m) | None => None end) ->
  live (e :: t) = match add with Some (p, c, _) => [(p, c)] | None => [] end ++ match rm with Some p => forget p (live t) | None => live t end ->
  (forall p c m, add = Some (p, c, m) -> request c <= m /\ exact_size g c m /\ (overaligned g c \/ big g LL' p) /\ p mod 16 = 0 /\ p mod alignment c = 0) ->
  linv g (e :: t) s' LL'.
Proof.
  intros [R L N K] R' ST HS EL HA.
  assert (forall p c, In (p, c) (match rm with Some p => forget p (live t) | None => live t end) <-> In (p, c) (live t) /\ rm <> Some p) as RM.
  { intros p c. destruct rm as [q|]; [rewrite forget_In|]; split; try tauto; [intros [H1 H2]; split; [auto|congruence]|intros [H1 H2]; split; [auto|congruence]|intros H; split; [auto|discriminate]]. }
  assert (forall p, is_live (e :: t) p <-> (is_live t p /\ rm <> Some p) \/ exists c m, add = Some (p, c, m)) as IL.
  { intros p. unfold is_live. rewrite EL. split.
    - intros (c & H). apply in_app_iff in H. destruct H as [H|H]; [|apply RM in H; left; split; [exists c|]; tauto]. destruct add as [[[q c'] m]|]; [|destruct H]. destruct H as [[= -> ->]|[]]. right. exists c, m. reflexivity.
    - intros [[(c & H) NE]|(c & m & ->)].
      + exists c. apply in_app_iff. right. apply RM. auto.
      + exists c. left. reflexivity. }
  constructor; auto.
  - intros p. rewrite IL, <- L. split.
    + intros (n & B). apply HS in B. destruct B as [[B NE]|B]; [left; split; [exists n; auto|auto]|]. right. destruct add as [[[q c] m]|]; [|discriminate]. injection B as -> ->. exists c, n. reflexivity.
    + intros [[(n & B) NE]|(c & m & ->)]; [exists n|exists m]; apply HS; [left; auto|right; reflexivity].
  - rewrite EL. assert (NoDup (map fst (match rm with Some p => forget p (live t) | None => live t end))) as N1 by (destruct rm; [apply forget_NoDup|]; exact N).
    destruct add as [[[q c] m]|]; [|exact N1]. cbn [app map fst]. constructor; [|exact N1]. intros X. apply in_map_iff in X. destruct X as ([q' c'] & E & X). cbn in E. subst q'. apply RM in X. destruct X as [X NE].
    assert (is_live t q) as LQ by (exists c'; exact X). apply L in LQ. destruct LQ as (n & B). apply NE. apply (hs_new _ _ _ _ _ _ _ HS q m n eq_refl B).
  - intros p c H. rewrite EL in H. apply in_app_iff in H. destruct H as [H|H].
    + destruct add as [[[q c'] m]|]; [|destruct H]. destruct H as [[= -> ->]|[]]. destruct (HA p c m eq_refl) as (A1 & A2 & A3 & A4 & A5). exists m.
      assert (block g s' LL' p m) as B by (apply HS; right; reflexivity). pose proof (ready_block _ _ _ _ _ R' B) as HI'. pose proof (block_bounds g s' LL' [] (hi_inv _ _ _ HI') p m B). repeat split; auto. lia.
    + apply RM in H. destruct H as [H NE]. destruct (K p c H) as (n & B & K1 & K2 & K3 & K4). exists n. assert (block g s' LL' p n) as B' by (apply HS; left; auto).
      split; [exact B'|]. split; [exact K1|]. split; [exact K2|]. split; [|exact K4]. destruct K3 as [K3|K3]; [auto|right]. exact (big_keep g s LL s' LL' p n R R' ST B B' K3).
Qed.

(** ** one call *)
(** the block a call gives up and the block it creates *)
Definition evrm (c : op) (a : ans) : option Z :=
  match c, a with
  | ORealloc old _, APtr _ => if old =? 0 then None else Some old
  | OFree p, AUnit | OFreeSized p _, AUnit => if p =? 0 then None else Some p
  | _, _ => None
  end.
Definition evadd (c : op) (a : ans) (m : Z) : option (Z * Z) := match a with APtr q => if allocates c then Some (q, m) else None | _ => None end.
Record stepped (g : config) (t : trace) (s : state) (LL : regs) (tid : Z) (c : op) (a : ans) (s' : state) (LL' : regs) : Prop := {
  sp_inv : linv g (mkEv tid c a :: t) s' LL';
  sp_keep : forall p n, block g s LL p n -> keeps c a p -> block g s' LL' p n;
  sp_mem : forall p n x, block g s LL p n -> keeps c a p -> p <= x < p + n -> stores c <> Some x -> mem (st_os s') x = mem (st_os s) x;
  sp_steady : steady g s -> store_ok (own_store g) (live t) s c -> steady g s';
  sp_cls : stores c = None -> exists m, hcls g s s' (evrm c a) (evadd c a m);
  sp_store : forall x, stores c = Some x -> a = AUnit /\ st_cls s' = st_cls s /\ later (st_os s) (st_os s') /\ is_init s' = is_init s /\ forall y, y <> x -> mem (st_os s') y = mem (st_os s) y;
  sp_base : rl_base LL' = rl_base LL;
  sp_guard : forall r, In r (rl_own LL') -> In r (rl_own LL) \/ guard_ok g (rg_size r) (rg_guard r) \/ evrm c a = Some (rg_p r) /\ exists n, In (mkRegion (rg_p r) n (rg_guard r)) (rl_own LL)
}.
Lemma ready_open g s LL : ready g s LL -> rl_open LL = [].
Proof. intros [H|H]; [apply H|]. rewrite (id_regs _ _ _ H). reflexivity. Qed.
Lemma hstep_guard g s LL s' LL' rm add : ready g s LL -> hstep g s LL s' LL' rm add -> forall r, In r (rl_own LL') -> In r (rl_own LL) \/ guard_ok g (rg_size r) (rg_guard r) \/ rm = Some (rg_p r) /\ exists n, In (mkRegion (rg_p r) n (rg_guard r)) (rl_own LL).
Proof. intros R HS r Hr. destruct (proj2 (hs_guard _ _ _ _ _ _ _ HS (ready_open _ _ _ R)) r Hr) as [X|(_ & X)]; tauto. Qed.
Lemma forget_absent p l : ~ In p (map fst l) -> forget p l = l.
Proof.
  intros H. unfold forget. induction l as [|[q c] l IH]; cbn in *; [reflexivity|]. destruct (Z.eqb_spec q p); [elim H; auto|]. cbn. f_equal. auto.
Qed.
Lemma linv_zero g t s LL : linv g t s LL -> forget 0 (live t) = live t.
Proof.
  intros L. apply forget_absent. intros H. apply in_map_iff in H. destruct H as ([p c] & E & H). cbn in E. subst p. destruct (li_blk _ _ _ _ L _ _ H) as (n & _ & _ & _ & _ & _ & _ & N). lia.
Qed.
Lemma step_new g t s LL tid c p s' LL' m : linv g t s LL -> sited s s' -> allocates c = true -> (forall old n, c = ORealloc old n -> old = 0) -> ares g s LL s' LL' p m ->
  request c <= m -> exact_size g c m -> (overaligned g c \/ big g LL' p) -> p mod 16 = 0 -> p mod alignment c = 0 -> stepped g t s LL tid c (APtr p) s' LL'.
Proof.
  intros LI ST AL RO [A1 A2 A3 A4] H1 H2 H3 H4 H5. constructor.
  - apply (linv_step g t s LL _ s' LL' None (Some (p, c, m)) LI (or_introl A1) ST A2); [|intros p0 c0 m0 [= <- <- <-]; auto].
    destruct c; try discriminate; cbn [live after e_op e_ans allocates app]; try reflexivity. rewrite (RO _ _ eq_refl), (linv_zero _ _ _ _ LI). reflexivity.
  - intros q n B _. apply A2. left. split; [auto|discriminate].
  - intros q n x B _ Hx _. eapply (hs_mem _ _ _ _ _ _ _ A2); eauto. discriminate.
  - intros S _ _. auto.
  - intros _. exists m. pose proof (hs_cls _ _ _ _ _ _ _ A2) as HC. unfold evadd. rewrite AL. replace (evrm c (APtr p)) with (@None Z); [exact HC|]. destruct c; try reflexivity. cbn. rewrite (RO _ _ eq_refl). reflexivity.
  - intros x Hx. destruct c; discriminate.
  - apply (hs_base _ _ _ _ _ _ _ A2).
  - intros r Hr. destruct (hstep_guard _ _ _ _ _ _ _ (li_ready _ _ _ _ LI) A2 r Hr) as [K|[K|([=] & _)]]; auto.
Qed.
Lemma step_none g t s LL tid c a s' : linv g t s LL -> sited s s' -> (allocates c = true /\ forall p, a <> APtr p) -> anone g s LL s' -> stepped g t s LL tid c a s' LL.
Proof.
  intros LI ST (AL & NA) [A1 A2 A3 A4]. constructor.
  - apply (linv_step g t s LL _ s' LL None None LI A1 ST A2); [|discriminate]. cbn [live after e_op e_ans app]. destruct c; try discriminate; destruct a; try reflexivity; elim (NA _ eq_refl).
  - intros q n B _. apply A2. left. split; [auto|discriminate].
  - intros q n x B _ Hx _. eapply (hs_mem _ _ _ _ _ _ _ A2); eauto. discriminate.
  - intros S _. auto.
  - intros _. exists 0. replace (evrm c a) with (@None Z) by (destruct c; try reflexivity; try discriminate; destruct a; try reflexivity; elim (NA _ eq_refl)).
    replace (evadd c a 0) with (@None (Z * Z)) by (destruct a; try reflexivity; elim (NA _ eq_refl)). apply (hs_cls _ _ _ _ _ _ _ A2).
  - intros x Hx. destruct c; discriminate.
  - reflexivity.
  - auto.
Qed.
Lemma step_freed g t s LL tid c s' LL' p n : linv g t s LL -> sited s s' -> (c = OFree p \/ exists n, c = OFreeSized p n) -> freed g s LL s' LL' p n -> stepped g t s LL tid c AUnit s' LL'.
Proof.
  intros LI ST Hc [F1 F2 F3 F4 F5 F6]. assert (releases c = Some p) as RC by (destruct Hc as [->|(m & ->)]; reflexivity). constructor.
  - apply (linv_step g t s LL _ s' LL' (Some p) None LI (or_introl F2) ST F3); [|discriminate]. destruct Hc as [->|(m & ->)]; reflexivity.
  - intros q k B [K|K]; [|discriminate]. apply F3. left. split; [auto|congruence].
  - intros q k x B [K|K] Hx _; [|discriminate]. eapply (hs_mem _ _ _ _ _ _ _ F3); eauto. congruence.
  - intros S _ _. apply (hs_clean _ _ _ _ _ _ _ F3). apply S. apply (hinv_init _ _ _ (ready_block _ _ _ _ _ (li_ready _ _ _ _ LI) F1)).
  - intros _. exists 0. pose proof (block_bounds g s LL [] (hi_inv _ _ _ (ready_block _ _ _ _ _ (li_ready _ _ _ _ LI) F1)) p n F1) as (P0 & _).
    assert (evrm c AUnit = Some p) as -> by (destruct Hc as [->|(m & ->)]; cbn; replace (p =? 0) with false by lia; reflexivity). apply (hs_cls _ _ _ _ _ _ _ F3).
  - intros x Hx. destruct Hc as [->|(m & ->)]; discriminate.
  - apply (hs_base _ _ _ _ _ _ _ F3).
  - intros r Hr. destruct (hstep_guard _ _ _ _ _ _ _ (li_ready _ _ _ _ LI) F3 r Hr) as [K|[K|(K & _)]]; [auto|auto|]. injection K as ->. exfalso.
    assert (block g s' LL' (rg_p r) (rg_size r)) as B by (right; exists (rg_guard r); destruct r; exact Hr). apply F3 in B. destruct B as [[_ B]|B]; [elim B; reflexivity|discriminate].
Qed.
Lemma step_move g t s LL tid old n q s' LL' m : linv g t s LL -> sited s s' -> hinv g s LL -> hinv g s' LL' -> hstep g s LL s' LL' (Some old) (Some (q, m)) -> n <= m -> big g LL' q -> q mod 16 = 0 -> 0 < old ->
  stepped g t s LL tid (ORealloc old n) (APtr q) s' LL'.
Proof.
  intros LI ST HI HI' HS H1 H2 H3 P0. constructor.
  - apply (linv_step g t s LL _ s' LL' (Some old) (Some (q, ORealloc old n, m)) LI (or_introl HI') ST HS); [reflexivity|]. intros p0 c0 m0 [= <- <- <-]. cbn. auto.
  - intros p k B [K|K]; [|discriminate]. apply HS. left. split; [auto|]. exact K.
  - intros p k x B [K|K] Hx _; [|discriminate]. eapply (hs_mem _ _ _ _ _ _ _ HS); eauto.
  - intros S _ _. apply (hs_clean _ _ _ _ _ _ _ HS). apply S. apply (hinv_init _ _ _ HI).
  - intros _. exists m. cbn. replace (old =? 0) with false by lia. apply (hs_cls _ _ _ _ _ _ _ HS).
  - intros x Hx. discriminate.
  - apply (hs_base _ _ _ _ _ _ _ HS).
  - intros r Hr. cbn. replace (old =? 0) with false by lia. apply (hstep_guard _ _ _ _ _ _ _ (li_ready _ _ _ _ LI) HS r Hr).
Qed.
(** calls that change nothing the program can see *)
Lemma step_quiet g t s LL tid c a s' : linv g t s LL -> sited s s' -> live (mkEv tid c a :: t) = live t -> ready g s' LL -> hstep g s LL s' LL None None -> is_init s' = is_init s ->
  evrm c a = None -> (forall m, evadd c a m = None) -> stores c = None -> stepped g t s LL tid c a s' LL.
Proof.
  intros LI ST EL R HS EI E1 E2 E3. constructor.
  - apply (linv_step g t s LL _ s' LL None None LI R ST HS); [exact EL|discriminate].
  - intros q n B _. apply HS. left. split; [auto|discriminate].
  - intros q n x B _ Hx _. eapply (hs_mem _ _ _ _ _ _ _ HS); eauto. discriminate.
  - intros S _ Ii. apply (hs_clean _ _ _ _ _ _ _ HS). apply S. congruence.
  - intros _. exists 0. rewrite E1, E2. apply (hs_cls _ _ _ _ _ _ _ HS).
  - intros x Hx. congruence.
  - reflexivity.
  - auto.
Qed.
Lemma wp_pmap {S A B} (f : A -> B) (p : prog S A) s (Q : B -> S -> Prop) E : wp (run p) s (fun a s' => Q (f a) s') E -> wp (run (pmap f p)) s Q E.
Proof. intros H. unfold pmap. apply wp_run_pbind. eapply wp_mono; [exact H| |auto]. intros a s' K. apply wp_run_ret. exact K. Qed.
Lemma wp_and {S A} (m : M S A) s (P Q : A -> S -> Prop) (E : fault -> Prop) : wp m s P E -> wp m s Q anyf -> wp m s (fun a s' => P a s' /\ Q a s') E.
Proof. unfold wp. destruct (m s) as [[a s']|f]; auto. Qed.
Lemma same_init s s' : same_place s s' -> is_init s' = is_init s.
Proof. intros SP. unfold is_init. rewrite (sp_end _ _ SP). reflexivity. Qed.
Lemma usable_block g s LL p n : ready g s LL -> 0 < p < 2 ^ 64 -> usable_size g s p n -> block g s LL p n.
Proof.
  intros R Hp (s' & H). pose proof (usable_wp g s LL p R ltac:(lia)) as W. unfold wp in W. rewrite H in W. destruct W as (_ & W). replace (p =? 0) with false in W by lia. apply W.
Qed.
Lemma own_block g t s LL x : linv g t s LL -> own_store g (live t) s x -> exists p n, block g s LL p n /\ p <= x < p + n.
Proof.
  intros LI (p & c & n & H1 & H2 & H3). exists p, n. split; [|exact H3]. destruct (li_blk _ _ _ _ LI _ _ H1) as (m & B & _). pose proof (ready_block _ _ _ _ _ (li_ready _ _ _ _ LI) B) as HI.
  destruct (block_bounds g s LL [] (hi_inv _ _ _ HI) p m B) as (P1 & P2 & P3). apply usable_block; auto; [apply (li_ready _ _ _ _ LI)|]. change (2 ^ 48) with 281474976710656 in *. change (2 ^ 64) with 18446744073709551616. lia.
Qed.
Definition okq (g : config) (t : trace) (s : state) (LL : regs) (tid : Z) (c : op) (a : ans) (s' : state) : Prop := exists LL', stepped g t s LL tid c a s' LL'.
Lemma al_step g t s LL tid c s' p al n : linv g t s LL -> sited s s' -> allocates c = true -> (forall old n, c <> ORealloc old n) -> al_ok g s LL s' al n p -> alignment c = al -> request c <= n -> exact_size g c 0 ->
  (exact_size g c 0 -> forall m, exact_size g c m) -> (n + canary_size g <= max_slab_size_class g -> 4096 < al -> overaligned g c) -> okq g t s LL tid c (APtr p) s'.
Proof.
  intros LI ST AL NR (_ & LL' & u & A & H1 & H2 & H3 & H4) E1 E2 X0 X OV. exists LL'. eapply step_new; eauto.
  - intros old k ->. elim (NR old k eq_refl).
  - lia.
  - destruct H4 as [[H4 H5]|H4]; [left; auto|right; auto].
  - rewrite E1. exact H2.
Qed.
Theorem op_step g t s LL tid c : linv g t s LL -> table_cleared s -> words c -> permitted g (live t) c ->
  wp (run (op_run g tid c)) s (okq g t s LL tid c) anyf.
Proof.
  intros LI TC WD PM. pose proof (li_ready _ _ _ _ LI) as R.
  assert (wp (run (op_run g tid c)) s (fun a s' => sited s s' -> okq g t s LL tid c a s') anyf) as W.
  2:{ eapply wp_mono; [apply (wp_and _ _ _ _ _ W (op_sited g tid c s))| |auto]. intros a s' [H1 H2]. auto. }
  destruct c; cbn [op_run words permitted] in *; apply wp_pmap.
  - eapply wp_mono; [apply (malloc_wp g tid s LL n R TC WD)| |intros f _; exact I]. intros [p|] s'; cbn [ans_ptr]; intros H ST.
    + destruct H as (LL' & m & A & H1 & H2 & H3 & H4). exists LL'. eapply step_new; eauto; try (intros; discriminate); cbn; auto.
    + exists LL. apply step_none; auto; [|apply H]. split; [reflexivity|intros; discriminate].
  - destruct WD as [WD1 WD2]. eapply wp_mono; [apply (calloc_wp g tid s LL nmemb n R TC WD1 WD2)| |intros f _; exact I]. intros [p|] s'; cbn [ans_ptr]; intros H ST.
    + destruct H as (_ & LL' & m & A & H1 & H2 & H3 & H4 & _). exists LL'. eapply step_new; eauto; try (intros; discriminate); cbn; auto.
    + exists LL. apply step_none; auto; [|apply H]. split; [reflexivity|intros; discriminate].
  - destruct WD as [WD1 WD2]. destruct PM as [->|(b & Hb & NO)].
    + change (h_realloc g tid 0 n) with (h_malloc g tid n). eapply wp_mono; [apply (malloc_wp g tid s LL n R TC WD2)| |intros f _; exact I]. intros [p|] s'; cbn [ans_ptr]; intros H ST.
      * destruct H as (LL' & m & A & H1 & H2 & H3 & H4). exists LL'. eapply step_new; eauto; try (intros old k [= <- <-]; reflexivity); cbn; auto.
      * exists LL. apply step_none; auto; [|apply H]. split; [reflexivity|intros; discriminate].
    + destruct (li_blk _ _ _ _ LI _ _ Hb) as (n0 & B & _ & _ & G & _ & _ & P0). destruct G as [G|G]; [contradiction|]. pose proof (ready_block _ _ _ _ _ R B) as HI.
      unfold word in *. eapply wp_mono; [apply (realloc_wp g tid s LL p n0 n HI TC WD2 ltac:(lia) B G)| |intros f _; exact I]. intros [q|] s'; cbn [ans_ptr]; intros H ST.
      * destruct H as (LL' & m & H1 & H2 & H3 & H4 & H5 & _). exists LL'. eapply step_move; eauto.
      * exists LL. apply step_none; auto; [|apply H]. split; [reflexivity|intros; discriminate].
  - destruct WD as [WD1 WD2]. eapply wp_mono; [apply (aligned_wp g tid s LL al n 8 R TC WD2 WD1 ltac:(lia))| |intros f _; exact I]. intros [e|p] s'; cbn [ans_code]; intros H ST.
    + exists LL. apply step_none; auto; [|apply H]. split; [reflexivity|intros; discriminate].
    + destruct H as (H1 & _ & H2). eapply (al_step g t s LL tid _ s' p al n); eauto; try reflexivity; try discriminate; try (cbn; auto; lia). 
      * split; auto.
      * intros H3 H4. split; auto.
  - destruct WD as [WD1 WD2]. eapply wp_mono; [apply (simple_wp g tid s LL al n R TC WD2 WD1)| |intros f _; exact I]. intros [p|] s'; cbn [ans_ptr]; intros H ST.
    + eapply (al_step g t s LL tid _ s' p al n); eauto; try reflexivity; try discriminate; try (cbn; auto; lia). intros H3 H4. split; auto.
    + exists LL. apply step_none; auto; [|apply H]. split; [reflexivity|intros; discriminate].
  - destruct WD as [WD1 WD2]. eapply wp_mono; [apply (simple_wp g tid s LL al n R TC WD2 WD1)| |intros f _; exact I]. intros [p|] s'; cbn [ans_ptr]; intros H ST.
    + eapply (al_step g t s LL tid _ s' p al n); eauto; try reflexivity; try discriminate; try (cbn; auto; lia). intros H3 H4. split; auto.
    + exists LL. apply step_none; auto; [|apply H]. split; [reflexivity|intros; discriminate].
  - eapply wp_mono; [apply (valloc_wp g tid s LL n R TC WD)| |intros f _; exact I]. intros [p|] s'; cbn [ans_ptr]; intros H ST.
    + eapply (al_step g t s LL tid _ s' p 4096 n); eauto; try reflexivity; try discriminate; try (cbn; auto; lia).
    + exists LL. apply step_none; auto; [|apply H]. split; [reflexivity|intros; discriminate].
  - eapply wp_mono; [apply (pvalloc_wp g tid s LL n R TC WD)| |intros f _; exact I]. intros [p|] s'; cbn [ans_ptr]; intros H ST.
    + destruct H as [N H]. eapply (al_step g t s LL tid _ s' p 4096 (page_align n)); eauto; try reflexivity; try discriminate; try (cbn; auto; lia). cbn. destruct (page_align_ge n WD N). lia.
    + exists LL. apply step_none; auto; [|apply H]. split; [reflexivity|intros; discriminate].
  - eapply wp_mono; [apply (free_wp g s LL p R WD)| |intros f _; exact I]. intros [] s' H ST. destruct (Z.eqb_spec p 0) as [->|N].
    + subst s'. exists LL. apply step_quiet; auto; try reflexivity; [|apply hstep_refl]. cbn. apply (linv_zero _ _ _ _ LI).
    + destruct H as (LL' & k & F & _). exists LL'. eapply step_freed; eauto.
  - destruct WD as [WD1 WD2]. eapply wp_mono; [apply (free_sized_wp g s LL p n R WD1 WD2)| |intros f _; exact I]. intros [] s' H ST. destruct (Z.eqb_spec p 0) as [->|N].
    + subst s'. exists LL. apply step_quiet; auto; try reflexivity; [|apply hstep_refl]. cbn. apply (linv_zero _ _ _ _ LI).
    + destruct H as (LL' & k & F & _). exists LL'. eapply step_freed; eauto.
  - eapply wp_mono; [apply (usable_wp g s LL p R WD)| |intros f _; exact I]. intros r s' (SE & _) ST. exists LL. apply step_quiet; auto; try reflexivity; [apply SE|apply SE|apply same_init, SE].
  - eapply wp_mono; [apply (object_wp g s LL p R WD)| |intros f _; exact I]. intros r s' (SE & _) ST. exists LL. apply step_quiet; auto; try reflexivity; [apply SE|apply SE|apply same_init, SE].
  - eapply wp_mono; [apply (object_fast_wp g s LL p R WD)| |intros f _; exact I]. intros r s' (-> & _) ST. exists LL. apply step_quiet; auto; try reflexivity. apply hstep_refl.
  - eapply wp_mono; [apply (trim_all_wp g s LL R)| |intros f _; exact I]. intros r s' TR ST. exists LL. apply step_quiet; auto; try reflexivity; [apply TR|apply TR|apply same_init, TR].
  - eapply wp_mono; [apply (store_wp g s LL x v R)| |intros f _; exact I]. intros r s' (R' & E & RW) ST. exists LL. 
    assert (forall p n, block g s LL p n <-> block g s' LL p n) as BE by (intros p n; subst s'; symmetry; apply block_ext; reflexivity).
    constructor.
    + destruct LI as [L1 L2 L3 L4]. constructor; auto.
      * intros p. change (is_live (mkEv tid (OWrite x v) AUnit :: t) p) with (is_live t p). rewrite <- L2. split; intros (n & B); exists n; apply BE; exact B.
      * intros p c Hc. destruct (L4 p c Hc) as (n & B & K). exists n. split; [apply BE; exact B|exact K].
    + intros p n B _. apply BE, B.
    + intros p n y B _ Hy NS. rewrite E. cbn [set_st_os st_os set_mem mem]. unfold fupd. destruct (Z.eqb_spec y x) as [->|]; [elim NS; reflexivity|reflexivity].
    + intros S OS Ii. assert (is_init s = true) as Ii' by (rewrite E in Ii; exact Ii). specialize (S Ii'). pose proof (ready_hinv _ _ _ R Ii') as HI.
      destruct (own_block g t s LL x LI OS) as (p & n & B & Hx). rewrite E. eapply clean_poke; [apply HI| |exact S]. cbn [set_mem mem]. intros y Hy. unfold fupd in Hy.
      exists p, n. split; [exact B|]. destruct (Z.eqb_spec y x) as [EQ|NE]; [lia|elim Hy; reflexivity].
    + discriminate.
    + intros x0 [= <-]. destruct r. subst s'. split; [auto|]. split; [reflexivity|]. split; [split; [reflexivity|apply le_n]|]. split; [reflexivity|].
      intros y Hy. cbn [set_st_os st_os set_mem mem]. unfold fupd. destruct (Z.eqb_spec y x) as [->|]; [contradiction|reflexivity].
    + reflexivity.
    + auto.
Qed.
