(** Counting for bounded draws, and the use-once property of the keystream. *)
From Coq Require Import String ZArith List Bool Lia ZifyBool.
From Verif Require Import M_Base M_OS M_Chacha M_Random S_Chacha S_Random P_Base P_SizeClass P_Chacha P_Random.
Import ListNotations.
Open Scope Z_scope.

Lemma count_below_ext P Q n : (forall x, 0 <= x < Z.of_nat n -> P x = Q x) -> count_below P n = count_below Q n.
Proof.
  induction n as [|n IH]; intros H; cbn [count_below]; [reflexivity|].
  rewrite IH by (intros; apply H; lia). rewrite H by lia. reflexivity.
Qed.
Lemma count_below_interval lo hi n : 0 <= lo <= hi -> 
  count_below (fun x => (lo <=? x) && (x <? hi)) n = Z.max 0 (Z.min hi (Z.of_nat n) - lo).
Proof.
  intros H. induction n as [|n IH]; cbn [count_below]; [lia|]. rewrite IH.
  destruct ((lo <=? Z.of_nat n) && (Z.of_nat n <? hi)) eqn:E; lia.
Qed.
Lemma count_interval P N lo hi : 0 <= lo <= hi -> hi <= N ->
  (forall x, 0 <= x < N -> P x = true <-> lo <= x < hi) -> count P N = hi - lo.
Proof.
  intros H HN HP. unfold count.
  rewrite (count_below_ext P (fun x => (lo <=? x) && (x <? hi))).
  - rewrite count_below_interval by lia. lia.
  - intros x Hx. specialize (HP x ltac:(lia)). destruct (P x); lia.
Qed.

Definition cdiv (a b : Z) : Z := (a + b - 1) / b.
Lemma cdiv_le a b x : 0 < b -> cdiv a b <= x <-> a <= x * b.
Proof.
  intros Hb. unfold cdiv. split; intros H.
  - assert ((a + b - 1) / b < x + 1) as H1 by lia.
    pose proof (Z.mul_succ_div_gt (a + b - 1) b Hb). nia.
  - apply Z.lt_succ_r. apply Z.div_lt_upper_bound; nia.
Qed.

Definition lemire_accept (N bound x : Z) : bool := N mod bound <=? (x * bound) mod N.
Definition lemire_value (N bound x : Z) : Z := x * bound / N.

Lemma lemire_count N b v : 0 < b <= N -> 0 <= v < b ->
  count (fun x => lemire_accept N b x && (lemire_value N b x =? v)) N = N / b.
Proof.
  intros Hb Hv.
  pose proof (Z.div_mod N b ltac:(lia)) as DN. pose proof (Z.mod_pos_bound N b ltac:(lia)) as BN.
  assert (cdiv ((v + 1) * N) b = cdiv (v * N + N mod b) b + N / b) as EC.
  { unfold cdiv. replace ((v + 1) * N + b - 1) with (v * N + N mod b + b - 1 + N / b * b) by lia.
    rewrite Z_div_plus_full by lia. reflexivity. }
  assert (0 <= N / b) by (apply Z.div_pos; lia).
  rewrite (count_interval _ _ (cdiv (v * N + N mod b) b) (cdiv ((v + 1) * N) b)).
  - lia.
  - split; [|lia]. unfold cdiv. apply Z.div_pos; [|lia]. assert (0 <= v * N) by (apply Z.mul_nonneg_nonneg; lia). lia.
  - apply cdiv_le; [lia|]. rewrite (Z.mul_comm N). apply Z.mul_le_mono_nonneg_r; lia.
  - intros x Hx. rewrite cdiv_le by lia.
    assert (cdiv ((v + 1) * N) b <= x <-> (v + 1) * N <= x * b) as C by (apply cdiv_le; lia).
    assert (x < cdiv ((v + 1) * N) b <-> x * b < (v + 1) * N) as -> by lia. clear C.
    unfold lemire_accept, lemire_value.
    pose proof (Z.div_mod (x * b) N ltac:(lia)) as D. pose proof (Z.mod_pos_bound (x * b) N ltac:(lia)) as B.
    set (q := x * b / N) in *. set (r := (x * b) mod N) in *. set (t := N mod b) in *.
    rewrite andb_true_iff, Z.leb_le, Z.eqb_eq. clearbody q r t. clear EC DN. split.
    + intros [H1 ->]. lia.
    + intros [H1 H2]. assert (q = v) by nia. split; nia.
Qed.

(** the generator as a partial function *)
Definition raw64 (s : rstate) : option (Z * rstate) :=
  match get_random_u64 s with Ok r => Some r | Fail _ => None end.
Definition raw16 (s : rstate) : option (Z * rstate) :=
  match get_random_u16 s with Ok r => Some r | Fail _ => None end.

Lemma bind_Ok {S A B} (m : M S A) (k : A -> M S B) s b s' :
  bind m k s = Ok (b, s') -> exists a s1, m s = Ok (a, s1) /\ k a s1 = Ok (b, s').
Proof. unfold bind. destruct (m s) as [[a s1]|f]; [|discriminate]. eauto. Qed.

Lemma raw_draws_app {S} (g : S -> option (Z * S)) s xs s1 ys s2 :
  raw_draws g s xs s1 -> raw_draws g s1 ys s2 -> raw_draws g s (xs ++ ys) s2.
Proof. induction 1; cbn; auto. intros. econstructor; eauto. Qed.

Lemma u64_loop_draws bound fu : forall x s m s', 0 < bound < 2 ^ 64 ->
  u64_reject_loop fu bound (u64_threshold bound) (x * bound) s = Ok (m, s') ->
  exists xs y, raw_draws raw64 s (tl (xs ++ [y])) s' /\ hd 0 (xs ++ [y]) = x /\
    Forall (fun z => lemire_accept (2 ^ 64) bound z = false) xs /\ lemire_accept (2 ^ 64) bound y = true /\ m = y * bound.
Proof.
  assert (forall x, 0 < bound < 2 ^ 64 -> (w64 (x * bound) <? u64_threshold bound) = negb (lemire_accept (2 ^ 64) bound x)) as E.
  { intros x H. rewrite u64_threshold_eq by auto. unfold lemire_accept, w64. lia. }
  induction fu as [|fu IH]; intros x s m s' Hb H; cbn [u64_reject_loop] in H; rewrite E in H by auto;
    destruct (lemire_accept (2 ^ 64) bound x) eqn:EA; cbn [negb] in H.
  - injection H as <- <-. exists [], x. cbn. repeat split; auto. constructor.
  - discriminate H.
  - injection H as <- <-. exists [], x. cbn. repeat split; auto. constructor.
  - apply bind_Ok in H. destruct H as (v & s1 & Ev & H). apply IH in H; [|auto].
    destruct H as (xs & y & D & Hh & F & A & ->). exists (x :: xs), y. cbn [app tl hd].
    repeat split; auto.
    destruct (xs ++ [y]) as [|z zs] eqn:EX; [destruct xs; discriminate|]. cbn in D, Hh. subst z.
    econstructor; [|exact D]. unfold raw64. now rewrite Ev.
Qed.

Lemma u64_uniform_draws bound s v s' : 0 < bound < 2 ^ 64 -> rng_ok (r_rng s) ->
  get_random_u64_uniform bound s = Ok (v, s') ->
  exists xs y, raw_draws raw64 s (xs ++ [y]) s' /\
    Forall (fun z => lemire_accept (2 ^ 64) bound z = false) xs /\ lemire_accept (2 ^ 64) bound y = true /\
    v = lemire_value (2 ^ 64) bound y.
Proof.
  intros Hb R H. unfold get_random_u64_uniform in H.
  apply bind_Ok in H. destruct H as (x & s1 & Ex & H).
  apply bind_Ok in H. destruct H as (m & s2 & Em & H). injection H as <- <-.
  pose proof (wp_Ok _ _ _ _ _ _ (get_random_u64_ok s R) Ex) as (Hx & R1 & _).
  assert (forall z, 0 <= z < 2 ^ 64 -> w64 (Z.shiftr (z * bound) 64) = lemire_value (2 ^ 64) bound z) as EV.
  { intros z Hz. unfold lemire_value. rewrite Z.shiftr_div_pow2 by lia. apply w64_small. split.
    - apply Z.div_pos; [apply Z.mul_nonneg_nonneg; lia | lia].
    - apply Z.div_lt_upper_bound; [lia|]. apply Z.mul_lt_mono_nonneg; lia. }
  destruct (w64 (x * bound) <? bound) eqn:EL.
  - unfold bind, get in Em. 
    pose proof (wp_Ok _ _ _ _ _ _ (u64_loop_ok bound Hb _ x s1 R1 Hx) Em) as ((yy & Hyy & _ & Emy) & _ & _).
    apply u64_loop_draws in Em; [|auto].
    destruct Em as (xs & y & D & Hh & F & A & ->).
    exists xs, y. repeat split; auto.
    + destruct (xs ++ [y]) as [|z zs] eqn:EX; [destruct xs; discriminate|]. cbn in D, Hh. subst z.
      econstructor; [|exact D]. unfold raw64. now rewrite Ex.
    + apply EV. apply Z.mul_reg_r in Emy; [subst; auto|lia].
  - injection Em as <- <-. exists [], x. cbn [app]. repeat split; auto.
    + econstructor; [|constructor]. unfold raw64. now rewrite Ex.
    + unfold lemire_accept, w64 in *. pose proof (Z.mod_pos_bound (2 ^ 64) bound ltac:(lia)). lia.
Qed.

(** the 16-bit function never redraws: it returns x * bound / 2^16 *)
Lemma u16_uniform_draws bound s v s' : 0 <= bound < 2 ^ 16 -> rng_ok (r_rng s) ->
  get_random_u16_uniform bound s = Ok (v, s') ->
  exists x, raw16 s = Some (x, s') /\ 0 <= x < 2 ^ 16 /\ v = lemire_value (2 ^ 16) bound x.
Proof.
  intros Hb R H. unfold get_random_u16_uniform in H. rewrite w16_small in H by lia.
  apply bind_Ok in H. destruct H as (x & s1 & Ex & H).
  pose proof (wp_Ok _ _ _ _ _ _ (get_random_u16_ok s R) Ex) as (Hx & R1 & _).
  change (2 ^ 16) with 65536 in *.
  rewrite w32_small in H by nia.
  apply bind_Ok in H. destruct H as (m & s2 & Em & H). injection H as <- <-.
  assert (m = x * bound /\ s2 = s1) as [-> ->].
  { destruct (w16 (x * bound) <? bound); [|now injection Em as <- <-].
    unfold bind, get in Em. rewrite u16_threshold_0 in Em.
    assert (w16 (x * bound) <? 0 = false) as F by (pose proof (w16_range (x * bound)); lia).
    destruct (fuel (r_os s1)); cbn [u16_reject_loop] in Em; rewrite F in Em; now injection Em as <- <-. }
  exists x. unfold raw16. rewrite Ex. split; [reflexivity|]. split; [lia|].
  unfold lemire_value. rewrite Z.shiftr_div_pow2 by lia. change (2 ^ 16) with 65536.
  apply w16_small. change (2 ^ 16) with 65536.
  assert (0 <= x * bound / 65536) by (apply Z.div_pos; nia).
  assert (x * bound / 65536 < 65536) by (apply Z.div_lt_upper_bound; nia). lia.
Qed.

Lemma u16_count b v : 0 < b <= 2 ^ 16 -> 0 <= v < b ->
  2 ^ 16 / b <= count (fun x => lemire_value (2 ^ 16) b x =? v) (2 ^ 16) <= 2 ^ 16 / b + 1.
Proof.
  intros Hb Hv. change (2 ^ 16) with 65536 in *. set (N := 65536) in *.
  assert (0 < N) by (unfold N; lia). clearbody N.
  rewrite (count_interval _ _ (cdiv (v * N) b) (cdiv ((v + 1) * N) b)).
  - unfold cdiv.
    pose proof (Z.div_mod N b ltac:(lia)) as DN. pose proof (Z.mod_pos_bound N b ltac:(lia)) as BN.
    set (q := N / b) in *. set (t := N mod b) in *.
    replace ((v + 1) * N + b - 1) with (v * N + b - 1 + t + q * b) by lia.
    rewrite Z_div_plus_full by lia. set (u := v * N + b - 1).
    pose proof (Z.div_le_mono u (u + t) b ltac:(lia) ltac:(lia)).
    pose proof (Z.div_le_mono (u + t) (u + 1 * b) b ltac:(lia) ltac:(lia)). rewrite Z_div_plus_full in H1 by lia. lia.
  - split.
    + unfold cdiv. apply Z.div_pos; nia.
    + unfold cdiv. apply Z.div_le_mono; nia.
  - apply cdiv_le; nia.
  - intros x Hx. rewrite cdiv_le by lia.
    assert (cdiv ((v + 1) * N) b <= x <-> (v + 1) * N <= x * b) as C by (apply cdiv_le; lia).
    assert (x < cdiv ((v + 1) * N) b <-> x * b < (v + 1) * N) as -> by lia. clear C.
    unfold lemire_value.
    pose proof (Z.div_mod (x * b) N ltac:(lia)) as D. pose proof (Z.mod_pos_bound (x * b) N ltac:(lia)) as B.
    set (q := x * b / N) in *. set (r := (x * b) mod N) in *.
    rewrite Z.eqb_eq. clearbody q r. split.
    + intros ->. lia.
    + intros [H1 H2]. nia.
Qed.


(** ** get_random_bytes *)
Lemma refill_ok s : rng_ok (r_rng s) ->
  wp refill s (fun _ s' => rng_ok (r_rng s') /\ rs_index (r_rng s') = 0 /\ os_rel (r_os s) (r_os s')) rng_fault.
Proof.
  intros (K & d & lo & R). eapply wp_mono; [eapply refill_wp; eassumption | | auto].
  intros _ s' (O & Hx & [(_ & _ & R')|(_ & _ & K' & R')]); (split; [eexists; eexists; eexists; eassumption|auto]).
Qed.
Lemma bytes_loop_ok : forall fu size buf s, rng_ok (r_rng s) -> 0 <= size <= Z.of_nat fu -> Forall (fun b => 0 <= b < 256) buf ->
  wp (random_bytes_loop fu size buf) s (fun l s' => rng_ok (r_rng s') /\ os_rel (r_os s) (r_os s') /\
     zlen l = zlen buf + size /\ Forall (fun b => 0 <= b < 256) l) rng_fault.
Proof.
  induction fu as [|fu IH]; intros size buf s R Hs F; cbn [random_bytes_loop].
  - destruct (Z.eqb_spec size 0); [|lia]. apply wp_ret. split; [exact R|]. split; [apply os_rel_refl|]. split; [lia|exact F].
  - destruct (Z.eqb_spec size 0).
    { apply wp_ret. split; [exact R|]. split; [apply os_rel_refl|]. split; [lia|exact F]. }
    apply wp_bind, wp_gets, wp_bind.
    eapply (wp_mono _ _ (fun _ s1 => rng_ok (r_rng s1) /\ rs_index (r_rng s1) < 256 /\ os_rel (r_os s) (r_os s1)) _ rng_fault).
    { unfold RANDOM_CACHE_SIZE. destruct (Z.eqb_spec (rs_index (r_rng s)) 256).
      - eapply wp_mono; [apply refill_ok; exact R | | auto]. intros _ s1 (R1 & E & O). split; [exact R1|]. split; [lia|exact O].
      - apply wp_ret. split; [exact R|]. split; [|apply os_rel_refl]. destruct R as (K & d & lo & R). pose proof (ra_idx _ _ _ _ R). lia. }
    2: auto.
    intros _ s1 (R1 & Hi & O1). apply wp_bind, wp_gets, wp_bind.
    destruct R1 as (K & d & lo & R1). pose proof (ra_idx _ _ _ _ R1) as Hi1.
    unfold RANDOM_CACHE_SIZE. rewrite (w64_small (256 - _)) by lia.
    set (m := Z.min size (256 - rs_index (r_rng s1))).
    destruct (take_wp K d lo m s1 R1 ltac:(lia) ltac:(lia)) as [E A]. unfold wp at 1. rewrite E.
    apply wp_bind, wp_modify.
    eapply wp_mono; [apply IH | | auto].
    + eexists; eexists; eexists. exact A.
    + lia.
    + apply Forall_app. split; [exact F | apply stream_bytes_range].
    + intros l s2 (R2 & O2 & L & F2). split; [exact R2|]. split; [eapply os_rel_trans; [exact O1|exact O2]|].
      split; [|exact F2]. rewrite L, zlen_app, stream_len by lia. lia.
Qed.
Lemma get_random_bytes_ok n s : rng_ok (r_rng s) -> 0 <= n ->
  wp (get_random_bytes n) s (fun l s' => rng_ok (r_rng s') /\ os_rel (r_os s) (r_os s') /\
     zlen l = n /\ Forall (fun b => 0 <= b < 256) l) rng_fault.
Proof.
  intros R Hn. unfold get_random_bytes. change (RANDOM_CACHE_SIZE / 2) with 128. destruct (Z.ltb_spec 128 n).
  - destruct R as (K & d & lo & R). apply wp_bind, wp_gets.
    pose proof R as R'. destruct R' as [ra_key0 ra_nonce0 ra_d0 ra_reseed0 ra_rmod0 ra_ctx0 ra_idx0 ra_len0 ra_cache0 ra_lo0].
    rewrite ra_ctx0, keystream_at by (first [assumption | lia]).
    apply wp_bind, wp_modify, wp_ret. cbn [r_rng r_os set_r_rng].
    split; [|split; [apply os_rel_refl|split; [apply stream_len; lia|apply stream_bytes_range]]].
    exists K, (d + (n + 63) / 64), lo. constructor; cbn [fst snd rs_reseed rs_ctx rs_index rs_cache].
    + exact ra_key0.
    + exact ra_nonce0.
    + lia.
    + lia.
    + lia.
    + f_equal. lia.
    + lia.
    + exact ra_len0.
    + exact ra_cache0.
    + lia.
  - eapply wp_mono; [apply bytes_loop_ok; [exact R | lia | constructor] | | auto].
    intros l s' (R' & O & L & F). rewrite zlen_nil in L. split; [exact R'|]. split; [exact O|]. split; [lia|exact F].
Qed.

(** seeding one generator from another *)
Lemma init_from_ok old s : rng_ok (r_rng s) -> zlen (rs_cache old) = 256 ->
  wp (random_state_init_from_random_state old) s (fun r s' => rng_ok r /\ rng_ok (r_rng s') /\ os_rel (r_os s) (r_os s')) rng_fault.
Proof.
  intros R L. unfold random_state_init_from_random_state. apply wp_bind.
  eapply wp_mono; [apply get_random_bytes_ok; [exact R | unfold CHACHA_KEY_SIZE, CHACHA_IV_SIZE; lia] | | auto].
  intros rnd s' (R' & O & Lr & F). apply wp_ret. split; [|split; [exact R'|exact O]].
  eexists; eexists; eexists. apply from_seed_at; [exact Lr|exact F|exact L].
Qed.

Lemma reachable_ok s : rng_reachable s -> rng_ok (r_rng s).
Proof.
  induction 1 as [s0 s L H|s r out s' H IH Hr E|s bound v s' H IH Hb E|s bound v s' H IH Hb E].
  - pose proof (wp_Ok _ _ _ _ _ _ (init_wp s0) H) as (_ & _ & rnd & Lr & F & ->).
    eexists; eexists; eexists. apply from_seed_at; assumption.
  - destruct r; cbn [do_request] in E.
    + apply bind_Ok in E. destruct E as (v & s1 & E & E1). injection E1 as _ <-.
      apply (wp_Ok _ _ _ _ _ _ (get_random_u16_ok s IH) E).
    + apply bind_Ok in E. destruct E as (v & s1 & E & E1). injection E1 as _ <-.
      apply (wp_Ok _ _ _ _ _ _ (get_random_u64_ok s IH) E).
    + apply (wp_Ok _ _ _ _ _ _ (get_random_bytes_ok n s IH Hr) E).
  - apply (wp_Ok _ _ _ _ _ _ (u16_uniform_ok bound s IH Hb) E).
  - apply (wp_Ok _ _ _ _ _ _ (u64_uniform_ok bound s IH Hb) E).
Qed.

Lemma u16_range_thm s bound : rng_reachable s -> 0 <= bound < 2 ^ 16 ->
  match get_random_u16_uniform bound s with
  | Ok (v, _) => if bound =? 0 then v = 0 else 0 <= v < bound
  | Fail f => f = Retry \/ f = Fatal "getrandom failed"
  end.
Proof.
  intros R Hb. pose proof (u16_uniform_ok bound s (reachable_ok s R) Hb) as W. unfold wp in W.
  destruct (get_random_u16_uniform bound s) as [[v s']|f]; [|exact W]. destruct (Z.eqb_spec bound 0); lia.
Qed.
Lemma u64_range_thm s bound : rng_reachable s -> 0 <= bound < 2 ^ 64 ->
  match get_random_u64_uniform bound s with
  | Ok (v, _) => if bound =? 0 then v = 0 else 0 <= v < bound
  | Fail f => f = Retry \/ f = Fatal "getrandom failed"
  end.
Proof.
  intros R Hb. pose proof (u64_uniform_ok bound s (reachable_ok s R) Hb) as W. unfold wp in W.
  destruct (get_random_u64_uniform bound s) as [[v s']|f]; [|exact W]. destruct (Z.eqb_spec bound 0); lia.
Qed.
