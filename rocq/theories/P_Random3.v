(** Histories of random number requests: no keystream byte is used twice. *)
From Coq Require Import String ZArith List Bool Lia ZifyBool.
From Verif Require Import M_Base M_OS M_Chacha M_Random S_Chacha S_Random P_Base P_SizeClass P_Chacha P_Random P_Random2.
Import ListNotations.
Open Scope Z_scope.

Lemma Ok_inj {A S} (a b : A) (s t : S) : Ok (a, s) = Ok (b, t) -> a = b /\ s = t.
Proof. intros H. now injection H. Qed.

Lemma entropy_app q : forall a n l b, os_entropy q a n l b -> (a <= b)%nat.
Proof. induction 1; lia. Qed.

(** the seeding loop delivers exactly the system's entropy *)
Lemma seed_loop_entropy : forall fu size buf o l o',
  0 <= size -> seed_loop fu size buf o = Ok (l, o') ->
  exists l2, l = buf ++ l2 /\ os_entropy (entq o) (entn o) size l2 (entn o') /\ entq o' = entq o.
Proof.
  induction fu as [|fu IH]; intros size buf o l o' Hs H; cbn [seed_loop] in H.
  - destruct (Z.eqb_spec size 0) as [->|]; [|discriminate]. injection H as <- <-.
    exists []. rewrite app_nil_r. split; [auto|]. split; [constructor|auto].
  - destruct (Z.eqb_spec size 0) as [->|].
    { injection H as <- <-. exists []. rewrite app_nil_r. split; [auto|]. split; [constructor|auto]. }
    unfold bind, sys_getrandom in H.
    destruct (negb (en_errno (entq o (entn o)) =? 0)) eqn:Ee.
    + rewrite Ee in H.
      destruct (Z.eqb_spec (en_errno (entq o (entn o))) EINTR) as [Ei|Ei]; [|discriminate].
      apply IH in H; [|auto]. destruct H as (l2 & -> & H & E). cbn in H, E.
      exists l2. split; [auto|]. split; [|auto]. apply oe_intr; auto.
    + change (negb (0 =? 0)) with false in H. cbv iota in H.
      set (bs := map w8 (firstn (Z.to_nat size) (en_bytes (entq o (entn o))))) in H.
      destruct (Z.eqb_spec (zlen bs) 0) as [|Nz]; [discriminate|].
      assert (zlen bs <= size) as Hlen by (unfold bs, zlen; rewrite map_length, firstn_length; lia).
      apply IH in H; [|lia]. destruct H as (l2 & -> & H & E). cbn in H, E.
      exists (bs ++ l2). rewrite app_assoc. split; [auto|]. split; [|auto].
      eapply oe_some; [lia | reflexivity | | exact H].
      intros E0. apply Nz. assert (bs = []) as -> by exact E0. reflexivity.
Qed.

Lemma init_entropy s s' : random_state_init s = Ok (tt, s') ->
  exists rnd, os_entropy (entq (r_os s)) (entn (r_os s)) 40 rnd (entn (r_os s')) /\
    entq (r_os s') = entq (r_os s) /\ r_rng s' = rng_from_seed rnd (r_rng s).
Proof.
  unfold random_state_init. intros H. apply bind_Ok in H. destruct H as (rnd & s1 & H & H1).
  injection H1 as <-. unfold r_sys, zoom in H. destruct (get_random_seed (CHACHA_KEY_SIZE + CHACHA_IV_SIZE) (r_os s)) as [[l o']|] eqn:E; [|discriminate].
  injection H as <- <-. unfold get_random_seed, bind, get in E.
  apply seed_loop_entropy in E; [|unfold CHACHA_KEY_SIZE, CHACHA_IV_SIZE; lia].
  destruct E as (l2 & -> & E & Eq). exists l2. cbn. auto.
Qed.

Lemma entropy_lt q a n l b : os_entropy q a n l b -> 0 < n -> (a < b)%nat.
Proof.
  intros H Hn. inversion H; subst; try lia.
  - apply entropy_app in H1. lia.
  - apply entropy_app in H3. lia.
Qed.
Lemma entropy_len q a n l b : os_entropy q a n l b -> Z.of_nat (length l) = n /\ Forall (fun x => 0 <= x < 256) l.
Proof.
  induction 1 as [|a n l b E H [IH F]|a n bs l b E -> Nz H [IH F]].
  - split; [reflexivity|constructor].
  - auto.
  - rewrite app_length. split; [lia|]. apply Forall_app. split; [|auto].
    apply Forall_forall. intros x Hx. apply in_map_iff in Hx. destruct Hx as (y & <- & _). apply Z.mod_pos_bound. lia.
Qed.

(** [hinv s h c K d lo]: invariant after handing out the segments h (oldest first);
    the current seed K came from the system calls from number c on *)
Record hinv (s : rstate) (h : list segment) (c : nat) (K : seed) (d lo : Z) : Prop := {
  hi_at : rng_at K d lo (r_rng s);
  hi_seed : exists b, os_entropy (entq (r_os s)) c 40 (fst K ++ snd K) b /\ (c < b <= entn (r_os s))%nat;
  hi_all : Forall (seg_seeded (entq (r_os s))) h;
  hi_le : Forall (fun g => (sg_call g <= c)%nat) h;
  hi_used : Forall (fun g => sg_call g = c ->
     (sg_pos g + sg_len g <= lo \/ lo - rs_index (r_rng s) + 256 <= sg_pos g) /\
     sg_pos g + sg_len g <= rs_reseed (r_rng s) + 64 * d) h;
  hi_disj : ForallOrdPairs seg_disjoint h;
  hi_total : forall c', cached_total c' h <= 262144;
  hi_cur : cached_total c h <= rs_reseed (r_rng s) - (256 - rs_index (r_rng s));
  hi_order : Forall (fun g => sg_cached g = true) h ->
     Forall (fun g => sg_call g = c -> sg_pos g + sg_len g <= lo) h /\ ForallOrdPairs seg_before h
}.

Lemma FOP_snoc {A} (R : A -> A -> Prop) l x :
  ForallOrdPairs R l -> Forall (fun y => R y x) l -> ForallOrdPairs R (l ++ [x]).
Proof.
  induction 1 as [|a l Ha Hl IH]; intros F; cbn; [constructor; constructor|].
  inversion F; subst. constructor; [|apply IH; assumption]. apply Forall_app. split; auto.
Qed.
Lemma total_snoc c l g : cached_total c (l ++ [g]) =
  cached_total c l + (if andb (Nat.eqb (sg_call g) c) (sg_cached g) then sg_len g else 0).
Proof. induction l as [|x l IH]; cbn; [lia|]. unfold cached_total in IH. rewrite IH. lia. Qed.
Lemma total_0 c l : Forall (fun g => (sg_call g < c)%nat) l -> cached_total c l = 0.
Proof.
  induction 1 as [|g l H F IH]; cbn; [auto|]. unfold cached_total in IH. rewrite IH.
  replace (Nat.eqb (sg_call g) c) with false by (symmetry; apply Nat.eqb_neq; lia). reflexivity.
Qed.

Lemma refill_h s s' h c K d lo : hinv s h c K d lo -> refill s = Ok (tt, s') ->
  rs_index (r_rng s') = 0 /\ entq (r_os s') = entq (r_os s) /\
  exists c' K' d' lo', hinv s' h c' K' d' lo'.
Proof.
  intros I H. pose proof (hi_at _ _ _ _ _ _ I) as R. destruct R as [ra_key0 ra_nonce0 ra_d0 ra_reseed0 ra_rmod0 ra_ctx0 ra_idx0 ra_len0 ra_cache0 ra_lo0].
  unfold refill in H. unfold bind at 1, gets at 1 in H. unfold RANDOM_RESEED_SIZE in H.
  destruct (Z.leb_spec (256 * 1024) (rs_reseed (r_rng s))).
  - apply bind_Ok in H. destruct H as ([] & s1 & E1 & H). unfold bind, gets in H.
    pose proof (init_entropy _ _ E1) as (rnd & En & Eq & Er).
    pose proof (entropy_len _ _ _ _ _ En) as [L F].
    pose proof (from_seed_at rnd (r_rng s) L F ra_len0) as A. destruct A as [Ak An Ad Ar Arm Actx Ai Al Ac Alo].
    rewrite Er in H. cbn [rng_from_seed rs_ctx rs_reseed fst snd] in *.
    rewrite setup_eq, keystream_at in H by (first [assumption | unfold RANDOM_CACHE_SIZE; lia]).
    injection H as <-. cbn [r_os r_rng set_r_rng rs_index]. split; [reflexivity|]. split; [exact Eq|].
    exists (entn (r_os s)), (firstn 32 rnd, skipn 32 rnd), 0, 0.
    destruct (hi_seed _ _ _ _ _ _ I) as (b & Hb & Hc).
    assert (Forall (fun g => (sg_call g < entn (r_os s))%nat) h) as FL.
    { eapply Forall_impl; [|apply (hi_le _ _ _ _ _ _ I)]. intros g Hg. cbn in Hg. lia. }
    unfold RANDOM_CACHE_SIZE. change (w32 (0 + 256)) with 256. change (w32 256) with 256.
    constructor; cbn [r_os r_rng set_r_rng rs_index rs_reseed fst snd].
    + constructor; cbn [fst snd rs_reseed rs_ctx rs_index rs_cache].
      * exact Ak.
      * exact An.
      * lia.
      * lia.
      * reflexivity.
      * reflexivity.
      * lia.
      * rewrite stream_len; lia.
      * right. reflexivity.
      * lia.
    + exists (entn (r_os s1)). rewrite firstn_skipn, Eq. split; [exact En|].
      apply entropy_lt in En; [lia|lia].
    + rewrite Eq. exact (hi_all _ _ _ _ _ _ I).
    + eapply Forall_impl; [|exact FL]. intros g Hg. cbn in *. lia.
    + eapply Forall_impl; [|exact FL]. intros g Hg Hg'. cbn in *. lia.
    + exact (hi_disj _ _ _ _ _ _ I).
    + exact (hi_total _ _ _ _ _ _ I).
    + rewrite total_0 by exact FL. lia.
    + intros AC. split; [|apply (hi_order _ _ _ _ _ _ I AC)].
      eapply Forall_impl; [|exact FL]. intros g Hg Hg'. cbn in *. lia.
  - unfold bind, ret, gets in H.
    rewrite ra_ctx0, keystream_at in H by (first [assumption | unfold RANDOM_CACHE_SIZE; lia]).
    replace (64 * (rs_reseed (r_rng s) / 64 + d)) with (rs_reseed (r_rng s) + 64 * d) in H by lia.
    unfold modify in H. apply Ok_inj in H. destruct H as [_ <-]. cbn [r_os r_rng set_r_rng rs_index]. split; [reflexivity|]. split; [reflexivity|].
    unfold RANDOM_CACHE_SIZE. rewrite w32_small by lia.
    exists c, K, d, (rs_reseed (r_rng s) + 64 * d).
    constructor; cbn [r_os r_rng set_r_rng rs_index rs_reseed].
    + constructor; cbn [fst snd rs_reseed rs_ctx rs_index rs_cache].
      * exact ra_key0.
      * exact ra_nonce0.
      * lia.
      * lia.
      * lia.
      * f_equal. lia.
      * lia.
      * rewrite stream_len; lia.
      * right. f_equal. lia.
      * lia.
    + exact (hi_seed _ _ _ _ _ _ I).
    + exact (hi_all _ _ _ _ _ _ I).
    + exact (hi_le _ _ _ _ _ _ I).
    + eapply Forall_impl; [|exact (hi_used _ _ _ _ _ _ I)]. intros g Hg Hg'. cbn in *. lia.
    + exact (hi_disj _ _ _ _ _ _ I).
    + exact (hi_total _ _ _ _ _ _ I).
    + pose proof (hi_cur _ _ _ _ _ _ I). lia.
    + intros AC. destruct (hi_order _ _ _ _ _ _ I AC) as [O1 O2]. split; [|exact O2].
      eapply Forall_impl; [|exact O1]. intros g Hg Hg'. cbn in *. lia.
Qed.

Lemma hinv_seg_seeded s h c K d lo pos len b : hinv s h c K d lo ->
  seg_seeded (entq (r_os s)) (mkSeg c (fst K) (snd K) pos len b).
Proof.
  intros I. destruct (hi_at _ _ _ _ _ _ I) as [ra_key0 ra_nonce0 ra_d0 ra_reseed0 ra_rmod0 ra_ctx0 ra_idx0 ra_len0 ra_cache0 ra_lo0]. destruct (hi_seed _ _ _ _ _ _ I) as (b' & Hb & _).
  split; [apply ra_key0|]. split; [apply ra_nonce0|]. cbn. eauto.
Qed.

Lemma seg_stream c K p n b : 0 <= n ->
  seg_bytes (mkSeg c (fst K) (snd K) p n b) = stream_bytes (fst K) (snd K) p n.
Proof.
  intros Hn. unfold seg_bytes, stream_bytes, zrange. cbn [sg_key sg_nonce sg_pos sg_len].
  replace (p + n - p) with n by lia. generalize (Z.to_nat n) as m. clear. intros m.
  assert (forall lo k, map (fun i => chacha8_stream (fst K) (snd K) (lo + Z.of_nat i)) (seq k m) =
                  map (chacha8_stream (fst K) (snd K)) (zseq (lo + Z.of_nat k) m)) as G.
  { induction m as [|m IH]; intros lo k; cbn [seq zseq map]; [reflexivity|].
    rewrite IH. f_equal. f_equal. f_equal. lia. }
  rewrite G. f_equal. f_equal. lia.
Qed.

Lemma take_h s h c K d lo n : hinv s h c K d lo -> 0 < n -> rs_index (r_rng s) + n <= 256 ->
  let st := r_rng s in
  let g := mkSeg c (fst K) (snd K) lo n true in
  cache_read st n s = Ok (seg_bytes g, s) /\
  hinv (set_r_rng (mkRng (w32 (rs_index st + n)) (rs_reseed st) (rs_ctx st) (rs_cache st)) s) (h ++ [g]) c K d (lo + n).
Proof.
  intros I Hn Hi st g. pose proof (hi_at _ _ _ _ _ _ I) as R.
  destruct (take_wp K d lo n s R Hn Hi) as [E R']. subst st g. rewrite seg_stream by lia. split; [exact E|].
  destruct R as [ra_key0 ra_nonce0 ra_d0 ra_reseed0 ra_rmod0 ra_ctx0 ra_idx0 ra_len0 ra_cache0 ra_lo0]. rewrite w32_small in * by lia.
  pose proof (hi_cur _ _ _ _ _ _ I) as HC.
  constructor; cbn [r_os r_rng set_r_rng rs_index rs_reseed].
  - exact R'.
  - exact (hi_seed _ _ _ _ _ _ I).
  - apply Forall_app. split; [exact (hi_all _ _ _ _ _ _ I)|]. constructor; [|constructor]. eapply hinv_seg_seeded; eauto.
  - apply Forall_app. split; [exact (hi_le _ _ _ _ _ _ I)|]. constructor; [|constructor]. cbn [sg_call sg_pos sg_len sg_cached]; lia.
  - apply Forall_app. split.
    + eapply Forall_impl; [|exact (hi_used _ _ _ _ _ _ I)]. intros g Hg Hg'. cbn [sg_call sg_pos sg_len sg_cached] in *; lia.
    + constructor; [|constructor]. cbn [sg_call sg_pos sg_len sg_cached]; lia.
  - apply FOP_snoc; [exact (hi_disj _ _ _ _ _ _ I)|].
    eapply Forall_impl; [|exact (hi_used _ _ _ _ _ _ I)]. intros g Hg. unfold seg_disjoint. cbn [sg_call sg_pos sg_len sg_cached] in *; lia.
  - intros c'. rewrite total_snoc. cbn [sg_call sg_cached sg_len]. pose proof (hi_total _ _ _ _ _ _ I c').
    destruct (Nat.eqb_spec c c') as [->|]; cbn [andb]; lia.
  - rewrite total_snoc. cbn [sg_call sg_cached sg_len]. rewrite Nat.eqb_refl. cbn [andb]. lia.
  - intros AC. apply Forall_app in AC. destruct AC as [AC _].
    destruct (hi_order _ _ _ _ _ _ I AC) as [O1 O2]. split.
    + apply Forall_app. split; [|constructor; [cbn [sg_call sg_pos sg_len sg_cached]; lia|constructor]].
      eapply Forall_impl; [|exact O1]. intros g Hg Hg'. cbn [sg_call sg_pos sg_len sg_cached] in *; lia.
    + apply FOP_snoc; [exact O2|]. pose proof (hi_le _ _ _ _ _ _ I) as HL.
      rewrite Forall_forall in *. intros g Hg. specialize (O1 g Hg). specialize (HL g Hg). unfold seg_before. cbn [sg_call sg_pos sg_len sg_cached] in *; lia.
Qed.

(** ** requests *)
Lemma u_bytes_le : forall l, Forall (fun b => 0 <= b < 256) l -> u_bytes (length l) (le_of_bytes l) = l.
Proof.
  unfold u_bytes. induction 1 as [|b l Hb Hl IH]; [reflexivity|].
  cbn [length seq map le_of_bytes]. f_equal.
  - change (256 ^ Z.of_nat 0) with 1. rewrite Z.div_1_r. lia.
  - rewrite <- seq_shift, map_map. rewrite <- IH at 2. apply map_ext. intros k.
    rewrite Nat2Z.inj_succ, Z.pow_succ_r by lia. rewrite <- Z.div_div by lia.
    f_equal. f_equal. rewrite Z.mul_comm. rewrite Z.div_add by lia. rewrite Z.div_small by lia. reflexivity.
Qed.

Definition step_ok (s : rstate) (h : list segment) (out : list Z) (s' : rstate) (cached : bool) : Prop :=
  entq (r_os s') = entq (r_os s) /\
  exists hs c' K' d' lo', out = flat_map seg_bytes hs /\ hinv s' (h ++ hs) c' K' d' lo' /\
    (cached = true -> Forall (fun g => sg_cached g = true) hs).

Lemma int_step s h c K d lo n v s' : hinv s h c K d lo -> 0 < n <= 256 ->
  get_random_int n s = Ok (v, s') -> step_ok s h (u_bytes (Z.to_nat n) v) s' true.
Proof.
  intros I Hn H. unfold get_random_int in H. unfold bind at 1, gets at 1 in H.
  apply bind_Ok in H. destruct H as ([] & s1 & E1 & H).
  assert (entq (r_os s1) = entq (r_os s) /\ rs_index (r_rng s1) + n <= 256 /\ exists c K d lo, hinv s1 h c K d lo) as (Eq & Hi & c1 & K1 & d1 & lo1 & I1).
  { pose proof (ra_idx _ _ _ _ (hi_at _ _ _ _ _ _ I)). unfold RANDOM_CACHE_SIZE in E1. rewrite w32_small in E1 by lia.
    destruct (Z.ltb_spec (256 - rs_index (r_rng s)) n).
    - destruct (refill_h _ _ _ _ _ _ _ I E1) as (Hx & Eq & X). split; [auto|]. split; [lia|auto].
    - injection E1 as <-. split; [auto|]. split; [lia|eauto 6]. }
  unfold bind at 1, gets at 1 in H. apply bind_Ok in H. destruct H as (b & s2 & Eb & H).
  destruct (take_h _ _ _ _ _ _ n I1 ltac:(lia) Hi) as [Ec I2]. rewrite Ec in Eb. injection Eb as <- <-.
  unfold bind, modify, ret in H. injection H as <- <-.
  split; [exact Eq|]. exists [mkSeg c1 (fst K1) (snd K1) lo1 n true], c1, K1, d1, (lo1 + n).
  split; [|split; [exact I2|repeat constructor]].
  cbn [flat_map]. rewrite app_nil_r.
  rewrite seg_stream by lia. replace (Z.to_nat n) with (length (stream_bytes (fst K1) (snd K1) lo1 n)) at 1 by (apply stream_length; lia).
  apply u_bytes_le, stream_bytes_range.
Qed.

Lemma flat_map_app' {A B} (f : A -> list B) l1 l2 : flat_map f (l1 ++ l2) = flat_map f l1 ++ flat_map f l2.
Proof. induction l1; cbn; auto. now rewrite IHl1, app_assoc. Qed.

Lemma bytes_loop_step : forall fu size buf s h c K d lo l s', hinv s h c K d lo -> 0 <= size ->
  random_bytes_loop fu size buf s = Ok (l, s') ->
  exists out, l = buf ++ out /\ step_ok s h out s' true.
Proof.
  induction fu as [|fu IH]; intros size buf s h c K d lo l s' I Hs H; cbn [random_bytes_loop] in H.
  - destruct (Z.eqb_spec size 0) as [Ez|Ez]; [|discriminate]. injection H as <- <-. exists []. rewrite app_nil_r.
    split; [auto|]. split; [auto|]. exists [], c, K, d, lo. rewrite app_nil_r. auto.
  - destruct (Z.eqb_spec size 0) as [?|?].
    { injection H as <- <-. exists []. rewrite app_nil_r.
      split; [auto|]. split; [auto|]. exists [], c, K, d, lo. rewrite app_nil_r. auto. }
    unfold bind at 1, gets at 1 in H. apply bind_Ok in H. destruct H as ([] & s1 & E1 & H).
    assert (entq (r_os s1) = entq (r_os s) /\ rs_index (r_rng s1) < 256 /\ exists c K d lo, hinv s1 h c K d lo) as (Eq & Hi & c1 & K1 & d1 & lo1 & I1).
    { pose proof (ra_idx _ _ _ _ (hi_at _ _ _ _ _ _ I)). unfold RANDOM_CACHE_SIZE in E1.
      destruct (Z.eqb_spec (rs_index (r_rng s)) 256).
      - destruct (refill_h _ _ _ _ _ _ _ I E1) as (Hx & Eq & X). split; [auto|]. split; [lia|auto].
      - injection E1 as <-. split; [auto|]. split; [lia|eauto 6]. }
    unfold bind at 1, gets at 1 in H. unfold RANDOM_CACHE_SIZE in H.
    pose proof (ra_idx _ _ _ _ (hi_at _ _ _ _ _ _ I1)) as Hi1. rewrite (w64_small (256 - _)) in H by lia.
    set (m := Z.min size (256 - rs_index (r_rng s1))) in *.
    apply bind_Ok in H. destruct H as (b & s2 & Eb & H).
    destruct (take_h _ _ _ _ _ _ m I1 ltac:(lia) ltac:(lia)) as [Ec I2]. rewrite Ec in Eb. injection Eb as <- <-.
    unfold bind at 1, modify at 1 in H.
    eapply IH in H; [|exact I2|lia]. destruct H as (out & -> & Eq2 & hs & c' & K' & d' & lo' & -> & I3 & C3).
    eexists. rewrite <- app_assoc. split; [reflexivity|]. split; [cbn in Eq2; congruence|].
    exists (mkSeg c1 (fst K1) (snd K1) lo1 m true :: hs), c', K', d', lo'.
    split; [reflexivity|]. rewrite <- app_assoc in I3. split; [exact I3|]. intros _. constructor; [reflexivity|auto].
Qed.

Lemma direct_step s h c K d lo n l s' : hinv s h c K d lo -> 128 < n ->
  get_random_bytes n s = Ok (l, s') -> step_ok s h l s' false.
Proof.
  intros I Hn H. unfold get_random_bytes in H. change (RANDOM_CACHE_SIZE / 2) with 128 in H.
  destruct (Z.ltb_spec 128 n); [|lia]. unfold bind at 1, gets at 1 in H.
  pose proof (hi_at _ _ _ _ _ _ I) as R. destruct R as [ra_key0 ra_nonce0 ra_d0 ra_reseed0 ra_rmod0 ra_ctx0 ra_idx0 ra_len0 ra_cache0 ra_lo0].
  rewrite ra_ctx0, keystream_at in H by (first [assumption | lia]).
  replace (64 * (rs_reseed (r_rng s) / 64 + d)) with (rs_reseed (r_rng s) + 64 * d) in H by lia.
  set (p := rs_reseed (r_rng s) + 64 * d) in *.
  unfold bind, modify, ret in H. apply Ok_inj in H. destruct H as [<- <-]. split; [reflexivity|].
  set (g := mkSeg c (fst K) (snd K) p n false).
  exists [g], c, K, (d + (n + 63) / 64), lo.
  split; [cbn [flat_map]; rewrite app_nil_r; unfold g; now rewrite seg_stream by lia|].
  split; [|discriminate].
  constructor; cbn [r_os r_rng set_r_rng rs_index rs_reseed].
  - constructor; cbn [fst snd rs_reseed rs_ctx rs_index rs_cache].
    + exact ra_key0.
    + exact ra_nonce0.
    + lia.
    + lia.
    + lia.
    + f_equal. lia.
    + lia.
    + exact ra_len0.
    + exact ra_cache0.
    + lia.
  - exact (hi_seed _ _ _ _ _ _ I).
  - apply Forall_app. split; [exact (hi_all _ _ _ _ _ _ I)|]. constructor; [|constructor]. eapply hinv_seg_seeded; eauto.
  - apply Forall_app. split; [exact (hi_le _ _ _ _ _ _ I)|]. constructor; [|constructor]. subst g p; cbn [sg_call sg_pos sg_len sg_cached]; lia.
  - apply Forall_app. split.
    + eapply Forall_impl; [|exact (hi_used _ _ _ _ _ _ I)]. intros g0 Hg Hg'. subst g p; cbn [sg_call sg_pos sg_len sg_cached] in *; lia.
    + constructor; [|constructor]. subst g p; cbn [sg_call sg_pos sg_len sg_cached]; lia.
  - apply FOP_snoc; [exact (hi_disj _ _ _ _ _ _ I)|].
    eapply Forall_impl; [|exact (hi_used _ _ _ _ _ _ I)]. intros g0 Hg. unfold seg_disjoint. subst g p; cbn [sg_call sg_pos sg_len sg_cached] in *; lia.
  - intros c'. rewrite total_snoc. cbn [sg_cached g]. rewrite andb_false_r. pose proof (hi_total _ _ _ _ _ _ I c'). lia.
  - rewrite total_snoc. cbn [sg_cached g]. rewrite andb_false_r. pose proof (hi_cur _ _ _ _ _ _ I). lia.
  - intros AC. apply Forall_app in AC. destruct AC as [_ AC]. inversion AC; subst. discriminate.
Qed.

Definition small_request (r : request) : Prop := match r with ReqBytes n => n <= 128 | _ => True end.

Lemma request_step s h c K d lo r l s' : hinv s h c K d lo -> (match r with ReqBytes n => 0 <= n | _ => True end) ->
  do_request r s = Ok (l, s') -> exists b, step_ok s h l s' b /\ (small_request r -> b = true).
Proof.
  intros I Hr H. destruct r as [| |n]; cbn [do_request] in H.
  - apply bind_Ok in H. destruct H as (v & s1 & E & H). injection H as <- <-.
    exists true. split; [|auto]. apply (int_step _ _ _ _ _ _ 2 _ _ I ltac:(lia) E).
  - apply bind_Ok in H. destruct H as (v & s1 & E & H). injection H as <- <-.
    exists true. split; [|auto]. apply (int_step _ _ _ _ _ _ 8 _ _ I ltac:(lia) E).
  - destruct (Z_le_gt_dec n 128).
    + exists true. split; [|auto]. unfold get_random_bytes in H. change (RANDOM_CACHE_SIZE / 2) with 128 in H.
      destruct (Z.ltb_spec 128 n); [lia|]. eapply bytes_loop_step in H; [|exact I|auto].
      destruct H as (out & -> & H). exact H.
    + exists false. split; [eapply direct_step; eauto; lia|]. cbn. lia.
Qed.

Lemma requests_ok : forall rs s h c K d lo l s', hinv s h c K d lo ->
  Forall (fun r => match r with ReqBytes n => 0 <= n | _ => True end) rs ->
  do_requests rs s = Ok (l, s') -> exists b, step_ok s h l s' b /\ (Forall small_request rs -> b = true).
Proof.
  induction rs as [|r rs IH]; intros s h c K d lo l s' I F H; cbn [do_requests] in H.
  - injection H as <- <-. exists true. split; [|auto]. split; [auto|]. exists [], c, K, d, lo. rewrite app_nil_r. auto.
  - inversion F; subst. apply bind_Ok in H. destruct H as (a & s1 & Ea & H).
    apply bind_Ok in H. destruct H as (b & s2 & Eb & H). injection H as <- <-.
    eapply request_step in Ea; [|exact I|assumption]. destruct Ea as (b1 & (Eq1 & hs & c1 & K1 & d1 & lo1 & -> & I1 & C1) & S1).
    eapply IH in Eb; [|exact I1|assumption]. destruct Eb as (b2 & (Eq2 & hs2 & c2 & K2 & d2 & lo2 & -> & I2 & C2) & S2).
    exists (b1 && b2). split.
    + split; [congruence|]. exists (hs ++ hs2), c2, K2, d2, lo2. rewrite flat_map_app'. split; [auto|].
      rewrite app_assoc. split; [exact I2|]. intros E. apply andb_prop in E. destruct E. apply Forall_app. split; auto.
    + intros FS. inversion FS; subst. rewrite S1, S2 by assumption. reflexivity.
Qed.

Lemma FOP_split {A} (R : A -> A -> Prop) l : ForallOrdPairs R l ->
  forall pre x mid y post, l = pre ++ x :: mid ++ y :: post -> R x y.
Proof.
  induction 1 as [|a l Ha Hl IH]; intros pre x mid y post E.
  - destruct pre; discriminate.
  - destruct pre as [|p pre]; cbn in E; injection E as -> ->.
    + rewrite Forall_app in Ha. destruct Ha as [_ Ha]. inversion Ha; auto.
    + eapply IH. reflexivity.
Qed.

Theorem history_ok s0 s1 rs out s : zlen (rs_cache (r_rng s0)) = 256 ->
  random_state_init s0 = Ok (tt, s1) ->
  Forall (fun r => match r with ReqBytes n => 0 <= n | _ => True end) rs ->
  do_requests rs s1 = Ok (out, s) ->
  exists segs, out = flat_map seg_bytes segs /\
    Forall (seg_seeded (entq (r_os s0))) segs /\
    (forall pre g mid h post, segs = pre ++ g :: mid ++ h :: post -> seg_disjoint g h) /\
    (forall c, cached_total c segs <= 262144) /\
    (Forall small_request rs ->
       Forall (fun g => sg_cached g = true) segs /\
       forall pre g mid h post, segs = pre ++ g :: mid ++ h :: post -> seg_before g h).
Proof.
  intros Lc Hi F H. pose proof (init_entropy _ _ Hi) as (rnd & En & Eq & Er).
  pose proof (entropy_len _ _ _ _ _ En) as [L Fb].
  pose proof (from_seed_at rnd (r_rng s0) L Fb Lc) as A.
  assert (hinv s1 [] (entn (r_os s0)) (firstn 32 rnd, skipn 32 rnd) 0 0) as I.
  { constructor.
    - rewrite Er. exact A.
    - exists (entn (r_os s1)). cbn [fst snd]. rewrite firstn_skipn, Eq. split; [exact En|]. apply entropy_lt in En; lia.
    - constructor.
    - constructor.
    - constructor.
    - constructor.
    - cbn; lia.
    - cbn. rewrite Er. cbn. unfold RANDOM_CACHE_SIZE. lia.
    - split; constructor. }
  eapply requests_ok in H; [|exact I|exact F].
  destruct H as (b & (Eq2 & segs & c & K & d & lo & -> & I2 & C) & S). cbn [app] in I2.
  exists segs. split; [auto|]. split; [rewrite <- Eq, <- Eq2; exact (hi_all _ _ _ _ _ _ I2)|].
  split; [exact (FOP_split _ _ (hi_disj _ _ _ _ _ _ I2))|].
  split; [exact (hi_total _ _ _ _ _ _ I2)|].
  intros FS. specialize (C (S FS)). split; [auto|].
  exact (FOP_split _ _ (proj2 (hi_order _ _ _ _ _ _ I2 C))).
Qed.

Lemma u64_unbiased bound : 0 < bound < 2 ^ 64 ->
  unbiased 64 bound (fun x => (2 ^ 64 mod bound) <=? (x * bound) mod 2 ^ 64) (fun x => x * bound / 2 ^ 64).
Proof.
  intros Hb v1 v2 H1 H2.
  transitivity (2 ^ 64 / bound); [|symmetry].
  - exact (lemire_count (2 ^ 64) bound v1 ltac:(lia) H1).
  - exact (lemire_count (2 ^ 64) bound v2 ltac:(lia) H2).
Qed.
Lemma u16_single_draw bound s v s' : 0 <= bound < 2 ^ 16 -> rng_reachable s ->
  get_random_u16_uniform bound s = Ok (v, s') ->
  exists x, get_random_u16 s = Ok (x, s') /\ 0 <= x < 2 ^ 16 /\ v = x * bound / 2 ^ 16.
Proof.
  intros Hb R H. destruct (u16_uniform_draws bound s v s' Hb (reachable_ok s R) H) as (x & E & Hx & Ev).
  exists x. unfold raw16 in E. destruct (get_random_u16 s) as [[y t]|]; [|discriminate]. injection E as -> ->. auto.
Qed.
Lemma u16_biased : exists bound : Z, 0 < bound < 2 ^ 16 /\
  ~ unbiased 16 bound (fun _ => true) (fun x => x * bound / 2 ^ 16).
Proof.
  exists 3. split; [lia|]. intros H. specialize (H 0 1 ltac:(lia) ltac:(lia)). revert H.
  assert (forall P Q, (forall x, 0 <= x < 2 ^ 16 -> P x = true <-> 0 <= x < 21846) ->
    (forall x, 0 <= x < 2 ^ 16 -> Q x = true <-> 21846 <= x < 43691) -> count P (2 ^ 16) <> count Q (2 ^ 16)) as G.
  { intros P Q HP HQ. rewrite (count_interval P (2 ^ 16) 0 21846 ltac:(lia) ltac:(lia) HP).
    rewrite (count_interval Q (2 ^ 16) 21846 43691 ltac:(lia) ltac:(lia) HQ). lia. }
  apply G; intros x Hx; change (2 ^ 16) with 65536 in *; rewrite andb_true_l, Z.eqb_eq; lia.
Qed.
