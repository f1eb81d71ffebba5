(** Proofs about random.c. *)
From Coq Require Import String ZArith List Bool Lia ZifyBool.
From Verif Require Import M_Base M_OS M_Chacha M_Random S_Chacha P_Base P_SizeClass P_Chacha.
Import ListNotations.
Open Scope Z_scope.

(** a seed: 32-byte key and 8-byte nonce *)
Definition seed : Type := (list Z * list Z)%type.

(** [rng_at K d lo r]: generator r runs on seed K; lo is the first keystream
    position not yet handed out; d blocks were consumed by direct requests. *)
Record rng_at (K : seed) (d lo : Z) (r : random_state) : Prop := {
  ra_key : bytes (fst K) 32;
  ra_nonce : bytes (snd K) 8;
  ra_d : 0 <= d;
  ra_reseed : 0 <= rs_reseed r <= 262144;
  ra_rmod : rs_reseed r mod 256 = 0;
  ra_ctx : rs_ctx r = ctx_at (fst K) (snd K) (rs_reseed r / 64 + d);
  ra_idx : 0 <= rs_index r <= 256;
  ra_len : zlen (rs_cache r) = 256;
  ra_cache : rs_index r = 256 \/ rs_cache r = stream_bytes (fst K) (snd K) (lo - rs_index r) 256;
  ra_lo : 0 <= lo /\ lo - rs_index r + 256 <= rs_reseed r + 64 * d
}.
Definition rng_ok (r : random_state) : Prop := exists K d lo, rng_at K d lo r.

(** getrandom is interrupted by a signal at some point *)
Definition intr (q : nat -> entans) : Prop := exists n, en_errno (q n) = EINTR.
(** what a generator operation may change in the system state *)
Record os_rel (o o' : os) : Prop := {
  or_pages : pages o' = pages o;
  or_mem : mem o' = mem o;
  or_sysq : sysq o' = sysq o;
  or_sysn : sysn o' = sysn o;
  or_entq : entq o' = entq o;
  or_entn : (entn o <= entn o')%nat;
  or_fuel : fuel o' = fuel o;
  or_errno : errno o' = errno o \/ errno o' = EINTR /\ intr (entq o)
}.
Lemma os_rel_refl o : os_rel o o. Proof. constructor; auto. Qed.
Lemma os_rel_trans o1 o2 o3 : os_rel o1 o2 -> os_rel o2 o3 -> os_rel o1 o3.
Proof.
  intros [] []. constructor; try congruence; [lia|].
  destruct or_errno0 as [E|[E X]], or_errno1 as [E'|[E' X']]; rewrite ?E', ?E; auto; right; split; auto; congruence.
Qed.

(** entropy: the bytes delivered by getrandom calls number a .. b-1 *)
Definition ent_bytes (o : os) (a b : nat) : list Z :=
  flat_map (fun i => if en_errno (entq o i) =? 0 then map w8 (en_bytes (entq o i)) else []) (seq a (b - a)).

Definition rng_fault (f : fault) : Prop := f = Retry \/ f = Fatal "getrandom failed".

Lemma w8_bytes l : Forall (fun b => 0 <= b < 256) (map w8 l).
Proof. induction l; constructor; auto. apply w8_range. Qed.
Lemma Forall_firstn {A} (P : A -> Prop) n l : Forall P l -> Forall P (firstn n l).
Proof. intros H. revert n. induction H; destruct n; cbn; constructor; auto. Qed.
Lemma Forall_skipn {A} (P : A -> Prop) n l : Forall P l -> Forall P (skipn n l).
Proof. intros H. revert n. induction H; destruct n; cbn; auto. Qed.

Lemma seed_loop_wp : forall fu size buf o,
  0 <= size -> Forall (fun b => 0 <= b < 256) buf ->
  wp (seed_loop fu size buf) o
    (fun l o' => os_rel o o' /\ zlen l = zlen buf + size /\ Forall (fun b => 0 <= b < 256) l /\
                 (0 < size -> (entn o < entn o')%nat)) rng_fault.
Proof.
  induction fu as [|fu IH]; intros size buf o Hs Hb; cbn [seed_loop].
  - destruct (Z.eqb_spec size 0); [apply wp_ret|apply wp_fail; left; reflexivity].
    split; [apply os_rel_refl|]. split; [lia|]. split; [auto|lia].
  - destruct (Z.eqb_spec size 0).
    { apply wp_ret. split; [apply os_rel_refl|]. split; [lia|]. split; [auto|lia]. }
    apply wp_bind. unfold sys_getrandom. unfold wp at 1.
    destruct (negb (en_errno (entq o (entn o)) =? 0)) eqn:Ee.
    + rewrite Ee. destruct (Z.eqb_spec (en_errno (entq o (entn o))) EINTR) as [Ei|Ei]; [|apply wp_fail; right; reflexivity].
      eapply wp_mono; [apply IH; auto | | auto].
      intros l o' (R & L & F & N). cbn [entn set_errno next_ent] in N. split; [|split; [exact L|split; [exact F|intros; lia]]].
      eapply os_rel_trans; [|exact R]. rewrite Ei. constructor; cbn; auto. right. split; [auto|]. exists (entn o). exact Ei.
    + cbn [negb]. rewrite Z.eqb_refl. cbn [negb].
      set (bs := map w8 (firstn (Z.to_nat size) (en_bytes (entq o (entn o))))).
      assert (zlen bs <= size) as Hlen by (unfold bs, zlen; rewrite map_length, firstn_length; lia).
      destruct (Z.eqb_spec (zlen bs) 0); [apply wp_fail; right; reflexivity|].
      eapply wp_mono; [apply IH | | auto].
      * lia.
      * apply Forall_app. split; [auto | apply w8_bytes].
      * intros l o' (R & L & F & N). split; [|split; [|split; [exact F|]]].
        -- eapply os_rel_trans; [|exact R]. constructor; cbn; auto.
        -- rewrite L, zlen_app. lia.
        -- pose proof (or_entn _ _ R). cbn in H. lia.
Qed.

Lemma init_wp s : wp random_state_init s
  (fun _ s' => os_rel (r_os s) (r_os s') /\ (entn (r_os s) < entn (r_os s'))%nat /\
     exists rnd, zlen rnd = 40 /\ Forall (fun b => 0 <= b < 256) rnd /\ r_rng s' = rng_from_seed rnd (r_rng s)) rng_fault.
Proof.
  unfold random_state_init. apply wp_bind. unfold r_sys. apply wp_zoom. unfold get_random_seed.
  apply wp_bind, wp_get. eapply wp_mono; [apply seed_loop_wp; [unfold CHACHA_KEY_SIZE, CHACHA_IV_SIZE; lia|constructor] | | auto].
  intros l o' (R & L & F & N). apply wp_modify. cbn. split; [exact R|]. split; [apply N; unfold CHACHA_KEY_SIZE, CHACHA_IV_SIZE; lia|].
  exists l. split; [exact L|auto].
Qed.

Lemma from_seed_at rnd old : zlen rnd = 40 -> Forall (fun b => 0 <= b < 256) rnd -> zlen (rs_cache old) = 256 ->
  rng_at (firstn 32 rnd, skipn 32 rnd) 0 0 (rng_from_seed rnd old).
Proof.
  intros L F Lc. unfold zlen in L. constructor; cbn [fst snd rng_from_seed rs_reseed rs_ctx rs_index rs_cache]; unfold RANDOM_CACHE_SIZE; try lia; auto.
  - split; [rewrite firstn_length; lia | now apply Forall_firstn].
  - split; [rewrite skipn_length; lia | now apply Forall_skipn].
Qed.

Lemma stream_length key nonce p a : 0 <= a -> length (stream_bytes key nonce p a) = Z.to_nat a.
Proof. intros. pose proof (stream_len key nonce p a H). unfold zlen in H0. lia. Qed.

Lemma stream_bytes_range key nonce p a : Forall (fun b => 0 <= b < 256) (stream_bytes key nonce p a).
Proof.
  unfold stream_bytes. apply Forall_forall. intros x H. apply in_map_iff in H. destruct H as (i & <- & _).
  apply stream_byte_range.
Qed.

(** refill: either continues the seed (next 256 bytes) or starts a new one *)
Lemma refill_wp K d lo s : rng_at K d lo (r_rng s) ->
  wp refill s (fun _ s' => os_rel (r_os s) (r_os s') /\ rs_index (r_rng s') = 0 /\
    ((rs_reseed (r_rng s) < 262144 /\ r_os s' = r_os s /\
      rng_at K d (rs_reseed (r_rng s) + 64 * d) (r_rng s')) \/
     (rs_reseed (r_rng s) = 262144 /\ (entn (r_os s) < entn (r_os s'))%nat /\
      exists K', rng_at K' 0 0 (r_rng s')))) rng_fault.
Proof.
  intros R. destruct R. unfold refill.
  apply wp_bind, wp_gets, wp_bind. unfold RANDOM_RESEED_SIZE.
  destruct (Z.leb_spec (256 * 1024) (rs_reseed (r_rng s))).
  - eapply wp_mono; [apply init_wp | | auto].
    intros _ s' (Ro & N & rnd & L & F & E). apply wp_bind, wp_gets. rewrite E.
    pose proof (from_seed_at rnd (r_rng s) L F ra_len0) as A. destruct A as [Ak An Ad Ar Arm Actx Ai Al Ac Alo].
    cbn [rng_from_seed rs_ctx rs_reseed fst snd] in *.
    rewrite setup_eq, keystream_at by (first [assumption | unfold RANDOM_CACHE_SIZE; lia]).
    apply wp_modify. cbn [r_os r_rng set_r_rng rs_index].
    split; [exact Ro|]. split; [reflexivity|]. right. split; [lia|]. split; [exact N|].
    exists (firstn 32 rnd, skipn 32 rnd). unfold RANDOM_CACHE_SIZE.
    change (w32 (0 + 256)) with 256.
    constructor; cbn [fst snd rs_reseed rs_ctx rs_index rs_cache].
    + exact Ak.
    + exact An.
    + lia.
    + lia.
    + reflexivity.
    + reflexivity.
    + lia.
    + rewrite stream_len; lia.
    + right. reflexivity.
    + lia.
  - apply wp_ret, wp_bind, wp_gets.
    rewrite ra_ctx0, keystream_at by (first [assumption | unfold RANDOM_CACHE_SIZE; lia]).
    apply wp_modify. cbn [r_os r_rng set_r_rng rs_index].
    split; [apply os_rel_refl|]. split; [reflexivity|]. left. split; [lia|]. split; [reflexivity|].
    unfold RANDOM_CACHE_SIZE. rewrite w32_small by lia.
    constructor; cbn [fst snd rs_reseed rs_ctx rs_index rs_cache]; auto; try lia.
    + f_equal. lia.
    + rewrite stream_len; lia.
    + right. f_equal. lia.
Qed.

Lemma skipn_stream key nonce p n k : 0 <= k <= n ->
  skipn (Z.to_nat k) (stream_bytes key nonce p n) = stream_bytes key nonce (p + k) (n - k).
Proof.
  intros H. replace n with (k + (n - k)) at 1 by lia. rewrite stream_app by lia.
  rewrite skipn_app, skipn_all2 by (rewrite stream_length; lia).
  rewrite stream_length by lia. replace (Z.to_nat k - Z.to_nat k)%nat with 0%nat by lia. reflexivity.
Qed.
Lemma firstn_stream key nonce p n k : 0 <= k <= n ->
  firstn (Z.to_nat k) (stream_bytes key nonce p n) = stream_bytes key nonce p k.
Proof.
  intros H. replace n with (k + (n - k)) at 1 by lia. rewrite stream_app by lia.
  rewrite firstn_app, stream_length by lia.
  replace (Z.to_nat k - Z.to_nat k)%nat with 0%nat by lia. cbn.
  rewrite app_nil_r. rewrite firstn_all2; [reflexivity|]. rewrite stream_length; lia.
Qed.

(** reading n available bytes from the cache *)
Lemma take_wp K d lo n (s : rstate) : rng_at K d lo (r_rng s) -> 0 < n -> rs_index (r_rng s) + n <= 256 ->
  let st := r_rng s in
  cache_read st n s = Ok (stream_bytes (fst K) (snd K) lo n, s) /\
  rng_at K d (lo + n) (mkRng (w32 (rs_index st + n)) (rs_reseed st) (rs_ctx st) (rs_cache st)).
Proof.
  intros [] Hn Hi st. subst st. split.
  - unfold cache_read. rewrite ra_len0.
    replace ((0 <=? rs_index (r_rng s)) && (rs_index (r_rng s) + n <=? 256)) with true by lia.
    unfold ret. destruct ra_cache0 as [E|E]; [lia|]. rewrite E.
    rewrite skipn_stream by lia. rewrite firstn_stream by lia.
    replace (lo - rs_index (r_rng s) + rs_index (r_rng s)) with lo by lia. reflexivity.
  - rewrite w32_small by lia.
    constructor; cbn [fst snd rs_reseed rs_ctx rs_index rs_cache]; auto; try lia.
    destruct ra_cache0 as [E|E]; [lia|]. right. rewrite E. f_equal. lia.
Qed.

(** the outcome of handing out n keystream bytes *)
Definition drawn (K : seed) (d lo n : Z) (s s' : rstate) (K' : seed) (p : Z) : Prop :=
  os_rel (r_os s) (r_os s') /\
  ((K' = K /\ lo <= p /\ rng_at K d (p + n) (r_rng s') /\ r_os s' = r_os s) \/
   (p = 0 /\ rng_at K' 0 n (r_rng s') /\ (entn (r_os s) < entn (r_os s'))%nat)).

Lemma le_of_bytes_range l : Forall (fun b => 0 <= b < 256) l -> 0 <= le_of_bytes l < 256 ^ zlen l.
Proof.
  induction 1 as [|b l Hb Hl IH]; cbn [le_of_bytes].
  - cbn. lia.
  - rewrite zlen_cons. rewrite Z.pow_add_r by (pose proof (zlen_nonneg l); lia). change (256 ^ 1) with 256. lia.
Qed.

Lemma get_random_int_wp K d lo n s : rng_at K d lo (r_rng s) -> 0 < n <= 256 ->
  wp (get_random_int n) s (fun v s' => exists K' p,
      v = le_of_bytes (stream_bytes (fst K') (snd K') p n) /\ drawn K d lo n s s' K' p) rng_fault.
Proof.
  intros R Hn. unfold get_random_int. apply wp_bind, wp_gets, wp_bind. unfold RANDOM_CACHE_SIZE.
  pose proof (ra_idx _ _ _ _ R) as Hi. rewrite w32_small by lia.
  assert (forall K' d' p (s1 : rstate), rng_at K' d' p (r_rng s1) -> rs_index (r_rng s1) + n <= 256 ->
     wp (let! st := gets r_rng in
         let! b := cache_read st n in
         modify (set_r_rng (mkRng (w32 (rs_index st + n)) (rs_reseed st) (rs_ctx st) (rs_cache st)));;
         ret (le_of_bytes b)) s1
      (fun v s' => v = le_of_bytes (stream_bytes (fst K') (snd K') p n) /\
                   r_os s' = r_os s1 /\ rng_at K' d' (p + n) (r_rng s')) rng_fault) as T.
  { intros K' d' p s1 R1 H1. apply wp_bind, wp_gets, wp_bind.
    destruct (take_wp K' d' p n s1 R1 ltac:(lia) H1) as [E A]. unfold wp at 1. rewrite E.
    apply wp_bind, wp_modify, wp_ret. cbn. auto. }
  destruct (Z.ltb_spec (256 - rs_index (r_rng s)) n).
  - eapply wp_mono; [eapply refill_wp; eassumption | | auto].
    intros _ s1 (Ro & Hx & [(Hr & Eo & R1)|(Hr & Hent & K' & R1)]).
    + eapply wp_mono; [eapply (T _ _ _ _ R1); lia | | auto].
      intros v s' (Ev & Eo' & R2). exists K. eexists. split; [exact Ev|].
      split; [rewrite Eo', Eo; apply os_rel_refl|]. left. split; [auto|]. split.
      * destruct R. lia.
      * split; [exact R2 | congruence].
    + eapply wp_mono; [eapply (T _ _ _ _ R1); lia | | auto].
      intros v s' (Ev & Eo' & R2). exists K', 0. split; [exact Ev|].
      split; [rewrite Eo'; exact Ro|]. right. split; [auto|]. split; [exact R2 | congruence].
  - apply wp_ret. eapply wp_mono; [eapply (T _ _ _ _ R); lia | | auto].
    intros v s' (Ev & Eo' & R2). exists K, lo. split; [exact Ev|].
    split; [rewrite Eo'; apply os_rel_refl|]. left. split; [auto|]. split; [lia|]. split; [exact R2 | congruence].
Qed.

Lemma drawn_ok K d lo n s s' K' p : drawn K d lo n s s' K' p -> rng_ok (r_rng s').
Proof. intros [_ [(_ & _ & R & _)|(_ & R & _)]]; eexists; eexists; eexists; eassumption. Qed.

(** weak specification, enough for the allocator *)
Lemma get_random_int_ok n s : rng_ok (r_rng s) -> 0 < n <= 256 ->
  wp (get_random_int n) s (fun v s' => 0 <= v < 256 ^ n /\ rng_ok (r_rng s') /\ os_rel (r_os s) (r_os s')) rng_fault.
Proof.
  intros (K & d & lo & R) Hn. eapply wp_mono; [eapply get_random_int_wp; eauto | | auto].
  intros v s' (K' & p & -> & D). split; [|split; [eapply drawn_ok; eauto | apply D]].
  rewrite <- (stream_len (fst K') (snd K') p n) at 3 by lia.
  apply le_of_bytes_range, stream_bytes_range.
Qed.

Lemma get_random_u16_ok s : rng_ok (r_rng s) ->
  wp get_random_u16 s (fun v s' => 0 <= v < 2 ^ 16 /\ rng_ok (r_rng s') /\ os_rel (r_os s) (r_os s')) rng_fault.
Proof. intros. eapply (get_random_int_ok 2); auto; lia. Qed.
Lemma get_random_u64_ok s : rng_ok (r_rng s) ->
  wp get_random_u64 s (fun v s' => 0 <= v < 2 ^ 64 /\ rng_ok (r_rng s') /\ os_rel (r_os s) (r_os s')) rng_fault.
Proof. intros. eapply (get_random_int_ok 8); auto; lia. Qed.

(** ** bounded draws *)
Lemma u16_threshold_0 bound : u16_threshold bound = 0.
Proof.
  unfold u16_threshold. destruct (Z.eq_dec bound 0) as [->|N]; [reflexivity|].
  rewrite Z.rem_opp_l by auto. rewrite Z.rem_same by auto. reflexivity.
Qed.

Lemma u16_uniform_ok bound s : rng_ok (r_rng s) -> 0 <= bound < 2 ^ 16 ->
  wp (get_random_u16_uniform bound) s
    (fun v s' => 0 <= v /\ (v < bound \/ bound = 0 /\ v = 0) /\ rng_ok (r_rng s') /\ os_rel (r_os s) (r_os s')) rng_fault.
Proof.
  intros R Hb. unfold get_random_u16_uniform. rewrite w16_small by lia. apply wp_bind.
  eapply wp_mono; [apply get_random_u16_ok; auto| |auto].
  intros v s' (Hv & R' & O). change (2 ^ 16) with 65536 in *.
  assert (w32 (v * bound) = v * bound) as E by (apply w32_small; nia). rewrite E.
  assert (forall t, wp (ret (v * bound)) s' (fun m s1 => m = v * bound /\ s1 = s') t) as W by (intros; apply wp_ret; auto).
  apply wp_bind. eapply (wp_mono _ _ (fun m s1 => m = v * bound /\ s1 = s') _ rng_fault).
  - destruct (w16 (v * bound) <? bound); [|apply W].
    apply wp_bind, wp_get. rewrite u16_threshold_0.
    assert (w16 (v * bound) <? 0 = false) as F by (pose proof (w16_range (v * bound)); lia).
    destruct (fuel (r_os s')); cbn [u16_reject_loop]; rewrite F; apply W.
  - intros m s1 [-> ->]. apply wp_ret. rewrite Z.shiftr_div_pow2 by lia. change (2 ^ 16) with 65536.
    assert (0 <= v * bound / 65536) by (apply Z.div_pos; nia).
    assert (v * bound / 65536 < bound \/ bound = 0 /\ v * bound / 65536 = 0) as B.
    { destruct (Z.eq_dec bound 0) as [->|]; [right; rewrite Z.mul_0_r; auto|]. left. apply Z.div_lt_upper_bound; nia. }
    rewrite w16_small by lia. auto.
  - auto.
Qed.

(** the result and acceptance condition of one raw draw *)
Definition u64_accept (bound x : Z) : Prop := (x * bound) mod 2 ^ 64 >= 2 ^ 64 mod bound.
Definition u64_result (bound x : Z) : Z := x * bound / 2 ^ 64.

Lemma u64_threshold_eq bound : 0 < bound < 2 ^ 64 -> u64_threshold bound = 2 ^ 64 mod bound.
Proof.
  intros H. unfold u64_threshold, w64.
  replace ((- bound) mod 2 ^ 64) with (2 ^ 64 - bound) by (apply Z.mod_unique with (-1); lia).
  replace (2 ^ 64 - bound) with (2 ^ 64 + (-1) * bound) by lia.
  now rewrite Z_mod_plus_full.
Qed.

Lemma u64_loop_ok bound : 0 < bound < 2 ^ 64 -> forall fu x s, rng_ok (r_rng s) -> 0 <= x < 2 ^ 64 ->
  wp (u64_reject_loop fu bound (u64_threshold bound) (x * bound)) s
    (fun m s' => (exists y, 0 <= y < 2 ^ 64 /\ u64_accept bound y /\ m = y * bound) /\ rng_ok (r_rng s') /\ os_rel (r_os s) (r_os s')) rng_fault.
Proof.
  intros Hb. induction fu as [|fu IH]; intros x s R Hx; cbn [u64_reject_loop];
    rewrite u64_threshold_eq by auto; destruct (Z.ltb_spec (w64 (x * bound)) (2 ^ 64 mod bound)).
  - apply wp_fail. left. reflexivity.
  - apply wp_ret. split; [|split; [auto|apply os_rel_refl]]. exists x. split; [auto|]. split; [unfold u64_accept, w64 in *; lia|auto].
  - apply wp_bind. eapply wp_mono; [apply get_random_u64_ok; auto| |auto].
    intros v s1 (Hv & R1 & O1). rewrite <- u64_threshold_eq by auto. eapply wp_mono; [apply IH; auto| |auto].
    intros m s2 (Hm & R2 & O2). split; [auto|]. split; [auto|]. eapply os_rel_trans; eauto.
  - apply wp_ret. split; [|split; [auto|apply os_rel_refl]]. exists x. split; [auto|]. split; [unfold u64_accept, w64 in *; lia|auto].
Qed.

Lemma u64_uniform_ok bound s : rng_ok (r_rng s) -> 0 <= bound < 2 ^ 64 ->
  wp (get_random_u64_uniform bound) s
    (fun v s' => 0 <= v /\ (v < bound \/ bound = 0 /\ v = 0) /\ rng_ok (r_rng s') /\ os_rel (r_os s) (r_os s')) rng_fault.
Proof.
  intros R Hb. unfold get_random_u64_uniform. apply wp_bind.
  eapply wp_mono; [apply get_random_u64_ok; auto| |auto].
  intros v s' (Hv & R' & O). apply wp_bind.
  destruct (Z.eq_dec bound 0) as [->|N].
  { rewrite Z.mul_0_r. change (w64 0 <? 0) with false. apply wp_ret, wp_ret. cbn. auto 8 using Z.le_refl. }
  eapply (wp_mono _ _ (fun m s1 => (exists y, 0 <= y < 2 ^ 64 /\ m = y * bound) /\ rng_ok (r_rng s1) /\ os_rel (r_os s') (r_os s1)) _ rng_fault).
  - destruct (w64 (v * bound) <? bound).
    + apply wp_bind, wp_get. eapply wp_mono; [apply u64_loop_ok; auto; lia| |auto].
      intros m s1 ((y & Hy & _ & ->) & R1 & O1). split; eauto.
    + apply wp_ret. split; [eauto|]. split; [auto|apply os_rel_refl].
  - intros m s1 ((y & Hy & ->) & R1 & O1). apply wp_ret. rewrite Z.shiftr_div_pow2 by lia.
    assert (0 <= y * bound / 2 ^ 64) by (apply Z.div_pos; [apply Z.mul_nonneg_nonneg; lia | lia]).
    assert (y * bound / 2 ^ 64 < bound).
    { apply Z.div_lt_upper_bound; [lia|]. apply Z.mul_lt_mono_pos_r; lia. }
    rewrite w64_small by lia. split; [lia|]. split; [auto|]. split; [auto|]. eapply os_rel_trans; eauto.
  - auto.
Qed.
