(** Basic lemmas: machine arithmetic, arrays, wp calculus. *)
From Coq Require Import String ZArith List Bool Lia Permutation ZifyBool.
From Verif Require Import M_Base.
Import ListNotations.
Open Scope Z_scope.

Ltac Zify.zify_post_hook ::= Z.div_mod_to_equations.

(** ** Machine integers *)
Lemma pow2_64 : 2 ^ 64 = 18446744073709551616. Proof. reflexivity. Qed.
Lemma pow2_32 : 2 ^ 32 = 4294967296. Proof. reflexivity. Qed.
Lemma pow2_16 : 2 ^ 16 = 65536. Proof. reflexivity. Qed.
Lemma pow2_8 : 2 ^ 8 = 256. Proof. reflexivity. Qed.

Lemma w64_range x : 0 <= w64 x < 2 ^ 64.
Proof. unfold w64. apply Z.mod_pos_bound. lia. Qed.
Lemma w32_range x : 0 <= w32 x < 2 ^ 32.
Proof. unfold w32. apply Z.mod_pos_bound. lia. Qed.
Lemma w16_range x : 0 <= w16 x < 2 ^ 16.
Proof. unfold w16. apply Z.mod_pos_bound. lia. Qed.
Lemma w8_range x : 0 <= w8 x < 2 ^ 8.
Proof. unfold w8. apply Z.mod_pos_bound. lia. Qed.
Lemma w64_small x : 0 <= x < 2 ^ 64 -> w64 x = x.
Proof. unfold w64. apply Z.mod_small. Qed.
Lemma w32_small x : 0 <= x < 2 ^ 32 -> w32 x = x.
Proof. unfold w32. apply Z.mod_small. Qed.
Lemma w16_small x : 0 <= x < 2 ^ 16 -> w16 x = x.
Proof. unfold w16. apply Z.mod_small. Qed.
Lemma w8_small x : 0 <= x < 2 ^ 8 -> w8 x = x.
Proof. unfold w8. apply Z.mod_small. Qed.

Lemma pow2_pos k : 0 <= k -> 0 < 2 ^ k.
Proof. intros. apply Z.pow_pos_nonneg; lia. Qed.

Lemma ones_eq k : 0 <= k -> 2 ^ k - 1 = Z.ones k.
Proof. intros. rewrite Z.ones_equiv. lia. Qed.

Lemma land_himask x k : 0 <= x < 2 ^ 64 -> 0 <= k <= 64 ->
  Z.land x (SIZE_MAX - (2 ^ k - 1)) = x / 2 ^ k * 2 ^ k.
Proof.
  intros Hx Hk. unfold SIZE_MAX.
  replace (2 ^ 64 - 1 - (2 ^ k - 1)) with (Z.ones 64 - Z.ones k)
    by (rewrite !Z.ones_equiv; lia).
  rewrite Z.sub_nocarry_ldiff.
  2:{ apply Z.bits_inj'. intros n Hn. rewrite Z.ldiff_spec, Z.bits_0.
      destruct (Z.lt_ge_cases n k).
      - rewrite (Z.ones_spec_low 64) by lia. now rewrite andb_false_r.
      - rewrite (Z.ones_spec_high k) by lia. reflexivity. }
  transitivity (Z.ldiff x (Z.ones k)).
  { apply Z.bits_inj'. intros n Hn. rewrite Z.land_spec, !Z.ldiff_spec.
    destruct (Z.lt_ge_cases n 64).
    - rewrite (Z.ones_spec_low 64) by lia. reflexivity.
    - rewrite (Z.ones_spec_high 64) by lia.
      rewrite <- (Z.mod_small x (2 ^ 64)) by lia.
      rewrite Z.mod_pow2_bits_high by lia. reflexivity. }
  rewrite Z.ldiff_ones_r by lia.
  rewrite Z.shiftl_mul_pow2, Z.shiftr_div_pow2 by lia. reflexivity.
Qed.

(** align to a power of two, exactly: round up, wrapping at 2^64 *)
Lemma c_align_pow2 s k : 0 <= s < 2 ^ 64 -> 0 <= k < 64 ->
  c_align s (2 ^ k) = w64 (s + (2 ^ k - 1)) / 2 ^ k * 2 ^ k.
Proof.
  intros Hs Hk. unfold c_align.
  assert (0 < 2 ^ k) by (apply pow2_pos; lia).
  assert (2 ^ k <= 2 ^ 63) by (apply Z.pow_le_mono_r; lia).
  rewrite (w64_small (2 ^ k - 1)) by (change (2^64) with (2 * 2^63); lia).
  apply land_himask; [apply w64_range | lia].
Qed.

Lemma page_align_eq s : 0 <= s < 2 ^ 64 -> page_align s = w64 (s + 4095) / 4096 * 4096.
Proof. intros. unfold page_align, PAGE_SIZE. exact (c_align_pow2 s 12 H ltac:(lia)). Qed.

Lemma page_align_small s : 0 <= s <= 2 ^ 64 - 4096 -> page_align s = (s + 4095) / 4096 * 4096.
Proof. intros. rewrite page_align_eq by lia. rewrite w64_small by lia. reflexivity. Qed.

(** ** Lists / arrays *)
Lemma lget_Some_range {A} (l : list A) i x : lget l i = Some x -> 0 <= i < zlen l.
Proof.
  unfold lget, zlen. destruct (Z.ltb_spec i 0); [discriminate|].
  intros E. assert (nth_error l (Z.to_nat i) <> None) as N by congruence.
  apply nth_error_Some in N. lia.
Qed.
Lemma lget_in_range {A} (l : list A) i : 0 <= i < zlen l -> exists x, lget l i = Some x.
Proof.
  unfold lget, zlen. intros H. destruct (Z.ltb_spec i 0); [lia|].
  destruct (nth_error l (Z.to_nat i)) eqn:E; [eauto|].
  apply nth_error_None in E. lia.
Qed.
Lemma nset_length {A} (l : list A) n x : length (nset l n x) = length l.
Proof. revert n. induction l; destruct n; simpl; auto. Qed.
Lemma lset_zlen {A} (l : list A) i x : zlen (lset l i x) = zlen l.
Proof. unfold lset, zlen. destruct (i <? 0); auto. now rewrite nset_length. Qed.
Lemma nth_error_nset_eq {A} (l : list A) n x : (n < length l)%nat -> nth_error (nset l n x) n = Some x.
Proof. revert n. induction l; destruct n; simpl; intros; try lia; auto. apply IHl. lia. Qed.
Lemma nth_error_nset_ne {A} (l : list A) n m x : n <> m -> nth_error (nset l n x) m = nth_error l m.
Proof. revert n m. induction l; destruct n, m; simpl; intros; try lia; auto. Qed.
Lemma lget_lset_eq {A} (l : list A) i x : 0 <= i < zlen l -> lget (lset l i x) i = Some x.
Proof.
  unfold lget, lset, zlen. intros. destruct (Z.ltb_spec i 0); [lia|].
  apply nth_error_nset_eq. lia.
Qed.
Lemma lget_lset_ne {A} (l : list A) i j x : i <> j -> lget (lset l i x) j = lget l j.
Proof.
  unfold lget, lset. intros. destruct (Z.ltb_spec i 0), (Z.ltb_spec j 0); auto.
  apply nth_error_nset_ne. lia.
Qed.
Lemma lget_lset {A} (l : list A) i j x : 0 <= i < zlen l ->
  lget (lset l i x) j = if j =? i then Some x else lget l j.
Proof.
  intros. destruct (Z.eqb_spec j i) as [->|].
  - now apply lget_lset_eq.
  - apply lget_lset_ne. congruence.
Qed.
Lemma lget_In {A} (l : list A) i x : lget l i = Some x -> In x l.
Proof.
  unfold lget. destruct (i <? 0); [discriminate|]. apply nth_error_In.
Qed.
Lemma In_lget {A} (l : list A) x : In x l -> exists i, lget l i = Some x.
Proof.
  intros H. apply In_nth_error in H. destruct H as [n H]. exists (Z.of_nat n).
  unfold lget. destruct (Z.ltb_spec (Z.of_nat n) 0); [lia|]. now rewrite Nat2Z.id.
Qed.
Lemma lget_ext {A} (l1 l2 : list A) : (forall i, 0 <= i -> lget l1 i = lget l2 i) -> l1 = l2.
Proof.
  revert l2. induction l1 as [|a l1 IH]; intros [|b l2] H; auto.
  - specialize (H 0 ltac:(lia)). discriminate.
  - specialize (H 0 ltac:(lia)). discriminate.
  - f_equal.
    + specialize (H 0 ltac:(lia)). unfold lget in H. simpl in H. congruence.
    + apply IH. intros i Hi. specialize (H (i + 1) ltac:(lia)). unfold lget in *.
      destruct (Z.ltb_spec (i+1) 0), (Z.ltb_spec i 0); try lia.
      rewrite Z2Nat.inj_add in H by lia. rewrite Nat.add_1_r in H. exact H.
Qed.
Lemma zlen_nonneg {A} (l : list A) : 0 <= zlen l. Proof. unfold zlen. lia. Qed.
Lemma zlen_cons {A} (a : A) l : zlen (a :: l) = zlen l + 1. Proof. unfold zlen. simpl. lia. Qed.
Lemma zlen_nil {A} : zlen (@nil A) = 0. Proof. reflexivity. Qed.
Lemma zlen_app {A} (l1 l2 : list A) : zlen (l1 ++ l2) = zlen l1 + zlen l2.
Proof. unfold zlen. rewrite app_length. lia. Qed.
Lemma zlen_repeat {A} (x : A) n : zlen (repeat x n) = Z.of_nat n.
Proof. unfold zlen. now rewrite repeat_length. Qed.
Lemma lget_repeat {A} (x : A) n i : 0 <= i < Z.of_nat n -> lget (repeat x n) i = Some x.
Proof.
  intros H. destruct (lget_in_range (repeat x n) i) as [y Hy]; [rewrite zlen_repeat; lia|].
  rewrite Hy. f_equal. apply lget_In in Hy. now apply repeat_spec in Hy.
Qed.
Lemma lget_0_cons {A} (a : A) l : lget (a :: l) 0 = Some a. Proof. reflexivity. Qed.
Lemma lget_S_cons {A} (a : A) l i : 0 <= i -> lget (a :: l) (i + 1) = lget l i.
Proof.
  intros H. unfold lget. destruct (Z.ltb_spec (i+1) 0), (Z.ltb_spec i 0); try lia.
  rewrite Z2Nat.inj_add by lia. now rewrite Nat.add_1_r.
Qed.

Lemma in_zseq lo n x : In x (zseq lo n) <-> lo <= x < lo + Z.of_nat n.
Proof.
  revert lo. induction n; intros lo; simpl.
  - lia.
  - rewrite IHn. lia.
Qed.
Lemma in_zrange lo hi x : In x (zrange lo hi) <-> lo <= x < hi.
Proof. unfold zrange. rewrite in_zseq. lia. Qed.
Lemma zseq_length lo n : length (zseq lo n) = n.
Proof. revert lo. induction n; simpl; auto. Qed.
Lemma zseq_NoDup lo n : NoDup (zseq lo n).
Proof.
  revert lo. induction n; intros; simpl; constructor; auto.
  rewrite in_zseq. lia.
Qed.
Lemma zrange_NoDup lo hi : NoDup (zrange lo hi). Proof. apply zseq_NoDup. Qed.
Lemma zseq_app lo n m : zseq lo (n + m) = zseq lo n ++ zseq (lo + Z.of_nat n) m.
Proof.
  revert lo. induction n; intros; simpl.
  - f_equal. lia.
  - f_equal. rewrite IHn. f_equal. f_equal. lia.
Qed.
Lemma zrange_snoc lo hi : lo <= hi -> zrange lo (hi + 1) = zrange lo hi ++ [hi].
Proof.
  intros. unfold zrange. replace (Z.to_nat (hi + 1 - lo)) with (Z.to_nat (hi - lo) + 1)%nat by lia.
  rewrite zseq_app. simpl. do 2 f_equal. lia.
Qed.
Lemma zrange_nil lo hi : hi <= lo -> zrange lo hi = [].
Proof. intros. unfold zrange. replace (Z.to_nat (hi - lo)) with 0%nat by lia. reflexivity. Qed.
Lemma zrange_cons lo hi : lo < hi -> zrange lo hi = lo :: zrange (lo + 1) hi.
Proof.
  intros. unfold zrange. replace (Z.to_nat (hi - lo)) with (S (Z.to_nat (hi - (lo + 1)))) by lia.
  reflexivity.
Qed.
Lemma zrange_app lo mid hi : lo <= mid <= hi -> zrange lo hi = zrange lo mid ++ zrange mid hi.
Proof.
  intros. unfold zrange. replace (Z.to_nat (hi - lo)) with (Z.to_nat (mid - lo) + Z.to_nat (hi - mid))%nat by lia.
  rewrite zseq_app. do 2 f_equal. lia.
Qed.
Lemma zrange_zlen lo hi : zlen (zrange lo hi) = Z.max 0 (hi - lo).
Proof. unfold zlen, zrange. rewrite zseq_length. lia. Qed.
Lemma forallb_zrange f lo hi : forallb f (zrange lo hi) = true <-> (forall x, lo <= x < hi -> f x = true).
Proof.
  rewrite forallb_forall. split; intros H x Hx; apply H; now apply in_zrange.
Qed.

Lemma fupd_eq {A} (f : Z -> A) i x : fupd f i x i = x.
Proof. unfold fupd. now rewrite Z.eqb_refl. Qed.
Lemma fupd_ne {A} (f : Z -> A) i j x : i <> j -> fupd f i x j = f j.
Proof. unfold fupd. intros. destruct (Z.eqb_spec j i); congruence. Qed.

(** ** Weakest preconditions.
    [wp m s Q E]: m from s either returns normally with Q, or fails with E. *)
Definition wp {S A} (m : M S A) (s : S) (Q : A -> S -> Prop) (E : fault -> Prop) : Prop :=
  match m s with
  | Ok (a, s') => Q a s'
  | Fail f => E f
  end.

Lemma wp_ret {S A} (a : A) (s : S) (Q : A -> S -> Prop) (E : fault -> Prop) : Q a s -> wp (ret a) s Q E.
Proof. auto. Qed.
Lemma wp_fail {S A} f (s : S) (Q : A -> S -> Prop) (E : fault -> Prop) : E f -> wp (fail f) s Q E.
Proof. auto. Qed.
Lemma wp_bind {S A B} (m : M S A) (k : A -> M S B) s Q E :
  wp m s (fun a s' => wp (k a) s' Q E) E -> wp (bind m k) s Q E.
Proof. unfold wp, bind. destruct (m s) as [[a s']|f]; auto. Qed.
Lemma wp_bind_inv {S A B} (m : M S A) (k : A -> M S B) s Q E :
  wp (bind m k) s Q E -> wp m s (fun a s' => wp (k a) s' Q E) E.
Proof. unfold wp, bind. destruct (m s) as [[a s']|f]; auto. Qed.
Lemma wp_get {S} (s : S) (Q : S -> S -> Prop) (E : fault -> Prop) : Q s s -> wp get s Q E. Proof. auto. Qed.
Lemma wp_gets {S A} (f : S -> A) (s : S) (Q : A -> S -> Prop) (E : fault -> Prop) : Q (f s) s -> wp (gets f) s Q E. Proof. auto. Qed.
Lemma wp_put {S} (s t : S) (Q : unit -> S -> Prop) (E : fault -> Prop) : Q tt t -> wp (put t) s Q E. Proof. auto. Qed.
Lemma wp_modify {S} (f : S -> S) (s : S) (Q : unit -> S -> Prop) (E : fault -> Prop) : Q tt (f s) -> wp (modify f) s Q E. Proof. auto. Qed.
Lemma wp_mono {S A} (m : M S A) s (Q Q' : A -> S -> Prop) (E E' : fault -> Prop) :
  wp m s Q E -> (forall a s', Q a s' -> Q' a s') -> (forall f, E f -> E' f) -> wp m s Q' E'.
Proof. unfold wp. destruct (m s) as [[a s']|f]; auto. Qed.
Lemma wp_zoom {S T A} (gt : S -> T) (st : T -> S -> S) (m : M T A) s Q E :
  wp m (gt s) (fun a t => Q a (st t s)) E -> wp (zoom gt st m) s Q E.
Proof. unfold wp, zoom. destruct (m (gt s)) as [[a t]|f]; auto. Qed.
Lemma wp_Ok {S A} (m : M S A) s Q E a s' : wp m s Q E -> m s = Ok (a, s') -> Q a s'.
Proof. unfold wp. intros H H1. rewrite H1 in H. exact H. Qed.
Lemma wp_Fail {S A} (m : M S A) s Q E f : wp m s Q E -> m s = Fail f -> E f.
Proof. unfold wp. intros H H1. rewrite H1 in H. exact H. Qed.
Lemma wp_conj {S A} (m : M S A) s Q1 Q2 E1 E2 :
  wp m s Q1 E1 -> wp m s Q2 E2 -> wp m s (fun a s' => Q1 a s' /\ Q2 a s') (fun f => E1 f /\ E2 f).
Proof. unfold wp. destruct (m s) as [[a s']|f]; auto. Qed.

Lemma run_pbind {S A B} (p : prog S A) (k : A -> prog S B) s :
  run (pbind p k) s = bind (run p) (fun a => run (k a)) s.
Proof.
  revert s. induction p as [a|B' m k' IH]; intros s; simpl.
  - reflexivity.
  - unfold bind. destruct (m s) as [[b s']|f]; auto. rewrite IH. reflexivity.
Qed.
Lemma wp_run_pbind {S A B} (p : prog S A) (k : A -> prog S B) s Q E :
  wp (run p) s (fun a s' => wp (run (k a)) s' Q E) E -> wp (run (pbind p k)) s Q E.
Proof. intros H. unfold wp. rewrite run_pbind. apply wp_bind in H. exact H. Qed.
Lemma wp_run_act {S A} (m : M S A) s Q E : wp m s Q E -> wp (run (act m)) s Q E.
Proof.
  unfold act, run, wp, bind. destruct (m s) as [[a s']|f]; auto.
Qed.
Lemma wp_run_ret {S A} (a : A) (s : S) (Q : A -> S -> Prop) (E : fault -> Prop) : Q a s -> wp (run (Ret a)) s Q E.
Proof. auto. Qed.

Lemma wp_aget {S A} (l : list A) i (s : S) (Q : A -> S -> Prop) (E : fault -> Prop) :
  0 <= i < zlen l -> (forall x, lget l i = Some x -> Q x s) -> wp (aget l i) s Q E.
Proof.
  intros Hi HQ. destruct (lget_in_range l i Hi) as [x Hx].
  unfold aget. rewrite Hx. apply wp_ret. auto.
Qed.
