(** ChaCha8 model = specification. *)
From Coq Require Import String ZArith List Bool Lia ZifyBool.
From Verif Require Import M_Base M_Chacha S_Chacha P_Base P_SizeClass.
Import ListNotations.
Open Scope Z_scope.

Definition u32 (x : Z) := 0 <= x < 2 ^ 32.

Lemma rotl32_rot v n : u32 v -> 0 < n < 32 -> rotl32 v n = rot v n.
Proof.
  intros Hv Hn. unfold u32 in Hv. unfold rotl32, rot, w32.
  rewrite Z.shiftl_mul_pow2, Z.shiftr_div_pow2 by lia.
  assert (2 ^ 32 = 2 ^ n * 2 ^ (32 - n)) as E by (rewrite <- Z.pow_add_r by lia; f_equal; lia).
  pose proof (pow2_pos n ltac:(lia)) as P1. pose proof (pow2_pos (32 - n) ltac:(lia)) as P2.
  assert (0 <= v / 2 ^ (32 - n) < 2 ^ n) as B.
  { split; [apply Z.div_pos; lia|]. apply Z.div_lt_upper_bound; lia. }
  assert ((v * 2 ^ n) mod 2 ^ 32 = v mod 2 ^ (32 - n) * 2 ^ n) as EM.
  { rewrite E, (Z.mul_comm (2 ^ n)), Z.mul_mod_distr_r by lia. reflexivity. }
  rewrite <- Z.add_mod_idemp_l by lia. rewrite EM.
  pose proof (Z.mod_pos_bound v (2 ^ (32 - n)) P2) as Bm.
  rewrite (Z.mod_small (_ + _)).
  2:{ rewrite E. revert B Bm P1 P2. generalize (v mod 2 ^ (32 - n)) (v / 2 ^ (32 - n)) (2 ^ n) (2 ^ (32 - n)).
      clear. intros m q a b Hq Hm Ha Hb. nia. }
  rewrite Z.add_nocarry_lxor, Z.lxor_lor; try reflexivity.
  all: apply Z.bits_inj'; intros i Hi; rewrite Z.land_spec, Z.bits_0;
    destruct (Z.lt_ge_cases i n);
    [ rewrite <- Z.shiftl_mul_pow2 by lia; rewrite Z.shiftl_spec_low by lia; reflexivity
    | rewrite andb_comm; rewrite <- (Z.mod_small (v / 2 ^ (32 - n)) (2 ^ n)) by lia;
      rewrite Z.mod_pow2_bits_high by lia; reflexivity ].
Qed.

Lemma plus32_u32 a b : u32 (plus32 a b). Proof. apply w32_range. Qed.
Lemma add_u32 a b : u32 (add a b). Proof. unfold add, u32. apply Z.mod_pos_bound. lia. Qed.
Lemma rot_u32 a b : u32 (rot a b). Proof. unfold rot, u32. apply Z.mod_pos_bound. lia. Qed.
Lemma lxor_u32 a b : u32 a -> u32 b -> u32 (Z.lxor a b).
Proof.
  unfold u32. intros Ha Hb. split; [apply Z.lxor_nonneg; lia|].
  destruct (Z.eq_dec (Z.lxor a b) 0) as [->|N]; [lia|].
  assert (0 <= Z.lxor a b) by (apply Z.lxor_nonneg; lia).
  apply Z.log2_lt_pow2; [lia|].
  pose proof (Z.log2_lxor a b ltac:(lia) ltac:(lia)).
  assert (forall x, 0 <= x < 2 ^ 32 -> Z.log2 x < 32).
  { intros x Hx. destruct (Z.eq_dec x 0) as [->|]; [cbn; lia|]. apply Z.log2_lt_pow2; lia. }
  pose proof (H1 a Ha). pose proof (H1 b Hb). lia.
Qed.

(** quarter round on four values, spec side *)
Definition qr4 (a b c d : Z) : Z * Z * Z * Z :=
  let a := add a b in let d := rot (Z.lxor d a) 16 in
  let c := add c d in let b := rot (Z.lxor b c) 12 in
  let a := add a b in let d := rot (Z.lxor d a) 8 in
  let c := add c d in let b := rot (Z.lxor b c) 7 in (a, b, c, d).

Lemma qr4_u32 a b c d : let '(a', b', c', d') := qr4 a b c d in u32 a' /\ u32 b' /\ u32 c' /\ u32 d'.
Proof. unfold qr4. repeat split; solve [apply add_u32 | apply rot_u32]. Qed.

Definition qr4m (a b c d : Z) : Z * Z * Z * Z :=
  let a := plus32 a b in let d := rotl32 (Z.lxor d a) 16 in
  let c := plus32 c d in let b := rotl32 (Z.lxor b c) 12 in
  let a := plus32 a b in let d := rotl32 (Z.lxor d a) 8 in
  let c := plus32 c d in let b := rotl32 (Z.lxor b c) 7 in (a, b, c, d).

Lemma qr4m_eq a b c d : u32 a -> u32 b -> u32 c -> u32 d -> qr4m a b c d = qr4 a b c d.
Proof.
  intros Ha Hb Hc Hd. unfold qr4m, qr4.
  change plus32 with add.
  repeat match goal with
  | |- context [rotl32 (Z.lxor ?x ?y) ?n] =>
      rewrite (rotl32_rot (Z.lxor x y) n) by
        (try (apply lxor_u32; solve [assumption | apply add_u32 | apply rot_u32]); lia)
  end.
  reflexivity.
Qed.

Definition all32 (x : ctx) := Forall u32 x /\ length x = 16%nat.

(** sixteen-element lists *)
Lemma len16 (x : ctx) : length x = 16%nat ->
  exists a0 a1 a2 a3 a4 a5 a6 a7 a8 a9 a10 a11 a12 a13 a14 a15,
   x = [a0;a1;a2;a3;a4;a5;a6;a7;a8;a9;a10;a11;a12;a13;a14;a15].
Proof.
  intros H. do 16 (destruct x as [|? x]; [discriminate H|]). destruct x; [|discriminate H].
  repeat eexists.
Qed.

Definition to_matrix (x : ctx) : matrix :=
  match x with
  | [a0;a1;a2;a3;a4;a5;a6;a7;a8;a9;a10;a11;a12;a13;a14;a15] =>
     ((a0,a1,a2,a3),(a4,a5,a6,a7),(a8,a9,a10,a11),(a12,a13,a14,a15))
  | _ => ((0,0,0,0),(0,0,0,0),(0,0,0,0),(0,0,0,0))
  end.
Definition of_matrix (m : matrix) : ctx :=
  let '((a0,a1,a2,a3),(a4,a5,a6,a7),(a8,a9,a10,a11),(a12,a13,a14,a15)) := m in
  [a0;a1;a2;a3;a4;a5;a6;a7;a8;a9;a10;a11;a12;a13;a14;a15].

Definition m32 (m : matrix) := Forall u32 (of_matrix m).

Lemma column_round_qr a0 a1 a2 a3 b0 b1 b2 b3 c0 c1 c2 c3 d0 d1 d2 d3 :
  column_round ((a0,a1,a2,a3),(b0,b1,b2,b3),(c0,c1,c2,c3),(d0,d1,d2,d3)) =
  (let '(a0,b0,c0,d0) := qr4 a0 b0 c0 d0 in
   let '(a1,b1,c1,d1) := qr4 a1 b1 c1 d1 in
   let '(a2,b2,c2,d2) := qr4 a2 b2 c2 d2 in
   let '(a3,b3,c3,d3) := qr4 a3 b3 c3 d3 in
   ((a0,a1,a2,a3),(b0,b1,b2,b3),(c0,c1,c2,c3),(d0,d1,d2,d3))).
Proof. reflexivity. Qed.

Lemma double_round_qr a0 a1 a2 a3 b0 b1 b2 b3 c0 c1 c2 c3 d0 d1 d2 d3 :
  double_round ((a0,a1,a2,a3),(b0,b1,b2,b3),(c0,c1,c2,c3),(d0,d1,d2,d3)) =
  (let '(a0,b0,c0,d0) := qr4 a0 b0 c0 d0 in
   let '(a1,b1,c1,d1) := qr4 a1 b1 c1 d1 in
   let '(a2,b2,c2,d2) := qr4 a2 b2 c2 d2 in
   let '(a3,b3,c3,d3) := qr4 a3 b3 c3 d3 in
   let '(a0,b1,c2,d3) := qr4 a0 b1 c2 d3 in
   let '(a1,b2,c3,d0) := qr4 a1 b2 c3 d0 in
   let '(a2,b3,c0,d1) := qr4 a2 b3 c0 d1 in
   let '(a3,b0,c1,d2) := qr4 a3 b0 c1 d2 in
   ((a0,a1,a2,a3),(b0,b1,b2,b3),(c0,c1,c2,c3),(d0,d1,d2,d3))).
Proof.
  unfold double_round. rewrite column_round_qr.
  destruct (qr4 a0 b0 c0 d0) as [[[? ?] ?] ?], (qr4 a1 b1 c1 d1) as [[[? ?] ?] ?],
    (qr4 a2 b2 c2 d2) as [[[? ?] ?] ?], (qr4 a3 b3 c3 d3) as [[[? ?] ?] ?].
  cbn [diagonalise iter_rot Nat.iter nat_rect rotl_row]. rewrite column_round_qr.
  repeat match goal with |- context [qr4 ?a ?b ?c ?d] => destruct (qr4 a b c d) as [[[? ?] ?] ?] end.
  reflexivity.
Qed.

Lemma word_lset x i j v : zlen x = 16 -> 0 <= i < 16 -> word (lset x i v) j = if j =? i then v else word x j.
Proof. intros L H. unfold word. rewrite lget_lset by lia. destruct (j =? i); reflexivity. Qed.

Lemma quarterround_eq x a b c d : zlen x = 16 -> 0 <= a < 16 -> 0 <= b < 16 -> 0 <= c < 16 -> 0 <= d < 16 ->
  NoDup [a; b; c; d] ->
  quarterround x a b c d =
  let '(xa, xb, xc, xd) := qr4m (word x a) (word x b) (word x c) (word x d) in
  lset (lset (lset (lset x a xa) b xb) c xc) d xd.
Proof.
  intros L Ha Hb Hc Hd ND.
  assert (a <> b /\ a <> c /\ a <> d /\ b <> c /\ b <> d /\ c <> d) as (N1 & N2 & N3 & N4 & N5 & N6).
  { repeat match goal with H : NoDup (_ :: _) |- _ => inversion H; clear H; subst end. cbn in *. lia. }
  assert (forall y i j v, zlen y = 16 -> i <> j -> 0 <= i < 16 -> word (lset y i v) j = word y j) as WN.
  { intros. rewrite word_lset by auto. now replace (j =? i) with false by lia. }
  assert (forall y i v, zlen y = 16 -> 0 <= i < 16 -> word (lset y i v) i = v) as WE.
  { intros. rewrite word_lset by auto. now rewrite Z.eqb_refl. }
  unfold quarterround.
  match goal with |- _ = ?r => set (rhs := r) end.
  Ltac wstep WN WE :=
    lazymatch goal with |- context [let x := lset ?y ?i (?f (word ?y ?p) (word ?y ?q)) in _] => idtac end.
  cbv zeta.
  repeat (first [rewrite WE by (rewrite ?lset_zlen; assumption) | rewrite WN by (rewrite ?lset_zlen; auto)]).
  unfold rhs, qr4m. clear rhs. cbv zeta.
  assert (forall i j, i <> j -> (i =? j) = false) as EN by (intros; lia).
  repeat rewrite ?Z.eqb_refl, ?(EN a b), ?(EN b a), ?(EN a c), ?(EN c a), ?(EN a d), ?(EN d a),
    ?(EN b c), ?(EN c b), ?(EN b d), ?(EN d b), ?(EN c d), ?(EN d c) by lia.
  apply lget_ext. intros j Hj.
  repeat (rewrite lget_lset by (rewrite ?lset_zlen; lia)).
  destruct (Z.eqb_spec j a), (Z.eqb_spec j b), (Z.eqb_spec j c), (Z.eqb_spec j d); subst; try lia; reflexivity.
Qed.

Ltac qstep a b c d :=
  rewrite (quarterround_eq _ a b c d) by (first [reflexivity | lia | repeat constructor; cbn; lia]);
  match goal with
  | |- context [qr4m ?wa ?wb ?wc ?wd] =>
      let va := eval cbv [word lget nth_error Z.ltb Z.compare Z.to_nat Pos.to_nat Pos.iter_op Nat.add] in wa in
      let vb := eval cbv [word lget nth_error Z.ltb Z.compare Z.to_nat Pos.to_nat Pos.iter_op Nat.add] in wb in
      let vc := eval cbv [word lget nth_error Z.ltb Z.compare Z.to_nat Pos.to_nat Pos.iter_op Nat.add] in wc in
      let vd := eval cbv [word lget nth_error Z.ltb Z.compare Z.to_nat Pos.to_nat Pos.iter_op Nat.add] in wd in
      change (qr4m wa wb wc wd) with (qr4m va vb vc vd);
      let E := fresh "E" in destruct (qr4m va vb vc vd) as [[[? ?] ?] ?] eqn:E
  end;
  cbv [lset nset Z.ltb Z.compare Z.to_nat Pos.to_nat Pos.iter_op Nat.add].

Lemma two_rounds_eq x : all32 x ->
  two_rounds x = of_matrix (double_round (to_matrix x)) /\ m32 (double_round (to_matrix x)).
Proof.
  intros [Hu Hl]. destruct (len16 x Hl) as (a0&a1&a2&a3&a4&a5&a6&a7&a8&a9&a10&a11&a12&a13&a14&a15&->).
  repeat match goal with H : Forall _ (_ :: _) |- _ => inversion H; clear H; subst end.
  cbn [to_matrix]. rewrite double_round_qr. unfold two_rounds. cbv zeta.
  qstep 0 4 8 12. qstep 1 5 9 13. qstep 2 6 10 14. qstep 3 7 11 15.
  qstep 0 5 10 15. qstep 1 6 11 12. qstep 2 7 8 13. qstep 3 4 9 14.
  Ltac dq := match goal with
    | E : qr4m ?a ?b ?c ?d = (_,_,_,_) |- context [qr4 ?a ?b ?c ?d] =>
        rewrite qr4m_eq in E by assumption;
        let U := fresh "U" in pose proof (qr4_u32 a b c d) as U; rewrite E in *;
        destruct U as (? & ? & ? & ?); clear E
    end.
  do 8 dq. split; [reflexivity|]. unfold m32. cbn [of_matrix].
  repeat (apply Forall_cons; [assumption|]). apply Forall_nil.
Qed.

Lemma of_to x : length x = 16%nat -> of_matrix (to_matrix x) = x.
Proof.
  intros Hl. destruct (len16 x Hl) as (a0&a1&a2&a3&a4&a5&a6&a7&a8&a9&a10&a11&a12&a13&a14&a15&->).
  reflexivity.
Qed.
Lemma to_of m : to_matrix (of_matrix m) = m.
Proof. destruct m as [[[[[[? ?] ?] ?] [[[? ?] ?] ?]] [[[? ?] ?] ?]] [[[? ?] ?] ?]]. reflexivity. Qed.
Lemma of_len m : length (of_matrix m) = 16%nat.
Proof. destruct m as [[[[[[? ?] ?] ?] [[[? ?] ?] ?]] [[[? ?] ?] ?]] [[[? ?] ?] ?]]. reflexivity. Qed.

Lemma iter_comm {A} (f : A -> A) n x : Nat.iter n f (f x) = Nat.iter (S n) f x.
Proof. induction n; [reflexivity|]. change (f (Nat.iter n f (f x)) = f (Nat.iter (S n) f x)). f_equal. exact IHn. Qed.

Lemma loop_SS body i x : loop_by_two body (S (S i)) x = loop_by_two body i (body x).
Proof. reflexivity. Qed.

Lemma loop_refine (body : ctx -> ctx) (f : matrix -> matrix) :
  (forall x, all32 x -> body x = of_matrix (f (to_matrix x)) /\ m32 (f (to_matrix x))) ->
  forall n x, all32 x -> loop_by_two body (2 * n) x = of_matrix (Nat.iter n f (to_matrix x)).
Proof.
  intros HB. induction n as [|n IH]; intros x Hx.
  - destruct Hx. change (x = of_matrix (to_matrix x)). now rewrite of_to.
  - replace (2 * S n)%nat with (S (S (2 * n))) by lia.
    rewrite loop_SS.
    destruct (HB x Hx) as [-> Hm].
    rewrite IH by (split; [exact Hm | apply of_len]).
    rewrite to_of, iter_comm. reflexivity.
Qed.
Lemma do_rounds_eq n x : all32 x ->
  do_rounds (2 * n) x = of_matrix (Nat.iter n double_round (to_matrix x)).
Proof. exact (loop_refine two_rounds double_round two_rounds_eq n x). Qed.

Lemma land255 v i : 0 <= i -> Z.land (Z.shiftr v i) 255 = v / 2 ^ i mod 256.
Proof. intros. change 255 with (2 ^ 8 - 1). rewrite land_pow2m1 by lia. now rewrite Z.shiftr_div_pow2. Qed.

Lemma U32TO8_eq v : U32TO8_LITTLE v = bytes_of_word v.
Proof.
  unfold U32TO8_LITTLE, bytes_of_word. rewrite !land255 by lia.
  change 255 with (2 ^ 8 - 1). rewrite land_pow2m1 by lia. reflexivity.
Qed.

(** the context for block number n of (key, nonce) *)
Definition ctx_at (key nonce : list Z) (n : Z) : ctx :=
  words_of sigma ++ words_of key ++ [n mod 2 ^ 32; n / 2 ^ 32 mod 2 ^ 32] ++ words_of nonce.

Definition bytes (l : list Z) (n : nat) := length l = n /\ Forall (fun b => 0 <= b < 256) l.

Lemma le_or p0 p1 p2 p3 : 0 <= p0 < 256 -> 0 <= p1 < 256 -> 0 <= p2 < 256 -> 0 <= p3 < 256 ->
  U8TO32_LITTLE p0 p1 p2 p3 = p0 + 256 * (p1 + 256 * (p2 + 256 * p3)).
Proof.
  intros. unfold U8TO32_LITTLE. rewrite !Z.shiftl_mul_pow2 by lia.
  assert (forall a x n, 0 <= n -> 0 <= a < 2 ^ n -> Z.lor a (x * 2 ^ n) = a + x * 2 ^ n) as L.
  { intros a x n Hn Ha. rewrite <- Z.lxor_lor; [rewrite Z.add_nocarry_lxor; [reflexivity|]|];
    apply Z.bits_inj'; intros i Hi; rewrite Z.land_spec, Z.bits_0;
    destruct (Z.lt_ge_cases i n);
    [ rewrite <- Z.shiftl_mul_pow2 by lia; rewrite Z.shiftl_spec_low by lia; apply andb_false_r
    | rewrite <- (Z.mod_small a (2 ^ n)) by lia; rewrite Z.mod_pow2_bits_high by lia; reflexivity
    | rewrite <- Z.shiftl_mul_pow2 by lia; rewrite Z.shiftl_spec_low by lia; apply andb_false_r
    | rewrite <- (Z.mod_small a (2 ^ n)) by lia; rewrite Z.mod_pow2_bits_high by lia; reflexivity ]. }
  rewrite (L p0 p1 8), (L _ p2 16), (L _ p3 24) by (change (2 ^ 8) with 256; change (2 ^ 16) with 65536; change (2 ^ 24) with 16777216; lia).
  change (2 ^ 8) with 256. change (2 ^ 16) with 65536. change (2 ^ 24) with 16777216. lia.
Qed.

Lemma words_of_32 l n : bytes l n -> Forall u32 (words_of l).
Proof.
  intros [_ H]. revert H. revert l. fix IH 1. intros l H.
  destruct l as [|a [|b [|c [|d t]]]]; try constructor.
  - inversion H as [|? ? ? Hb]; subst. inversion Hb as [|? ? ? Hc]; subst. inversion Hc as [|? ? ? Hd]; subst. inversion Hd; subst.
    rewrite le_or by assumption. unfold u32. change (2 ^ 32) with 4294967296. lia.
  - apply IH. inversion H as [|? ? ? Hb]; subst. inversion Hb as [|? ? ? Hc]; subst. inversion Hc as [|? ? ? Hd]; subst. inversion Hd; subst. assumption.
Qed.

Ltac expl H k := destruct H as [Hlen HF]; do k (destruct k as [|? k]; [discriminate Hlen|]).

Lemma words_key key : bytes key 32 ->
  words_of key = [word_at key 0; word_at key 1; word_at key 2; word_at key 3;
                  word_at key 4; word_at key 5; word_at key 6; word_at key 7].
Proof.
  intros [Hlen HF]. do 32 (destruct key as [|? key]; [discriminate Hlen|]). destruct key; [|discriminate Hlen].
  repeat match goal with H : Forall _ (_ :: _) |- _ => inversion H; clear H; subst end.
  cbn [words_of]. rewrite !le_or by assumption.
  unfold word_at, le32. cbn [skipn Nat.mul Nat.add firstn fold_right].
  rewrite !Z.mul_0_r, !Z.add_0_r. reflexivity.
Qed.
Lemma words_nonce nonce : bytes nonce 8 -> words_of nonce = [word_at nonce 0; word_at nonce 1].
Proof.
  intros [Hlen HF]. do 8 (destruct nonce as [|? nonce]; [discriminate Hlen|]). destruct nonce; [|discriminate Hlen].
  repeat match goal with H : Forall _ (_ :: _) |- _ => inversion H; clear H; subst end.
  cbn [words_of]. rewrite !le_or by assumption.
  unfold word_at, le32. cbn [skipn Nat.mul Nat.add firstn fold_right].
  rewrite !Z.mul_0_r, !Z.add_0_r. reflexivity.
Qed.

Lemma ctx_at_32 key nonce n : bytes key 32 -> bytes nonce 8 -> all32 (ctx_at key nonce n).
Proof.
  intros Hk Hn. split.
  - unfold ctx_at. rewrite !Forall_app. repeat split.
    + apply (words_of_32 sigma 16). split; [reflexivity|]. repeat constructor; lia.
    + eapply words_of_32; eauto.
    + repeat constructor; unfold u32; apply Z.mod_pos_bound; lia.
    + eapply words_of_32; eauto.
  - unfold ctx_at. rewrite (words_key key), (words_nonce nonce) by assumption. reflexivity.
Qed.

Lemma block_eq key nonce n : bytes key 32 -> bytes nonce 8 ->
  chacha_block (ctx_at key nonce n) = chacha8_block key nonce n.
Proof.
  intros Hk Hn. pose proof (ctx_at_32 key nonce n Hk Hn) as H32.
  unfold chacha_block, chacha8_block. change rounds with (2 * 4)%nat. rewrite do_rounds_eq by assumption.
  unfold ctx_at. rewrite (words_key key), (words_nonce nonce) by assumption.
  change (words_of sigma) with [word_at constants 0; word_at constants 1; word_at constants 2; word_at constants 3].
  cbn [app to_matrix]. unfold chacha8_core.
  match goal with |- context [Nat.iter 4 double_round ?m] => generalize (Nat.iter 4 double_round m) end.
  intros m. destruct m as [[[[[[? ?] ?] ?] [[[? ?] ?] ?]] [[[? ?] ?] ?]] [[[? ?] ?] ?]].
  cbn [of_matrix plus_all map2 flat_map bytes_of_row]. rewrite !U32TO8_eq.
  change plus32 with add. rewrite !app_nil_r, <- !app_assoc. reflexivity.
Qed.

Lemma block_length key nonce n : length (chacha8_block key nonce n) = 64%nat.
Proof.
  unfold chacha8_block, chacha8_core.
  match goal with |- context [Nat.iter 4 double_round ?m] => generalize (Nat.iter 4 double_round m) end.
  intros m. destruct m as [[[[[[? ?] ?] ?] [[[? ?] ?] ?]] [[[? ?] ?] ?]] [[[? ?] ?] ?]]. reflexivity.
Qed.

Lemma incr_gen a0 a1 a2 a3 a4 a5 a6 a7 a8 a9 a10 a11 lo hi c0 c1 :
  incr_counter [a0;a1;a2;a3;a4;a5;a6;a7;a8;a9;a10;a11;lo;hi;c0;c1] =
  [a0;a1;a2;a3;a4;a5;a6;a7;a8;a9;a10;a11; plus32 lo 1; if plus32 lo 1 =? 0 then plus32 hi 1 else hi; c0; c1].
Proof.
  unfold incr_counter, word, lget, lset. generalize plus32. intros pl.
  change (Z.to_nat 12) with 12%nat. change (Z.to_nat 13) with 13%nat. cbn [Z.ltb Z.compare nth_error nset].
  destruct (pl lo 1 =? 0); reflexivity.
Qed.

Lemma incr_words n : 0 <= n < 2 ^ 64 ->
  plus32 (n mod 2 ^ 32) 1 = ((n + 1) mod 2 ^ 64) mod 2 ^ 32 /\
  (if plus32 (n mod 2 ^ 32) 1 =? 0 then plus32 (n / 2 ^ 32 mod 2 ^ 32) 1 else n / 2 ^ 32 mod 2 ^ 32) =
  ((n + 1) mod 2 ^ 64) / 2 ^ 32 mod 2 ^ 32.
Proof.
  intros Hr. unfold plus32, w32.
  set (lo := n mod 2 ^ 32) in *. set (hi := n / 2 ^ 32) in *.
  assert (n = hi * 2 ^ 32 + lo) as En by (unfold hi, lo; pose proof (Z.div_mod n (2 ^ 32)); lia).
  assert (0 <= lo < 2 ^ 32) as Hlo by (apply Z.mod_pos_bound; lia).
  assert (0 <= hi < 2 ^ 32) as Hhi by (split; [apply Z.div_pos; lia | apply Z.div_lt_upper_bound; lia]).
  clearbody lo hi. subst n. rewrite (Z.mod_small hi) by lia.
  destruct (Z.eq_dec lo (2 ^ 32 - 1)) as [->|El].
  - change ((2 ^ 32 - 1 + 1) mod 2 ^ 32) with 0. cbn [Z.eqb].
    destruct (Z.eq_dec hi (2 ^ 32 - 1)) as [->|Eh].
    + split; reflexivity.
    + rewrite (Z.mod_small (hi * 2 ^ 32 + (2 ^ 32 - 1) + 1)) by lia.
      split; [apply Z.mod_unique with (hi + 1); lia|].
      f_equal. apply Z.div_unique with 0; lia.
  - rewrite (Z.mod_small (lo + 1)) by lia. replace (lo + 1 =? 0) with false by lia.
    rewrite (Z.mod_small (hi * 2 ^ 32 + lo + 1)) by lia.
    split; [apply Z.mod_unique with hi; lia|].
    replace ((hi * 2 ^ 32 + lo + 1) / 2 ^ 32) with hi by (apply Z.div_unique with (lo + 1); lia).
    rewrite Z.mod_small by lia. reflexivity.
Qed.

Lemma incr_eq key nonce n : bytes key 32 -> bytes nonce 8 -> 0 <= n < 2 ^ 64 ->
  incr_counter (ctx_at key nonce n) = ctx_at key nonce ((n + 1) mod 2 ^ 64).
Proof.
  intros Hk Hn Hr. unfold ctx_at. rewrite (words_key key), (words_nonce nonce) by assumption.
  change (words_of sigma) with [word_at constants 0; word_at constants 1; word_at constants 2; word_at constants 3].
  cbn [app]. rewrite incr_gen. destruct (incr_words n Hr) as [E1 E2]. rewrite E2, E1. reflexivity.
Qed.

(** the keystream bytes at positions [pos .. pos+len) *)
Definition stream_bytes key nonce pos len := map (chacha8_stream key nonce) (zrange pos (pos + len)).

Lemma map_nth_zseq (l : list Z) : forall (f : Z -> Z) lo,
  (forall i, (i < length l)%nat -> f (lo + Z.of_nat i) = nth i l 0) ->
  map f (zseq lo (length l)) = l.
Proof.
  induction l as [|a l IH]; intros f lo H; cbn; [reflexivity|]. f_equal.
  - specialize (H 0%nat). cbn in H. rewrite <- H by lia. f_equal. lia.
  - apply IH. intros i Hi. specialize (H (S i)). cbn in H. rewrite <- H by lia. f_equal. lia.
Qed.

Lemma stream_block key nonce n k : 0 <= n -> 0 <= k <= 64 ->
  stream_bytes key nonce (64 * n) k = firstn (Z.to_nat k) (chacha8_block key nonce (n mod 2 ^ 64)).
Proof.
  intros Hn Hk. unfold stream_bytes, zrange.
  pose proof (block_length key nonce (n mod 2 ^ 64)) as L.
  assert (length (firstn (Z.to_nat k) (chacha8_block key nonce (n mod 2 ^ 64))) = Z.to_nat k) as L2
   by (rewrite firstn_length; lia).
  rewrite <- (map_nth_zseq (firstn (Z.to_nat k) (chacha8_block key nonce (n mod 2 ^ 64))) (chacha8_stream key nonce) (64 * n)).
  - f_equal. f_equal. lia.
  - rewrite L2. intros i Hi. unfold chacha8_stream.
    replace ((64 * n + Z.of_nat i) mod 64) with (Z.of_nat i) by lia.
    replace ((64 * n + Z.of_nat i) / 64) with n by lia.
    rewrite Nat2Z.id.
    rewrite <- (firstn_skipn (Z.to_nat k) (chacha8_block key nonce (n mod 2 ^ 64))) at 1.
    rewrite app_nth1 by lia. reflexivity.
Qed.

Lemma stream_app key nonce p a b : 0 <= a -> 0 <= b ->
  stream_bytes key nonce p (a + b) = stream_bytes key nonce p a ++ stream_bytes key nonce (p + a) b.
Proof.
  intros. unfold stream_bytes. rewrite <- map_app. f_equal.
  rewrite (zrange_app p (p + a)) by lia. f_equal. f_equal. lia.
Qed.
Lemma stream_len key nonce p a : 0 <= a -> zlen (stream_bytes key nonce p a) = a.
Proof. intros. unfold stream_bytes, zlen. rewrite map_length. fold (zlen (zrange p (p + a))). rewrite zrange_zlen. lia. Qed.

Lemma stream_ext key nonce i j : i mod 64 = j mod 64 -> i / 64 mod 2 ^ 64 = j / 64 mod 2 ^ 64 ->
  chacha8_stream key nonce i = chacha8_stream key nonce j.
Proof. unfold chacha8_stream. intros -> ->. reflexivity. Qed.

(** periodicity of the counter *)
Lemma stream_period key nonce p n k : 0 <= n -> 0 <= k -> p = 64 * n ->
  stream_bytes key nonce (64 * (n mod 2 ^ 64)) k = stream_bytes key nonce p k.
Proof.
  intros Hn Hk ->. unfold stream_bytes, zrange.
  replace (Z.to_nat (64 * (n mod 2 ^ 64) + k - 64 * (n mod 2 ^ 64))) with (Z.to_nat k) by lia.
  replace (Z.to_nat (64 * n + k - 64 * n)) with (Z.to_nat k) by lia.
  generalize (Z.to_nat k) as m.
  assert (forall m d, map (chacha8_stream key nonce) (zseq (64 * (n mod 2 ^ 64) + d) m) =
               map (chacha8_stream key nonce) (zseq (64 * n + d) m)) as H.
  { induction m as [|m IH]; intros d; cbn [zseq map]; [reflexivity|]. f_equal.
    - apply stream_ext.
      all: replace (64 * (n mod 2 ^ 64) + d) with (d + n mod 2 ^ 64 * 64) by (clear; generalize (n mod 2 ^ 64); lia).
      all: replace (64 * n + d) with (d + n * 64) by (clear; lia).
      + rewrite !Z_mod_plus_full. reflexivity.
      + rewrite !Z_div_plus_full by (clear; lia). rewrite Z.add_mod_idemp_r by (clear; lia). reflexivity.
    - specialize (IH (d + 1)). rewrite !Z.add_assoc in IH. exact IH. }
  intros m. specialize (H m 0). rewrite !Z.add_0_r in H. exact H.
Qed.

Lemma loop_eq key nonce : bytes key 32 -> bytes nonce 8 ->
  forall fuel n len, 0 <= n < 2 ^ 64 -> 0 < len -> (Z.to_nat (len / 64 + 1) <= fuel)%nat ->
  keystream_loop fuel (ctx_at key nonce n) len =
    (stream_bytes key nonce (64 * n) len, ctx_at key nonce ((n + (len + 63) / 64) mod 2 ^ 64)).
Proof.
  intros Hk Hn. induction fuel as [|f IH]; intros n len Hr Hlen Hf; [lia|].
  cbn [keystream_loop]. rewrite block_eq, incr_eq by assumption.
  destruct (Z.leb_spec len 64).
  - rewrite stream_block by lia. rewrite (Z.mod_small n) by lia.
    replace ((len + 63) / 64) with 1 by lia. reflexivity.
  - rewrite IH; [| apply Z.mod_pos_bound; lia | lia | lia ].
    f_equal.
    + replace len with (64 + (len - 64)) at 2 by lia. rewrite stream_app by lia. f_equal.
      * rewrite stream_block by lia. rewrite (Z.mod_small n) by lia. rewrite firstn_all2; [reflexivity|].
        rewrite block_length. lia.
      * rewrite (stream_period key nonce (64 * n + 64)) by lia. reflexivity.
    + f_equal. rewrite Z.add_mod_idemp_l by lia. f_equal. lia.
Qed.

Theorem keystream_eq key nonce n len : bytes key 32 -> bytes nonce 8 -> 0 <= n < 2 ^ 64 -> 0 <= len ->
  chacha_keystream_bytes (ctx_at key nonce n) len =
    (stream_bytes key nonce (64 * n) len, ctx_at key nonce ((n + (len + 63) / 64) mod 2 ^ 64)).
Proof.
  intros Hk Hn Hr Hlen. unfold chacha_keystream_bytes. destruct (Z.eqb_spec len 0) as [->|].
  - unfold stream_bytes. rewrite zrange_nil by lia. change ((0 + 63) / 64) with 0.
    rewrite Z.add_0_r, (Z.mod_small n) by lia. reflexivity.
  - apply loop_eq; auto; lia.
Qed.

Lemma setup_eq key nonce : chacha_setup key nonce = ctx_at key nonce 0.
Proof. reflexivity. Qed.

Lemma stream_byte_range key nonce i : 0 <= chacha8_stream key nonce i < 256.
Proof.
  unfold chacha8_stream.
  destruct (nth_in_or_default (Z.to_nat (i mod 64)) (chacha8_block key nonce (i / 64 mod 2 ^ 64)) 0) as [H|E0]; [|rewrite E0; lia].
  assert (Forall (fun b => 0 <= b < 256) (chacha8_block key nonce (i / 64 mod 2 ^ 64))) as F.
  { unfold chacha8_block, chacha8_core.
    match goal with |- context [Nat.iter 4 double_round ?m] => generalize (Nat.iter 4 double_round m) end.
    intros m. destruct m as [[[[[[? ?] ?] ?] [[[? ?] ?] ?]] [[[? ?] ?] ?]] [[[? ?] ?] ?]].
    cbn [map2 bytes_of_row]. rewrite !Forall_app.
    assert (forall w, Forall (fun b => 0 <= b < 256) (bytes_of_word w)) as W.
    { intros w. unfold bytes_of_word. repeat constructor; try (apply Z.mod_pos_bound; lia). all: try (pose proof (Z.mod_pos_bound w 256); lia). all: match goal with |- context [?x mod 256] => pose proof (Z.mod_pos_bound x 256); lia end. }
    repeat split; apply W. }
  rewrite Forall_forall in F. apply F in H. exact H.
Qed.

Lemma ctx_at_mod key nonce n : ctx_at key nonce (n mod 2 ^ 64) = ctx_at key nonce n.
Proof.
  unfold ctx_at.
  assert ((n mod 2 ^ 64) mod 2 ^ 32 = n mod 2 ^ 32) as ->.
  { change (2 ^ 64) with (2 ^ 32 * 2 ^ 32). rewrite Z.rem_mul_r by lia.
    rewrite Z.mul_comm, Z_mod_plus_full. apply Z.mod_mod. lia. }
  assert (n mod 2 ^ 64 / 2 ^ 32 mod 2 ^ 32 = n / 2 ^ 32 mod 2 ^ 32) as ->; [|reflexivity].
  change (2 ^ 64) with (2 ^ 32 * 2 ^ 32). rewrite Z.rem_mul_r by lia.
  rewrite (Z.mul_comm (2 ^ 32) (n / 2 ^ 32 mod 2 ^ 32)), Z_div_plus_full by lia.
  rewrite (Z.div_small (n mod 2 ^ 32)) by (apply Z.mod_pos_bound; lia).
  rewrite Z.add_0_l. apply Z.mod_mod. lia.
Qed.

(** keystream for an unbounded block position *)
Lemma keystream_at key nonce n len : bytes key 32 -> bytes nonce 8 -> 0 <= n -> 0 <= len ->
  chacha_keystream_bytes (ctx_at key nonce n) len =
    (stream_bytes key nonce (64 * n) len, ctx_at key nonce (n + (len + 63) / 64)).
Proof.
  intros Hk Hn H0 Hl. rewrite <- (ctx_at_mod key nonce n).
  rewrite keystream_eq by (try assumption; apply Z.mod_pos_bound; lia). f_equal.
  - apply stream_period; auto.
  - rewrite Z.add_mod_idemp_l by lia. apply ctx_at_mod.
Qed.

Lemma keystream_spec key nonce n :
  length key = 32%nat -> Forall (fun b => 0 <= b < 256) key ->
  length nonce = 8%nat -> Forall (fun b => 0 <= b < 256) nonce -> 0 <= n ->
  fst (chacha_keystream_bytes (chacha_setup key nonce) n) = map (chacha8_stream key nonce) (zrange 0 n).
Proof.
  intros. rewrite setup_eq, keystream_at by (try split; assumption || lia). reflexivity.
Qed.

#[global] Opaque ctx_at chacha8_stream chacha_keystream_bytes chacha_setup.

Fixpoint calls_of (c : ctx) (lens : list Z) : list Z :=
  match lens with
  | [] => []
  | n :: t => let '(b, c') := chacha_keystream_bytes c n in b ++ calls_of c' t
  end.
Lemma calls_at key nonce : bytes key 32 -> bytes nonce 8 -> forall blocks, Forall (fun b => 0 <= b) blocks ->
  forall n, 0 <= n ->
  calls_of (ctx_at key nonce n) (map (Z.mul 64) blocks) = stream_bytes key nonce (64 * n) (64 * fold_right Z.add 0 blocks).
Proof.
  intros Hk Hn. induction 1 as [|b l Hb Hl IH]; intros n H0; cbn [map calls_of fold_right].
  - unfold stream_bytes. rewrite zrange_nil by lia. reflexivity.
  - rewrite keystream_at by (assumption || lia).
    replace ((64 * b + 63) / 64) with b by lia.
    rewrite IH by lia. 
    assert (0 <= fold_right Z.add 0 l) by (clear -Hl; induction Hl; cbn [fold_right]; lia).
    replace (64 * (b + fold_right Z.add 0 l)) with (64 * b + 64 * fold_right Z.add 0 l) by ring.
    rewrite stream_app by lia. f_equal. f_equal. ring.
Qed.
Lemma keystream_consecutive key nonce blocks :
  length key = 32%nat -> Forall (fun b => 0 <= b < 256) key ->
  length nonce = 8%nat -> Forall (fun b => 0 <= b < 256) nonce ->
  Forall (fun b => 0 <= b) blocks ->
  calls_of (chacha_setup key nonce) (map (Z.mul 64) blocks) =
    map (chacha8_stream key nonce) (zrange 0 (64 * fold_right Z.add 0 blocks)).
Proof.
  intros. rewrite setup_eq, calls_at by (try split; assumption || lia). reflexivity.
Qed.
