From Coq Require Import String Ascii Arith List Bool Lia.
From Verif Require Import M_Fatal S_Fatal.
Import ListNotations.

(** what can be said about a state during write_full of [buf], started at [s0] *)
Definition upto (k : nat -> wans) (s0 : wstate) (buf : list ascii) (s : wstate) : Prop :=
  (exists done rest, buf = done ++ rest /\ w_out s = w_out s0 ++ done) /\ w_calls s0 <= w_calls s.
Lemma write_full_spec k fuel : forall buf s,
  match write_full k fuel buf s with
  | WDone true s' => w_out s' = w_out s ++ buf /\ w_calls s < w_calls s' /\ (forall n, w_calls s <= n < w_calls s' -> k n <> WErr false)
  | WDone false s' => upto k s buf s' /\ w_calls s < w_calls s' /\ k (pred (w_calls s')) = WErr false /\ (forall n, w_calls s <= n < pred (w_calls s') -> k n <> WErr false)
  | WMore s' => upto k s buf s'
  end.
Proof.
  induction fuel as [|fuel IH]; intros buf s; cbn [write_full].
  - split; [exists [], buf; rewrite app_nil_r; auto|lia].
  - destruct (k (w_calls s)) as [n|[]] eqn:K.
    + pose proof (firstn_skipn (Nat.min n (length buf)) buf) as FS. set (m := Nat.min n (length buf)) in *. destruct (skipn m buf) as [|b r] eqn:R.
      * cbn [w_out w_calls]. rewrite app_nil_r in FS. rewrite FS. split; [reflexivity|]. split; [lia|]. intros i Hi. replace i with (w_calls s) by lia. rewrite K. discriminate.
      * specialize (IH (b :: r) (mkW (w_out s ++ firstn m buf) (S (w_calls s)))). destruct (write_full k fuel (b :: r) _) as [[] s'|s']; cbn [w_out w_calls] in IH.
        -- destruct IH as (I1 & I2 & I3). rewrite <- app_assoc, FS in I1. split; [exact I1|]. split; [lia|]. intros i Hi. destruct (Nat.eq_dec i (w_calls s)) as [->|]; [rewrite K; discriminate|apply I3; lia].
        -- destruct IH as (((d & q & I1 & I2) & I3) & I4 & I5 & I6). cbn [w_out w_calls] in *. split; [|split; [lia|split; [exact I5|]]].
           ++ split; [|lia]. exists (firstn m buf ++ d), q. rewrite <- app_assoc, <- I1, FS. split; [reflexivity|]. rewrite I2, app_assoc. reflexivity.
           ++ intros i Hi. destruct (Nat.eq_dec i (w_calls s)) as [->|]; [rewrite K; discriminate|apply I6; lia].
        -- destruct IH as ((d & q & I1 & I2) & I3). cbn [w_out w_calls] in *. split; [|lia]. exists (firstn m buf ++ d), q. rewrite <- app_assoc, <- I1, FS. split; [reflexivity|]. rewrite I2, app_assoc. reflexivity.
    + destruct buf as [|b r].
      * cbn [w_out w_calls]. rewrite app_nil_r. split; [reflexivity|]. split; [lia|]. intros i Hi. replace i with (w_calls s) by lia. rewrite K. discriminate.
      * specialize (IH (b :: r) (mkW (w_out s) (S (w_calls s)))). destruct (write_full k fuel (b :: r) _) as [[] s'|s']; cbn [w_out w_calls] in IH.
        -- destruct IH as (I1 & I2 & I3). split; [exact I1|]. split; [lia|]. intros i Hi. destruct (Nat.eq_dec i (w_calls s)) as [->|]; [rewrite K; discriminate|apply I3; lia].
        -- destruct IH as ((I1 & I3) & I4 & I5 & I6). cbn [w_out w_calls] in *. split; [split; [exact I1|lia]|]. split; [lia|]. split; [exact I5|]. intros i Hi. destruct (Nat.eq_dec i (w_calls s)) as [->|]; [rewrite K; discriminate|apply I6; lia].
        -- destruct IH as (I1 & I3). cbn [w_out w_calls] in *. split; [exact I1|lia].
    + cbn [w_out w_calls]. split; [split; [exists [], buf; rewrite app_nil_r; auto|cbn [w_calls]; lia]|]. split; [lia|]. split; [exact K|]. intros i Hi. lia.
Qed.

Lemma fatal_spec k fuel s :
  match fatal_error k fuel s with
  | WDone tt w => (exists rest, message s = w_out w ++ rest) /\ (forall n, n < pred (w_calls w) -> k n <> WErr false) /\
      (w_out w = message s \/ k (pred (w_calls w)) = WErr false)
  | WMore w => exists rest, message s = w_out w ++ rest
  end.
Proof.
  unfold fatal_error, message. set (pre := list_ascii_of_string "fatal allocator error: "). set (msg := list_ascii_of_string s). set (nl := [ascii_of_nat 10]).
  pose proof (write_full_spec k fuel pre (mkW [] 0)) as H1. destruct (write_full k fuel pre (mkW [] 0)) as [[] w1|w1]; cbn [w_out w_calls app] in H1.
  2:{ destruct H1 as (((d & q & E1 & E2) & _) & _ & K & N). cbn in E2. split; [exists (q ++ msg ++ nl); rewrite E2, E1, <- app_assoc; reflexivity|]. split; [intros n Hn; apply N; lia|right; exact K]. }
  2:{ destruct H1 as ((d & q & E1 & E2) & _). cbn in E2. exists (q ++ msg ++ nl). rewrite E2, E1, <- app_assoc. reflexivity. }
  destruct H1 as (E1 & C1 & N1). pose proof (write_full_spec k fuel msg w1) as H2. destruct (write_full k fuel msg w1) as [[] w2|w2].
  2:{ destruct H2 as (((d & q & E3 & E2) & _) & _ & K & N). split; [exists (q ++ nl); rewrite E2, E1, E3, <- !app_assoc; reflexivity|].
      split; [|right; exact K]. intros n Hn. destruct (le_lt_dec (w_calls w1) n); [apply N; lia|apply N1; lia]. }
  2:{ destruct H2 as ((d & q & E3 & E2) & _). exists (q ++ nl). rewrite E2, E1, E3, <- !app_assoc. reflexivity. }
  destruct H2 as (E2 & C2 & N2). pose proof (write_full_spec k fuel nl w2) as H3. destruct (write_full k fuel nl w2) as [[] w3|w3].
  - destruct H3 as (E3 & C3 & N3). rewrite E3, E2, E1, <- !app_assoc. split; [exists []; rewrite app_nil_r; reflexivity|]. split; [|left; reflexivity].
    intros n Hn. destruct (le_lt_dec (w_calls w2) n); [apply N3; lia|]. destruct (le_lt_dec (w_calls w1) n); [apply N2; lia|apply N1; lia].
  - destruct H3 as (((d & q & E4 & E3) & _) & _ & K & N). split; [exists q; rewrite E3, E2, E1, <- !app_assoc, <- E4; reflexivity|].
    split; [|right; exact K]. intros n Hn. destruct (le_lt_dec (w_calls w2) n); [apply N; lia|]. destruct (le_lt_dec (w_calls w1) n); [apply N2; lia|apply N1; lia].
  - destruct H3 as ((d & q & E4 & E3) & _). exists q. rewrite E3, E2, E1, <- !app_assoc, <- E4. reflexivity.
Qed.

(** termination *)
Lemma write_full_mono k f : forall buf s a s', write_full k f buf s = WDone a s' -> forall f', f <= f' -> write_full k f' buf s = WDone a s'.
Proof.
  induction f as [|f IH]; intros buf s a s' H f' L; [discriminate|]. destruct f' as [|f']; [lia|]. cbn [write_full] in *. destruct (k (w_calls s)) as [n|[]]; [|destruct buf; auto; eapply IH; eauto; lia|auto].
  destruct (skipn _ buf); [auto|]. eapply IH; eauto. lia.
Qed.
(** up to the next progress *)
Lemma write_full_ends k : serves k -> forall len buf s, length buf <= len -> exists f a s', write_full k f buf s = WDone a s'.
Proof.
  intros SV. induction len as [|len IH]; intros buf s L.
  - destruct buf; [|cbn in L; lia]. exists 1. cbn. destruct (k (w_calls s)) as [n|[]]; [|eauto|eauto]. rewrite Nat.min_0_r. cbn. eauto.
  - destruct (SV (w_calls s)) as (m & Lm & P). remember (m - w_calls s) as d. revert s L m Lm P Heqd. induction d as [|d IHd]; intros s L m Lm P E.
    + replace m with (w_calls s) in P by lia. destruct buf as [|b r]; [exists 1; cbn; destruct (k (w_calls s)) as [n|[]]; [rewrite Nat.min_0_r; cbn; eauto|eauto|eauto]|].
      destruct (k (w_calls s)) as [n|[]] eqn:K; cbn in P; [|discriminate|exists 1; cbn; rewrite K; eauto]. destruct n; [contradiction|].
      destruct (skipn (Nat.min (S n) (length (b :: r))) (b :: r)) as [|b' r'] eqn:R; [exists 1; cbn [write_full]; rewrite K, R; eauto|].
      assert (length (b' :: r') <= len) as L'.
      { rewrite <- R, skipn_length. cbn [length] in *. lia. }
      destruct (IH (b' :: r') (mkW (w_out s ++ firstn (Nat.min (S n) (length (b :: r))) (b :: r)) (S (w_calls s))) L') as (f & a & s' & F). exists (S f), a, s'. cbn [write_full]. rewrite K, R. exact F.
    + destruct buf as [|b r]; [exists 1; cbn; destruct (k (w_calls s)) as [n|[]]; [rewrite Nat.min_0_r; cbn; eauto|eauto|eauto]|].
      destruct (k (w_calls s)) as [n|[]] eqn:K; [|destruct (IHd (mkW (w_out s) (S (w_calls s))) L m ltac:(cbn; lia) P ltac:(cbn; lia)) as (f & a & s' & F); exists (S f), a, s'; cbn [write_full]; rewrite K; exact F|exists 1; cbn; rewrite K; eauto].
      destruct (skipn (Nat.min n (length (b :: r))) (b :: r)) as [|b' r'] eqn:R; [exists 1; cbn [write_full]; rewrite K, R; eauto|].
      destruct (Nat.eq_dec n 0) as [->|Hn].
      * cbn [Nat.min skipn] in R. injection R as <- <-. destruct (IHd (mkW (w_out s ++ []) (S (w_calls s))) L m ltac:(cbn; lia) P ltac:(cbn; lia)) as (f & a & s' & F). exists (S f), a, s'. cbn [write_full]. rewrite K. exact F.
      * assert (length (b' :: r') <= len) as L' by (rewrite <- R, skipn_length; cbn [length] in *; lia).
        destruct (IH (b' :: r') (mkW (w_out s ++ firstn (Nat.min n (length (b :: r))) (b :: r)) (S (w_calls s))) L') as (f & a & s' & F). exists (S f), a, s'. cbn [write_full]. rewrite K, R. exact F.
Qed.
Lemma fatal_ends k s : serves k -> exists fuel w, fatal_error k fuel s = WDone tt w.
Proof.
  intros SV. destruct (write_full_ends k SV _ (list_ascii_of_string "fatal allocator error: ") (mkW [] 0) (le_n _)) as (f1 & a1 & w1 & E1).
  destruct (write_full_ends k SV _ (list_ascii_of_string s) w1 (le_n _)) as (f2 & a2 & w2 & E2). destruct (write_full_ends k SV _ [ascii_of_nat 10] w2 (le_n _)) as (f3 & a3 & w3 & E3).
  exists (f1 + f2 + f3). unfold fatal_error. rewrite (write_full_mono _ _ _ _ _ _ E1 (f1 + f2 + f3)) by lia. destruct a1; [|eauto]. rewrite (write_full_mono _ _ _ _ _ _ E2 (f1 + f2 + f3)) by lia. destruct a2; [|eauto].
  rewrite (write_full_mono _ _ _ _ _ _ E3 (f1 + f2 + f3)) by lia. eauto.
Qed.
Lemma fatal_zero k s : (forall n, k n = Wrote 0) -> forall fuel w, fatal_error k fuel s <> WDone tt w.
Proof.
  intros K fuel w. unfold fatal_error. assert (forall f buf st a w', buf <> [] -> write_full k f buf st <> WDone a w') as N.
  { induction f as [|f IH]; intros buf st a w' NE; cbn [write_full]; [discriminate|]. rewrite K. cbn [Nat.min skipn]. destruct buf; [congruence|]. apply IH. discriminate. }
  destruct (write_full k fuel _ (mkW [] 0)) eqn:E; [|discriminate]. exfalso. eapply N; [|exact E]. discriminate.
Qed.
Lemma C46_done k fuel s w : fatal_error k fuel s = WDone tt w ->
  (exists rest, message s = w_out w ++ rest) /\ (forall n, n < pred (w_calls w) -> k n <> WErr false) /\ (w_out w = message s \/ k (pred (w_calls w)) = WErr false).
Proof. intros E. pose proof (fatal_spec k fuel s) as H. rewrite E in H. exact H. Qed.
Lemma C46_always_prefix k fuel s w : (fatal_error k fuel s = WDone tt w \/ fatal_error k fuel s = WMore w) -> exists rest, message s = w_out w ++ rest.
Proof. pose proof (fatal_spec k fuel s) as H. intros [E|E]; rewrite E in H; [apply H|exact H]. Qed.
