(** Counting indices in a range. *)
From Coq Require Import ZArith List Bool Lia ZifyBool.
From Verif Require Import M_Base P_Base.
Import ListNotations.
Open Scope Z_scope.

Definition zcount (f : Z -> bool) (lo hi : Z) : Z := zlen (filter f (zrange lo hi)).

Lemma filter_app_zlen {A} (f : A -> bool) l1 l2 : zlen (filter f (l1 ++ l2)) = zlen (filter f l1) + zlen (filter f l2).
Proof. now rewrite filter_app, zlen_app. Qed.
Lemma zcount_nonneg f lo hi : 0 <= zcount f lo hi. Proof. apply zlen_nonneg. Qed.
Lemma filter_len {A} (f : A -> bool) l : (length (filter f l) <= length l)%nat.
Proof. induction l; cbn; [lia|]. destruct (f a); cbn; lia. Qed.
Lemma zcount_le f lo hi : lo <= hi -> zcount f lo hi <= hi - lo.
Proof.
  intros. unfold zcount. assert (zlen (zrange lo hi) = hi - lo) as E by (rewrite zrange_zlen; lia).
  rewrite <- E. unfold zlen. pose proof (filter_len f (zrange lo hi)). lia.
Qed.
Lemma zcount_ext f f' lo hi : (forall x, lo <= x < hi -> f x = f' x) -> zcount f lo hi = zcount f' lo hi.
Proof.
  intros H. unfold zcount. f_equal. apply filter_ext_in. intros x Hx. apply H. now apply in_zrange.
Qed.
Lemma zcount_split f lo mid hi : lo <= mid <= hi -> zcount f lo hi = zcount f lo mid + zcount f mid hi.
Proof. intros. unfold zcount. rewrite (zrange_app lo mid hi) by lia. apply filter_app_zlen. Qed.
Lemma zcount_one f x : zcount f x (x + 1) = Z.b2z (f x).
Proof. unfold zcount. rewrite zrange_cons by lia. rewrite zrange_nil by lia. cbn. destruct (f x); reflexivity. Qed.
Lemma zcount_upd f f' lo hi x : lo <= x < hi -> (forall y, lo <= y < hi -> y <> x -> f' y = f y) ->
  zcount f' lo hi = zcount f lo hi + Z.b2z (f' x) - Z.b2z (f x).
Proof.
  intros Hx H. rewrite (zcount_split f lo x hi), (zcount_split f' lo x hi) by lia.
  rewrite (zcount_split f x (x + 1) hi), (zcount_split f' x (x + 1) hi) by lia.
  rewrite !zcount_one. rewrite (zcount_ext f' f lo x) by (intros; apply H; lia).
  rewrite (zcount_ext f' f (x + 1) hi) by (intros; apply H; lia). lia.
Qed.
Lemma zcount_zero f lo hi : zcount f lo hi = 0 <-> (forall x, lo <= x < hi -> f x = false).
Proof.
  unfold zcount. split.
  - intros H x Hx. destruct (f x) eqn:E; auto. exfalso.
    assert (In x (filter f (zrange lo hi))) as I by (apply filter_In; rewrite in_zrange; auto).
    destruct (filter f (zrange lo hi)); [destruct I|]. rewrite zlen_cons in H. pose proof (zlen_nonneg l). lia.
  - intros H. rewrite (filter_ext_in f (fun _ => false)).
    + induction (zrange lo hi); auto.
    + intros x Hx. apply H. now apply in_zrange.
Qed.
Lemma zcount_full f lo hi : lo <= hi -> (zcount f lo hi = hi - lo <-> forall x, lo <= x < hi -> f x = true).
Proof.
  intros L. split.
  - intros H x Hx. destruct (f x) eqn:E; auto. exfalso.
    rewrite (zcount_split f lo x hi), (zcount_split f x (x + 1) hi), zcount_one, E in H by lia.
    pose proof (zcount_le f lo x ltac:(lia)). pose proof (zcount_le f (x + 1) hi ltac:(lia)). cbn in H. lia.
  - intros H. rewrite (zcount_ext f (fun _ => true)) by auto. unfold zcount.
    assert (forall l : list Z, filter (fun _ => true) l = l) as F by (induction l; cbn; congruence).
    rewrite F, zrange_zlen. lia.
Qed.
Lemma zcount_not_full f lo hi : lo <= hi -> zcount f lo hi < hi - lo -> exists x, lo <= x < hi /\ f x = false.
Proof.
  intros L H. destruct (forallb f (zrange lo hi)) eqn:E.
  - assert (zcount f lo hi = hi - lo) by (apply zcount_full; [auto|]; now apply forallb_zrange). lia.
  - apply not_true_iff_false in E.
    destruct (existsb (fun x => negb (f x)) (zrange lo hi)) eqn:E2.
    + apply existsb_exists in E2. destruct E2 as (x & I & F). apply in_zrange in I. exists x. split; [auto|]. destruct (f x); auto; discriminate.
    + exfalso. apply E. apply forallb_zrange. intros x Hx. destruct (f x) eqn:F; auto.
      assert (existsb (fun x => negb (f x)) (zrange lo hi) = true) as T; [|congruence].
      apply existsb_exists. exists x. split; [now apply in_zrange|]. now rewrite F.
Qed.
Lemma zcount_pos f lo hi x : lo <= x < hi -> f x = true -> 0 < zcount f lo hi.
Proof.
  intros Hx F. rewrite (zcount_split f lo x hi), (zcount_split f x (x + 1) hi), zcount_one, F by lia.
  pose proof (zcount_nonneg f lo x). pose proof (zcount_nonneg f (x + 1) hi). change (Z.b2z true) with 1. lia.
Qed.
