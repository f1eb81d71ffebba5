(** Linked lists threaded through an array: facts independent of the allocator. *)
From Coq Require Import ZArith List Bool Lia.
From Verif Require Import M_Base P_Base.
Import ListNotations.
Open Scope Z_scope.
Ltac Zify.zify_post_hook ::= idtac.

Definition links : Type := Z -> option Z.
(** singly linked: every element's link is the next element, the last one's is None *)
Fixpoint sll (nx : links) (l : list Z) : Prop :=
  match l with
  | [] => True
  | i :: t => nx i = hd_error t /\ sll nx t
  end.
Fixpoint dll (nx pv : links) (prev : option Z) (l : list Z) : Prop :=
  match l with
  | [] => True
  | i :: t => pv i = prev /\ nx i = hd_error t /\ dll nx pv (Some i) t
  end.
Definition lastz (l : list Z) : option Z := hd_error (rev l).

Lemma sll_ext nx nx' l : (forall i, In i l -> nx' i = nx i) -> sll nx l -> sll nx' l.
Proof.
  induction l as [|i t IH]; cbn; auto. intros H [H1 H2]. rewrite H by auto. split; auto.
Qed.
Lemma dll_ext nx nx' pv pv' l : forall prev, (forall i, In i l -> nx' i = nx i /\ pv' i = pv i) -> dll nx pv prev l -> dll nx' pv' prev l.
Proof.
  induction l as [|i t IH]; cbn; auto. intros prev H (H1 & H2 & H3).
  destruct (H i) as [E1 E2]; auto. rewrite E1, E2. auto 6.
Qed.
Lemma fupd_get {A} (f : Z -> A) i x j : fupd f i x j = if j =? i then x else f j. Proof. reflexivity. Qed.

Lemma hd_error_In {A} (l : list A) x : hd_error l = Some x -> In x l.
Proof. destruct l; cbn; [discriminate|]. intros H; injection H as ->. auto. Qed.
Lemma hd_error_None {A} (l : list A) : hd_error l = None -> l = [].
Proof. destruct l; cbn; [auto|discriminate]. Qed.
Lemma lastz_snoc l x : lastz (l ++ [x]) = Some x.
Proof. unfold lastz. rewrite rev_app_distr. reflexivity. Qed.
Lemma lastz_None l : lastz l = None -> l = [].
Proof. unfold lastz. intros H. apply hd_error_None in H. rewrite <- (rev_involutive l), H. reflexivity. Qed.
Lemma lastz_cons x l : lastz (x :: l) = match lastz l with Some y => Some y | None => Some x end.
Proof.
  unfold lastz. cbn. destruct (rev l) eqn:E; cbn; auto.
Qed.
Lemma lastz_Some l x : lastz l = Some x -> exists t, l = t ++ [x].
Proof.
  unfold lastz. destruct (rev l) as [|y r] eqn:E; cbn; [discriminate|]. intros H; injection H as ->.
  exists (rev r). rewrite <- (rev_involutive l), E. reflexivity.
Qed.

(** push at the head of the doubly linked list, h_malloc.c:876-884 *)
Lemma dll_push nx pv l i : dll nx pv None l -> ~ In i l ->
  let nx1 := fupd nx i (hd_error l) in
  let pv1 := fupd pv i None in
  let pv2 := match hd_error l with Some h => fupd pv1 h (Some i) | None => pv1 end in
  dll nx1 pv2 None (i :: l).
Proof.
  intros D Hi nx1 pv1 pv2. cbn [dll]. unfold nx1, pv2, pv1. split.
  { destruct l as [|h t]; cbn [hd_error]; [apply fupd_eq|]. rewrite fupd_ne; [apply fupd_eq|]. intros ->. apply Hi. now left. }
  split; [apply fupd_eq|]. destruct l as [|h t]; cbn [hd_error dll] in *; [auto|].
  destruct D as (D1 & D2 & D3). split; [apply fupd_eq|]. split; [rewrite fupd_ne; [auto|intros ->; apply Hi; now left]|].
  assert (forall j, In j t -> j <> i) as Hn by (intros j Hj ->; apply Hi; now right).
  (* h not in t is not known; its prev field is only read at h *)
  assert (forall prev t, dll nx pv prev t -> (forall j, In j t -> j <> i) -> ~ In h t ->
     dll (fupd nx i (Some h)) (fupd (fupd pv i None) h (Some i)) prev t) as K.
  { intros prev t' D' N' Nh. eapply dll_ext; [|exact D']. intros j Hj. assert (i <> j) by (intros E; apply (N' j Hj); auto). assert (h <> j) by (intros ->; auto). rewrite !fupd_ne by auto. auto. }
  destruct (in_dec Z.eq_dec h t) as [Hin|Nin]; [|apply K; auto].
  exfalso. clear - D1 D2 D3 Hin.
  (* a dll that contains its head again is impossible: prev of the head is None *)
  assert (forall t x, dll nx pv (Some x) t -> forall y, In y t -> pv y <> None) as P.
  { clear. induction t as [|a t IH]; cbn; [tauto|]. intros x (E & _ & D) y [<-|Hy]; [congruence|]. eapply IH; eauto. }
  apply (P t h D3 h Hin). exact D1.
Qed.

Lemma dll_app nx pv l1 : forall prev x l2, dll nx pv prev (l1 ++ x :: l2) -> 
  pv x = match lastz l1 with Some y => Some y | None => prev end /\ nx x = hd_error l2 /\ dll nx pv (Some x) l2.
Proof.
  induction l1 as [|a l1 IH]; intros prev x l2; cbn [app dll].
  - intros (H1 & H2 & H3). auto.
  - intros (H1 & H2 & H3). destruct (IH _ _ _ H3) as (E1 & E2 & E3). split; [|auto].
    rewrite E1, lastz_cons. destruct (lastz l1); auto.
Qed.

(** unlink an element, h_malloc.c:890-899 *)
Lemma dll_remove nx pv l1 x l2 : dll nx pv None (l1 ++ x :: l2) -> NoDup (l1 ++ x :: l2) ->
  let nx1 := match pv x with Some p => fupd nx p (nx x) | None => nx end in
  let pv1 := match nx x with Some n => fupd pv n (pv x) | None => pv end in
  dll nx1 pv1 None (l1 ++ l2) /\
  (match pv x with Some p => In p l1 /\ hd_error (l1 ++ l2) = hd_error (l1 ++ x :: l2) | None => l1 = [] /\ hd_error (l1 ++ l2) = nx x end) /\
  (match nx x with Some n => In n l2 | None => l2 = [] end).
Proof.
  intros D N. destruct (dll_app _ _ _ _ _ _ D) as (E1 & E2 & E3). rewrite E1, E2.
  cbn zeta. split; [|split].
  2:{ destruct (lastz l1) as [y|] eqn:L.
      - destruct (lastz_Some _ _ L) as (t & ->). split; [apply in_or_app; right; now left|]. destruct t; reflexivity.
      - apply lastz_None in L. subst l1. auto. }
  2:{ destruct l2; cbn; auto. }
  assert (forall l1 prev, dll nx pv prev (l1 ++ x :: l2) -> NoDup (l1 ++ x :: l2) -> (match prev with Some p => ~ In p (l1 ++ x :: l2) | None => True end) ->
    dll (match lastz l1 with Some y => fupd nx y (hd_error l2) | None => match prev with Some p => fupd nx p (hd_error l2) | None => nx end end)
        (match hd_error l2 with Some n => fupd pv n (match lastz l1 with Some y => Some y | None => prev end) | None => pv end) prev (l1 ++ l2)) as K.
  { clear. induction l1 as [|a l1 IH]; intros prev D N Hp; cbn [app] in *.
    - cbn [lastz rev hd_error]. unfold lastz; cbn [rev hd_error].
      destruct D as (D1 & D2 & D3). destruct l2 as [|n l2]; cbn [hd_error dll] in *; [auto|].
      destruct D3 as (D4 & D5 & D6). split; [apply fupd_eq|].
      inversion N as [|? ? Hx N2]; subst. inversion N2 as [|? ? Hn N3]; subst.
      assert (forall j, In j (n :: l2) -> match pv x with Some p => j <> p | None => True end) as Hj.
      { intros j Hj. destruct (pv x); [|auto]. intros ->. apply Hp. now right. }
      split.
      + destruct (pv x) eqn:Ep; [|auto]. rewrite fupd_ne; auto. intros <-. apply (Hj z); [now left|auto].
      + eapply dll_ext; [|exact D6]. intros j Hjn. split.
        * destruct (pv x) eqn:Ep; [|auto]. rewrite fupd_ne; auto. intros <-. apply (Hj z); [now right|auto].
        * rewrite fupd_ne; auto. intros <-. auto.
    - destruct D as (D1 & D2 & D3). inversion N as [|? ? Ha N2]; subst.
      specialize (IH (Some a) D3 N2 Ha). rewrite lastz_cons.
      destruct l1 as [|b l1].
      + cbn [app lastz rev hd_error] in *. unfold lastz in *; cbn [rev hd_error] in *. cbn [dll].
        split.
        { destruct l2; cbn [hd_error] in *; auto. rewrite fupd_ne; auto. intros <-. apply Ha. right. now left. }
        split; [apply fupd_eq|]. exact IH.
      + destruct (lastz (b :: l1)) as [y|] eqn:L; [|apply lastz_None in L; discriminate].
        destruct (lastz_Some _ _ L) as (t & Et).
        cbn [dll].
        assert (y <> a) as Nya. { intros ->. apply Ha. apply in_or_app. left. rewrite Et. apply in_or_app. right. now left. }
        split.
        { destruct l2 as [|n l2]; cbn [hd_error] in *; auto. rewrite fupd_ne; auto. intros <-. apply Ha. apply in_or_app. right. right. now left. }
        split. { rewrite fupd_ne by auto. rewrite D2. reflexivity. }
        exact IH. }
  specialize (K l1 None D N I). destruct (lastz l1); exact K.
Qed.

(** append to a FIFO, h_malloc.c:760-766 *)
Lemma sll_snoc nx l x : sll nx l -> ~ In x l -> NoDup l -> nx x = None ->
  sll (match lastz l with Some t => fupd nx t (Some x) | None => nx end) (l ++ [x]).
Proof.
  intros S Hx N Ex. destruct (lastz l) as [y|] eqn:L.
  2:{ apply lastz_None in L. subst. cbn. auto. }
  destruct (lastz_Some _ _ L) as (t & ->). clear L.
  revert S Hx N. induction t as [|a t IH]; intros S Hx N; cbn [app sll] in *.
  - split; [rewrite fupd_eq; auto|]. split; [|auto]. rewrite fupd_ne; [auto|]. intros <-. apply Hx. now left.
  - destruct S as [S1 S2]. inversion N as [|? ? Ha N2]; subst. split.
    + rewrite fupd_ne.
      * rewrite S1. destruct t; reflexivity.
      * intros <-. apply Ha. apply in_or_app. right. now left.
    + apply IH; auto. intros Hin. apply Hx. now right.
Qed.

(** the Some-entries of an array of options *)
Fixpoint somes (l : list (option Z)) : list Z :=
  match l with [] => [] | Some x :: t => x :: somes t | None :: t => somes t end.
Lemma in_somes l x : In x (somes l) <-> In (Some x) l.
Proof.
  induction l as [|[y|] t IH]; cbn; [tauto| |].
  - rewrite IH. split; intros [H|H]; auto; [left; congruence|left; congruence].
  - rewrite IH. split; [auto|]. intros [H|H]; [discriminate|auto].
Qed.
Lemma somes_app l1 l2 : somes (l1 ++ l2) = somes l1 ++ somes l2.
Proof. induction l1 as [|[x|] t IH]; cbn; congruence. Qed.
Lemma lget_split {A} (l : list A) i x y : lget l i = Some x ->
  exists l1 l2, l = l1 ++ x :: l2 /\ lset l i y = l1 ++ y :: l2.
Proof.
  unfold lget, lset. destruct (i <? 0); [discriminate|]. generalize (Z.to_nat i). clear i.
  intros n. revert l. induction n as [|n IH]; intros [|a l] H; try discriminate.
  - injection H as ->. exists [], l. auto.
  - cbn in H. destruct (IH _ H) as (l1 & l2 & -> & E). exists (a :: l1), l2. cbn. rewrite E. auto.
Qed.

Lemma NoDup_app_inv {A} (l1 l2 : list A) : NoDup (l1 ++ l2) <-> NoDup l1 /\ NoDup l2 /\ (forall x, In x l1 -> ~ In x l2).
Proof.
  induction l1 as [|a l1 IH]; cbn.
  - split; [intros H; repeat split; auto; constructor|tauto].
  - split.
    + intros H. inversion H as [|? ? H1 H2]; subst. apply IH in H2. destruct H2 as (H2 & H3 & H4). rewrite in_app_iff in H1.
      split; [constructor; tauto|]. split; [auto|]. intros x [<-|Hx]; [tauto|auto].
    + intros (H1 & H2 & H3). inversion H1; subst. constructor; [rewrite in_app_iff; intros [?|?]; [contradiction|eapply H3; eauto]|].
      apply IH. split; [auto|]. split; [auto|]. intros x Hx. apply H3. auto.
Qed.
Lemma NoDup_bound l m : NoDup l -> 0 <= m -> (forall x, In x l -> 0 <= x < m) -> zlen l <= m.
Proof.
  intros N Hm H. assert (incl l (zrange 0 m)) as Hin by (intros x Hx; apply in_zrange; auto).
  pose proof (NoDup_incl_length N Hin) as HL. pose proof (zrange_zlen 0 m). unfold zlen in *. lia.
Qed.
