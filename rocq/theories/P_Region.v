(** Proofs about the region table: linear probing with backward-shift deletion. *)
From Coq Require Import String ZArith List Bool Lia ZifyBool.
From Verif Require Import M_Base M_Config M_SizeClass M_OS M_Random M_Region P_Base P_Count P_SizeClass.
Import ListNotations.
Open Scope Z_scope.
Ltac Zify.zify_post_hook ::= idtac.

Definition dist (N a b : Z) : Z := if a <? b then a - b + N else a - b.
Definition full (T : Z -> region) (i : Z) : bool := negb (rg_p (T i) =? 0).

Lemma prev_eq N i : (exists k, 0 <= k < 64 /\ N = 2 ^ k) -> 0 <= i < N -> prev_index i (N - 1) = if i =? 0 then N - 1 else i - 1.
Proof.
  intros (k & Hk & ->) Hi. unfold prev_index. rewrite land_pow2m1 by lia.
  assert (2 ^ k <= 2 ^ 63) by (apply Z.pow_le_mono_r; lia).
  assert (0 < 2 ^ k) by (apply pow2_pos; lia).
  destruct (Z.eqb_spec i 0) as [->|].
  - change (w64 (0 - 1)) with (2 ^ 64 - 1). replace 64 with (k + (64 - k)) by lia. rewrite Z.pow_add_r by lia.
    symmetry. apply Z.mod_unique with (2 ^ (64 - k) - 1); lia.
  - rewrite w64_small by (change (2 ^ 64) with (2 * 2 ^ 63); lia). apply Z.mod_small. lia.
Qed.
Lemma home_range N p : (exists k, 0 <= k < 64 /\ N = 2 ^ k) -> 0 <= home p (N - 1) < N.
Proof.
  intros (k & Hk & ->). unfold home. rewrite land_pow2m1 by lia. apply Z.mod_pos_bound. apply pow2_pos. lia.
Qed.

Opaque home prev_index.
Definition pow2N (N : Z) : Prop := exists k, 0 <= k < 64 /\ N = 2 ^ k.
Definition hm (N : Z) (p : Z) : Z := home p (N - 1).

Lemma dist_prev N a b : pow2N N -> 0 <= a < N -> 0 <= b < N -> a <> b -> dist N (prev_index a (N - 1)) b = dist N a b - 1.
Proof. intros P Ha Hb Hn. rewrite prev_eq by auto. unfold dist. destruct (Z.eqb_spec a 0); repeat match goal with |- context [?x <? ?y] => destruct (Z.ltb_spec x y) end; lia. Qed.
Lemma prev_range N a : pow2N N -> 0 <= a < N -> 0 <= prev_index a (N - 1) < N.
Proof. intros P Ha. rewrite prev_eq by auto. destruct (Z.eqb_spec a 0); lia. Qed.
Lemma dist_range N a b : 0 <= a < N -> 0 <= b < N -> 0 <= dist N a b < N.
Proof. intros. unfold dist. destruct (Z.ltb_spec a b); lia. Qed.
Lemma dist_0 N a b : 0 <= a < N -> 0 <= b < N -> dist N a b = 0 -> a = b.
Proof. unfold dist. destruct (Z.ltb_spec a b); lia. Qed.
Lemma dist_inj N a b c : 0 <= a < N -> 0 <= b < N -> 0 <= c < N -> dist N a b = dist N a c -> b = c.
Proof. unfold dist. destruct (Z.ltb_spec a b), (Z.ltb_spec a c); lia. Qed.
Lemma dist_self N a : dist N a a = 0. Proof. unfold dist. destruct (Z.ltb_spec a a); lia. Qed.

Record tab_ok (N : Z) (T : Z -> region) : Prop := {
  t_path : forall i j, 0 <= i < N -> 0 <= j < N -> full T i = true ->
             dist N (hm N (rg_p (T i))) j < dist N (hm N (rg_p (T i))) i -> full T j = true;
  t_inj : forall i j, 0 <= i < N -> 0 <= j < N -> full T i = true -> rg_p (T i) = rg_p (T j) -> i = j
}.

Lemma probe_empty_spec N T : pow2N N -> forall n a, 0 <= a < N ->
  (exists e, 0 <= e < N /\ full T e = false /\ dist N a e <= Z.of_nat n) ->
  exists x, probe_empty n T (N - 1) a = Some x /\ 0 <= x < N /\ full T x = false /\
    forall j, 0 <= j < N -> dist N a j < dist N a x -> full T j = true.
Proof.
  intros P. induction n as [|n IH]; intros a Ha (e & He & Fe & De); cbn [probe_empty].
  - pose proof (dist_range N a e Ha He). assert (a = e) as -> by (apply (dist_0 N); auto; lia).
    unfold full in Fe. destruct (Z.eqb_spec (rg_p (T e)) 0) as [E|E]; [|discriminate].
    exists e. split; [auto|]. split; [auto|]. split; [unfold full; rewrite E; auto|].
    intros j Hj. rewrite dist_self. pose proof (dist_range N e j He Hj). lia.
  - destruct (Z.eqb_spec (rg_p (T a)) 0) as [E|E].
    + exists a. split; [auto|]. split; [auto|]. split; [unfold full; rewrite E; auto|].
      intros j Hj. rewrite dist_self. pose proof (dist_range N a j Ha Hj). lia.
    + assert (full T a = true) as Fa by (unfold full; destruct (Z.eqb_spec (rg_p (T a)) 0); auto).
      assert (a <> e) as Hae by congruence.
      destruct (IH (prev_index a (N - 1)) (prev_range N a P Ha)) as (x & Ex & Hx & Fx & Px).
      { exists e. split; [auto|]. split; [auto|]. rewrite dist_prev by auto. lia. }
      exists x. split; [auto|]. split; [auto|]. split; [auto|]. intros j Hj Hd.
      destruct (Z.eq_dec a j) as [<-|Haj]; [auto|]. assert (a <> x) by congruence.
      apply Px; [auto|]. rewrite !dist_prev by auto. lia.
Qed.

Lemma probe_key_spec N T p : pow2N N -> forall n a, 0 <= a < N ->
  (exists e, 0 <= e < N /\ (full T e = false \/ rg_p (T e) = p) /\ dist N a e <= Z.of_nat n) ->
  exists x, probe_key n T (N - 1) p a = Some x /\ 0 <= x < N /\ (full T x = false \/ rg_p (T x) = p) /\
    forall j, 0 <= j < N -> dist N a j < dist N a x -> full T j = true /\ rg_p (T j) <> p.
Proof.
  intros P.
  assert (forall x, (rg_p (T x) =? p) || (rg_p (T x) =? 0) = true <-> (full T x = false \/ rg_p (T x) = p)) as Q.
  { intros x. unfold full. destruct (Z.eqb_spec (rg_p (T x)) p), (Z.eqb_spec (rg_p (T x)) 0); cbn; intuition congruence. }
  induction n as [|n IH]; intros a Ha (e & He & Fe & De); cbn [probe_key].
  - pose proof (dist_range N a e Ha He). assert (a = e) as -> by (apply (dist_0 N); auto; lia).
    rewrite (proj2 (Q e) Fe). exists e. split; [auto|]. split; [auto|]. split; [auto|].
    intros j Hj. rewrite dist_self. pose proof (dist_range N e j He Hj). lia.
  - destruct ((rg_p (T a) =? p) || (rg_p (T a) =? 0)) eqn:E.
    + exists a. split; [auto|]. split; [auto|]. split; [now apply Q|].
      intros j Hj. rewrite dist_self. pose proof (dist_range N a j Ha Hj). lia.
    + assert (full T a = true /\ rg_p (T a) <> p) as Fa.
      { unfold full. destruct (Z.eqb_spec (rg_p (T a)) p), (Z.eqb_spec (rg_p (T a)) 0); try discriminate; auto. }
      assert (a <> e) as Hae by (intros <-; destruct Fe; intuition congruence).
      destruct (IH (prev_index a (N - 1)) (prev_range N a P Ha)) as (x & Ex & Hx & Fx & Px).
      { exists e. split; [auto|]. split; [auto|]. rewrite dist_prev by auto. lia. }
      exists x. split; [auto|]. split; [auto|]. split; [auto|]. intros j Hj Hd.
      destruct (Z.eq_dec a j) as [<-|Haj]; [auto|]. assert (a <> x) by (intros <-; destruct Fx; intuition congruence).
      apply Px; [auto|]. rewrite !dist_prev by auto. lia.
Qed.

Definition has (N : Z) (T : Z -> region) (r : region) : Prop := exists i, 0 <= i < N /\ T i = r.
Definition cnt (N : Z) (T : Z -> region) : Z := zcount (full T) 0 N.
Definition absent (N : Z) (T : Z -> region) (p : Z) : Prop := forall i, 0 <= i < N -> rg_p (T i) <> p.

Lemma full_upd T x r i : full (fupd T x r) i = if i =? x then negb (rg_p r =? 0) else full T i.
Proof. unfold full, fupd. destruct (i =? x); reflexivity. Qed.
Lemma cnt_upd N T x r : 0 <= x < N -> cnt N (fupd T x r) = cnt N T + Z.b2z (negb (rg_p r =? 0)) - Z.b2z (full T x).
Proof.
  intros Hx. unfold cnt. rewrite (zcount_upd (full T) (full (fupd T x r)) 0 N x Hx).
  - rewrite full_upd, Z.eqb_refl. reflexivity.
  - intros y Hy Hn. rewrite full_upd. destruct (Z.eqb_spec y x); congruence.
Qed.

Lemma insert_tab N T r x : pow2N N -> tab_ok N T -> rg_p r <> 0 -> absent N T (rg_p r) ->
  0 <= x < N -> full T x = false ->
  (forall j, 0 <= j < N -> dist N (hm N (rg_p r)) j < dist N (hm N (rg_p r)) x -> full T j = true) ->
  tab_ok N (fupd T x r) /\ cnt N (fupd T x r) = cnt N T + 1 /\
  (forall r', rg_p r' <> 0 -> (has N (fupd T x r) r' <-> has N T r' \/ r' = r)).
Proof.
  intros P [Tp Ti] Hr Ab Hx Fx Px.
  assert (rg_p r =? 0 = false) as Hr0 by lia.
  split; [constructor|split].
  - intros i j Hi Hj. rewrite !full_upd, Hr0. unfold fupd. cbn [negb].
    destruct (Z.eqb_spec j x) as [->|]; [auto|]. destruct (Z.eqb_spec i x) as [->|].
    + intros _ Hd. apply Px; auto.
    + intros Fi Hd. eapply (Tp i); eauto.
  - intros i j Hi Hj. rewrite full_upd. unfold fupd. destruct (Z.eqb_spec i x) as [->|], (Z.eqb_spec j x) as [->|]; auto.
    + intros _ E. exfalso. apply (Ab j Hj). auto.
    + intros Fi E. exfalso. apply (Ab i Hi). auto.
  - rewrite cnt_upd by auto. rewrite Hr0, Fx. cbn. lia.
  - intros r' Hr'. split.
    + intros (i & Hi & E). unfold fupd in E. destruct (i =? x); [auto|]. left. exists i. auto.
    + intros [(i & Hi & E)| ->].
      * exists i. split; [auto|]. rewrite fupd_ne; [auto|]. intros <-. unfold full in Fx. rewrite E in Fx.
        destruct (Z.eqb_spec (rg_p r') 0); [congruence|discriminate].
      * exists x. split; [auto|]. apply fupd_eq.
Qed.

(** ** deletion *)
Record del_inv (N : Z) (T : Z -> region) (i j : Z) : Prop := {
  d_i : 0 <= i < N; d_j : 0 <= j < N;
  d_hole : full T j = false;
  d_inj : forall a b, 0 <= a < N -> 0 <= b < N -> full T a = true -> rg_p (T a) = rg_p (T b) -> a = b;
  d_path : forall k m, 0 <= k < N -> 0 <= m < N -> full T k = true ->
     dist N (hm N (rg_p (T k))) m < dist N (hm N (rg_p (T k))) k -> full T m = true \/ m = j;
  d_unproc : forall k, 0 <= k < N -> full T k = true ->
     dist N (hm N (rg_p (T k))) j < dist N (hm N (rg_p (T k))) k -> dist N j i < dist N j k;
  d_proc : forall m, 0 <= m < N -> 0 < dist N j m <= dist N j i -> full T m = true
}.

Lemma dist_split N r j k : 0 <= r < N -> 0 <= j < N -> 0 <= k < N ->
  dist N r j < dist N r k -> dist N r k = dist N r j + dist N j k.
Proof. unfold dist. destruct (Z.ltb_spec r j), (Z.ltb_spec r k), (Z.ltb_spec j k); lia. Qed.
Lemma dist_split' N r j k : 0 <= r < N -> 0 <= j < N -> 0 <= k < N ->
  dist N r j + dist N j k < N -> dist N r k = dist N r j + dist N j k.
Proof. unfold dist. destruct (Z.ltb_spec r j), (Z.ltb_spec r k), (Z.ltb_spec j k); lia. Qed.
Lemma dist_prev_r N j i : pow2N N -> 0 <= i < N -> 0 <= j < N -> prev_index i (N - 1) <> j ->
  dist N j (prev_index i (N - 1)) = dist N j i + 1.
Proof. intros P Hi Hj. rewrite prev_eq by auto. unfold dist. destruct (Z.eqb_spec i 0); [destruct (Z.ltb_spec j i), (Z.ltb_spec j (N - 1)) | destruct (Z.ltb_spec j i), (Z.ltb_spec j (i - 1))]; lia. Qed.
Lemma dist_prev_wrap N j i : pow2N N -> 0 <= i < N -> 0 <= j < N -> prev_index i (N - 1) = j -> dist N j i = N - 1.
Proof. intros P Hi Hj. rewrite prev_eq by auto. unfold dist. destruct (Z.eqb_spec i 0); destruct (Z.ltb_spec j i); lia. Qed.

Lemma shift_cond N i j r : 0 <= i < N -> 0 <= j < N -> 0 <= r < N -> i <> j ->
  ((i <=? r) && (r <? j)) || ((r <? j) && (j <? i)) || ((j <? i) && (i <=? r)) = negb (dist N r j <? dist N r i).
Proof. intros. unfold dist. destruct (Z.ltb_spec r j), (Z.ltb_spec r i); lia. Qed.

Lemma delete_loop_spec N : pow2N N -> forall n T i j, del_inv N T i j ->
  (exists e, 0 <= e < N /\ full T e = false /\ e <> i /\ e <> j /\ dist N i e <= Z.of_nat n) ->
  exists T', delete_loop n T (N - 1) i j = Some T' /\ tab_ok N T' /\ cnt N T' = cnt N T /\
    (forall x, ~ 0 <= x < N -> T' x = T x) /\
    (forall r, rg_p r <> 0 -> (has N T' r <-> has N T r)).
Proof.
  intros P. induction n as [|n IH]; intros T i j D (e & He & Fe & Nei & Nej & De).
  { destruct D. exfalso. assert (i = e); [|congruence]. pose proof (dist_range N i e d_i0 He). apply (dist_0 N); auto; lia. }
  pose proof D as [Hi Hj Hh Hin Hpa Hun Hpr]. cbn [delete_loop].
  set (i' := prev_index i (N - 1)). assert (0 <= i' < N) as Hi' by (now apply prev_range).
  assert (dist N i' e = dist N i e - 1) as Die by (apply dist_prev; auto).
  destruct (Z.eqb_spec (rg_p (T i')) 0) as [E|E].
  - exists T. split; [auto|]. split; [|split; [auto|split; [auto|tauto]]]. constructor; [|exact Hin].
    intros k m Hk Hm Fk Hd. destruct (Hpa k m Hk Hm Fk Hd) as [| ->]; [auto|exfalso].
    pose proof (Hun k Hk Fk Hd) as U.
    assert (0 <= hm N (rg_p (T k)) < N) as Hhk by (now apply home_range).
    assert (full T i' = false) as Fi' by (unfold full; rewrite E; auto).
    assert (k <> i') as Hki by congruence.
    destruct (Z.eq_dec i' j) as [Eij|Nij].
    + pose proof (dist_prev_wrap N j i P Hi Hj Eij). pose proof (dist_range N j k Hj Hk). lia.
    + pose proof (dist_prev_r N j i P Hi Hj Nij) as Dr. fold i' in Dr.
      assert (dist N j i' <> dist N j k) as Dne by (intros X; apply Hki; symmetry; now apply (dist_inj N j)).
      pose proof (dist_split N _ j k Hhk Hj Hk Hd) as S1. pose proof (dist_range N (hm N (rg_p (T k))) k Hhk Hk).
      pose proof (dist_split' N _ j i' Hhk Hj Hi' ltac:(lia)) as S2.
      destruct (Hpa k i' Hk Hi' Fk ltac:(lia)); congruence.
  - assert (full T i' = true) as Fi' by (unfold full; destruct (Z.eqb_spec (rg_p (T i')) 0); auto).
    assert (i' <> j) as Nij by congruence. assert (e <> i') as Nei' by congruence.
    pose proof (dist_prev_r N j i P Hi Hj Nij) as Dr. fold i' in Dr.
    change (home (rg_p (T i')) (N - 1)) with (hm N (rg_p (T i'))).
    assert (exists r, hm N (rg_p (T i')) = r) as (r & Er) by eauto. rewrite Er.
    assert (0 <= r < N) as Hr by (rewrite <- Er; now apply home_range).
    rewrite (shift_cond N) by auto. destruct (Z.ltb_spec (dist N r j) (dist N r i')) as [L|L]; cbn [negb].
    + (* move *)
      set (T1 := fupd T j (T i')).
      assert (T1 i' = T i') as ET1 by (apply fupd_ne; congruence). rewrite ET1.
      set (T2 := fupd T1 i' (clear_cell (T i'))).
      assert (full T2 i' = false) as F2i by (unfold full, T2; rewrite fupd_eq; reflexivity).
      assert (forall a, a <> i' -> a <> j -> T2 a = T a) as T2o.
      { intros a H1 H2. unfold T2, T1. rewrite !fupd_ne by auto. auto. }
      assert (T2 j = T i') as T2j by (unfold T2, T1; rewrite fupd_ne, fupd_eq by auto; auto).
      assert (forall a, 0 <= a < N -> full T2 a = true -> exists b, 0 <= b < N /\ full T b = true /\ T2 a = T b /\ (a = j /\ b = i' \/ a <> j /\ a <> i' /\ b = a)) as Src.
      { intros a Ha Fa. destruct (Z.eq_dec a i') as [->|Nai]; [congruence|]. destruct (Z.eq_dec a j) as [->|Naj].
        - exists i'. auto 6.
        - exists a. assert (T2 a = T a) as Ea by auto. split; [auto|]. split; [unfold full in *; rewrite <- Ea; auto|]. split; [auto|]. right. auto. }
      assert (forall m, 0 <= m < N -> full T m = true \/ m = j -> full T2 m = true \/ m = i') as Fwd.
      { intros m Hm [Fm| ->].
        - destruct (Z.eq_dec m i'); [auto|]. left. destruct (Z.eq_dec m j) as [->|]; [congruence|]. unfold full in *. rewrite T2o by auto. auto.
        - left. unfold full. rewrite T2j. exact Fi'. }
      destruct (IH T2 i' i') as (T' & E' & Ok' & C' & O' & H').
      * constructor; auto.
        -- intros a b Ha Hb Fa Eab.
           destruct (Src a Ha Fa) as (a0 & Ha0 & Fa0 & Ea0 & Ca).
           assert (full T2 b = true) as Fb by (unfold full in *; rewrite <- Eab; auto).
           destruct (Src b Hb Fb) as (b0 & Hb0 & Fb0 & Eb0 & Cb).
           rewrite Ea0, Eb0 in Eab. pose proof (Hin a0 b0 Ha0 Hb0 Fa0 Eab). intuition congruence.
        -- intros k m Hk Hm Fk Hd. destruct (Src k Hk Fk) as (k0 & Hk0 & Fk0 & Ek0 & Ck). rewrite Ek0 in Hd.
           apply Fwd; [auto|]. destruct Ck as [(-> & ->)|(N1 & N2 & ->)].
           ++ apply (Hpa i' m Hi' Hm Fi'). rewrite Er in *. lia.
           ++ apply (Hpa k m); auto.
        -- intros k Hk Fk _. rewrite dist_self. assert (k <> i') by congruence.
           pose proof (dist_range N i' k Hi' Hk). destruct (Z.eq_dec (dist N i' k) 0) as [Z0|]; [|lia].
           apply dist_0 in Z0; auto. congruence.
        -- intros m Hm. rewrite dist_self. lia.
      * exists e. split; [auto|]. split; [|split; [auto|split; [auto|lia]]]. unfold full. rewrite T2o by auto. exact Fe.
      * exists T'. split; [auto|]. split; [auto|]. split; [|split].
        -- rewrite C'. unfold T2. rewrite cnt_upd by auto. unfold T1. rewrite cnt_upd by auto. rewrite full_upd.
           replace (i' =? j) with false by lia. rewrite Fi', Hh. cbn [clear_cell rg_p]. replace (rg_p (T i') =? 0) with false by lia. cbn. lia.
        -- intros x Hx. rewrite O' by auto. apply T2o; lia.
        -- intros r0 Hr0. rewrite H' by auto. split.
           ++ intros (a & Ha & Ea). assert (full T2 a = true) as Fa by (unfold full; rewrite Ea; destruct (Z.eqb_spec (rg_p r0) 0); auto).
              destruct (Src a Ha Fa) as (b & Hb & _ & Eb & _). exists b. split; [auto|congruence].
           ++ intros (a & Ha & Ea). destruct (Z.eq_dec a i') as [->|Nai]; [exists j; split; [auto|congruence]|].
              exists a. split; [auto|]. rewrite T2o; auto. intros ->. unfold full in Hh. rewrite Ea in Hh.
              destruct (Z.eqb_spec (rg_p r0) 0); [congruence|discriminate].
    + apply IH.
      * constructor; auto.
        -- intros k Hk Fk Hd. pose proof (Hun k Hk Fk Hd) as U. destruct (Z.eq_dec k i') as [->|Nki].
           ++ exfalso. rewrite Er in Hd. lia.
           ++ assert (dist N j i' <> dist N j k) as Dne by (intros X; apply Nki; symmetry; now apply (dist_inj N j)). lia.
        -- intros m Hm Hd. destruct (Z.eq_dec (dist N j m) (dist N j i')) as [Em|].
           ++ apply dist_inj in Em; auto. now rewrite Em.
           ++ apply Hpr; auto. lia.
      * exists e. split; [auto|]. split; [auto|]. split; [auto|]. split; [auto|lia].
Qed.

Lemma delete_tab N T x : pow2N N -> tab_ok N T -> 0 <= x < N -> full T x = true -> cnt N T < N ->
  exists T', delete_loop (Z.to_nat N) (fupd T x (clear_cell (T x))) (N - 1) x x = Some T' /\
    tab_ok N T' /\ cnt N T' = cnt N T - 1 /\ (forall y, ~ 0 <= y < N -> T' y = T y) /\
    (forall r, rg_p r <> 0 -> (has N T' r <-> has N T r /\ r <> T x)).
Proof.
  intros P [Tp Ti] Hx Fx Hc. set (T0 := fupd T x (clear_cell (T x))).
  assert (full T0 x = false) as F0x by (unfold T0; rewrite full_upd, Z.eqb_refl; reflexivity).
  assert (forall a, a <> x -> T0 a = T a) as T0o by (intros; unfold T0; rewrite fupd_ne by auto; auto).
  destruct (zcount_not_full (full T) 0 N ltac:(lia)) as (e & He & Fe); [unfold cnt in Hc; lia|].
  assert (e <> x) as Nex by congruence.
  destruct (delete_loop_spec N P (Z.to_nat N) T0 x x) as (T' & E & Ok' & C' & O' & H').
  - constructor; auto.
    + intros a b Ha Hb Fa Eab. assert (a <> x) by congruence.
      assert (b <> x) as Nb. { intros ->. unfold full in Fa. rewrite Eab in Fa. unfold full in F0x. congruence. }
      rewrite !T0o in Eab by auto. apply Ti; auto. unfold full in *. rewrite T0o in Fa by auto. auto.
    + intros k m Hk Hm Fk Hd. assert (k <> x) by congruence. destruct (Z.eq_dec m x); [auto|]. left.
      unfold full in *. rewrite !T0o in * by auto. eapply (Tp k m); eauto.
    + intros k Hk Fk _. rewrite dist_self. assert (k <> x) by congruence.
      pose proof (dist_range N x k Hx Hk). destruct (Z.eq_dec (dist N x k) 0) as [Z0|]; [|lia].
      apply dist_0 in Z0; auto. congruence.
    + intros m Hm. rewrite dist_self. lia.
  - exists e. split; [auto|]. split; [unfold full in *; rewrite T0o; auto|]. split; [auto|]. split; [auto|].
    pose proof (dist_range N x e Hx He). lia.
  - exists T'. split; [auto|]. split; [auto|]. split; [|split].
    + rewrite C'. unfold T0. rewrite cnt_upd by auto. rewrite Fx. cbn. lia.
    + intros y Hy. rewrite O' by auto. apply T0o. lia.
    + intros r Hr. rewrite H' by auto. split.
      * intros (a & Ha & Ea). assert (a <> x) as Nax. { intros ->. unfold full in F0x. rewrite Ea in F0x. destruct (Z.eqb_spec (rg_p r) 0); [auto|discriminate]. }
        rewrite T0o in Ea by auto. split; [exists a; auto|]. intros ->. apply Nax. apply Ti; auto; [|congruence].
        unfold full. rewrite Ea. exact Fx.
      * intros [(a & Ha & Ea) Hn]. exists a. split; [auto|]. rewrite T0o; auto. intros ->. congruence.
Qed.

(** ** growth *)
Lemma rehash_spec N' old : pow2N N' -> forall idx new,
  NoDup idx -> (forall i j, In i idx -> In j idx -> rg_p (old i) <> 0 -> rg_p (old i) = rg_p (old j) -> i = j) ->
  tab_ok N' new -> (forall i, In i idx -> rg_p (old i) <> 0 -> absent N' new (rg_p (old i))) ->
  cnt N' new + zlen idx <= N' - 1 ->
  (forall y, ~ 0 <= y < N' -> rg_p (new y) = 0) ->
  exists t, rehash idx old new N' = Some t /\ tab_ok N' t /\
    cnt N' t = cnt N' new + zlen (filter (full old) idx) /\
    (forall y, ~ 0 <= y < N' -> rg_p (t y) = 0) /\
    (forall r, rg_p r <> 0 -> (has N' t r <-> has N' new r \/ exists i, In i idx /\ old i = r)).
Proof.
  intros P. induction idx as [|i idx IH]; intros new ND Inj Tn Ab Hc Ho; cbn [rehash filter].
  - exists new. split; [auto|]. split; [auto|]. split; [rewrite zlen_nil; lia|]. split; [auto|]. intros r Hr. split; [auto|].
    intros [H|(i & [] & _)]; auto.
  - inversion ND as [|? ? Ni ND']; subst. rewrite zlen_cons in Hc. pose proof (zlen_nonneg idx) as L0.
    destruct (Z.eqb_spec (rg_p (old i)) 0) as [E|E].
    + destruct (IH new) as (t & Et & Tt & Ct & Ot & Ht); auto.
      { intros a b Ha Hb. apply Inj; right; auto. } { intros a Ha. apply Ab. right. auto. } { lia. }
      exists t. split; [auto|]. split; [auto|]. split.
      { rewrite Ct. assert (full old i = false) as -> by (unfold full; rewrite E; auto). auto. }
      split; [auto|]. intros r Hr. rewrite Ht by auto. split.
      * intros [H|(a & Ha & Ea)]; [auto|right; exists a; split; [right; auto|auto]].
      * intros [H|(a & [<-|Ha] & Ea)]; [auto|rewrite Ea in E; congruence|right; eauto].
    + assert (full old i = true) as Fi by (unfold full; destruct (Z.eqb_spec (rg_p (old i)) 0); auto).
      destruct (zcount_not_full (full new) 0 N' ltac:(pose proof (zcount_nonneg (full new) 0 N'); unfold cnt in Hc; lia)) as (e & He & Fe); [unfold cnt in Hc; lia|].
      pose proof (home_range N' (rg_p (old i)) P) as Hh.
      destruct (probe_empty_spec N' new P (Z.to_nat N') (home (rg_p (old i)) (N' - 1)) Hh) as (x & -> & Hx & Fx & Px).
      { exists e. split; [auto|]. split; [auto|]. pose proof (dist_range N' _ e Hh He). lia. }
      destruct (insert_tab N' new (old i) x P Tn E (Ab i ltac:(left; auto) E) Hx Fx Px) as (T1 & C1 & H1).
      destruct (IH (fupd new x (old i))) as (t & Et & Tt & Ct & Ot & Ht); auto.
      { intros a b Ha Hb. apply Inj; right; auto. }
      { intros a Ha Na b Hb. unfold fupd. destruct (Z.eqb_spec b x).
        - intros X. assert (a = i) as -> by (apply Inj; [right; auto|left; auto|auto|auto]). contradiction.
        - apply Ab; auto. right. auto. }
      { lia. }
      { intros y Hy. unfold fupd. destruct (Z.eqb_spec y x); [lia|auto]. }
      exists t. split; [auto|]. split; [auto|]. split; [rewrite Ct, C1, Fi, zlen_cons; lia|]. split; [auto|].
      intros r Hr. rewrite Ht, H1 by auto. split.
      * intros [[H| ->]|(a & Ha & Ea)]; [auto|right; exists i; split; [left|]; auto|right; exists a; split; [right|]; auto].
      * intros [H|(a & [<-|Ha] & Ea)]; [auto|left; right; auto|right; exists a; auto].
Qed.
