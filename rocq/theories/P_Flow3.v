(** The fork and disable handlers, and processes of many threads. *)
From Coq Require Import ZArith List Bool Lia String Arith.
From Verif Require Import M_Base M_Config M_SizeClass M_Flow S_Flow P_Flow P_Flow2.
Import ListNotations.
Open Scope Z_scope.

Lemma bounded (m : nat) (w : nat -> Z) : exists B, forall i, (i < m)%nat -> w i <= B.
Proof.
  induction m as [|m (B & IH)]; [exists 0; intros i Hi; lia|].
  exists (Z.max B (w m)). intros i Hi. destruct (Nat.eq_dec i m) as [->|]; [lia|]. specialize (IH i ltac:(lia)). lia.
Qed.

Section Handlers.
Context (g : config) (Hn : 0 <= N_ARENA g).
Notation trx := (tri (lstep g false)).
Let ok := lstep_abort g false.
Lemma nclass_eq : Z.of_nat (nclass g) = N_SIZE_CLASSES g.
Proof using Type. unfold nclass. rewrite Z2Nat.id; [reflexivity|]. unfold N_SIZE_CLASSES, zlen. lia. Qed.
Lemma narena_eq : Z.of_nat (narena g) = N_ARENA g.
Proof using Hn. unfold narena. rewrite Z2Nat.id; lia. Qed.
Let NC := N_SIZE_CLASSES g.

(** the locks taken before class [k] of arena [a] *)
Definition upto (a k : Z) (l : lockid) : Prop :=
  l = LRegion \/ exists b j, l = LClass b j /\ 0 <= b /\ 0 <= j < NC /\ (b < a \/ b = a /\ j < k).
Definition took (a k : Z) (y : ls) : Prop := l_know y = Some true /\ forall l, In l (l_held y) <-> upto a k l.
Definition all_held (y : ls) : Prop := l_know y = Some true /\ forall l, In l (l_held y) <-> handler_locks g l.

Lemma took_next a y : took a NC y -> took (a + 1) 0 y.
Proof using Type.
  intros (K & H). split; [exact K|]. intros l. rewrite H. unfold upto. split.
  - intros [->|(b & j & -> & B)]; [auto|right]. exists b, j. split; [reflexivity|]. lia.
  - intros [->|(b & j & -> & B)]; [auto|right]. exists b, j. split; [reflexivity|]. lia.
Qed.
Lemma took_all y : took (N_ARENA g) 0 y -> all_held y.
Proof using Type.
  intros (K & H). split; [exact K|]. intros l. rewrite H. unfold upto, handler_locks. split.
  - intros [->|(b & j & -> & B)]; [auto|right]. exists b, j. split; [reflexivity|]. unfold NC in B. lia.
  - intros [->|(b & j & -> & B)]; [auto|right]. exists b, j. split; [reflexivity|]. unfold NC. lia.
Qed.
Lemma took_lock a k y : 0 <= a -> 0 <= k < NC -> took a k y ->
  exists y', lstep g false y (ILock (LClass a k)) = Some y' /\ took a (k + 1) y'.
Proof using Type.
  intros Ha Hk (K & H). destruct y as [h kn]. cbn in K, H. subst kn. cbn [lstep].
  assert (F : forallb (fun m => place g m <? place g (LClass a k)) h = true).
  { apply forallb_forall. intros m Hm. apply H in Hm. apply Z.ltb_lt. fold NC. unfold NC in Hk.
    destruct Hm as [->|(b & j & -> & B1 & B2 & B3)]; cbn [place].
    - assert (0 <= a * N_SIZE_CLASSES g) by (apply Z.mul_nonneg_nonneg; lia). lia.
    - unfold NC in B2. destruct B3 as [B3|[-> B3]]; [|lia].
      assert ((b + 1) * N_SIZE_CLASSES g <= a * N_SIZE_CLASSES g) by (apply Z.mul_le_mono_nonneg_r; lia). lia. }
  rewrite F. cbn. eexists. split; [reflexivity|]. split; [reflexivity|]. cbn. intros l. rewrite H. unfold upto. split.
  - intros [<-|[->|(b & j & -> & B)]]; [|auto|]; right; [exists a, k|exists b, j]; (split; [reflexivity|lia]).
  - intros [->|(b & j & -> & B)]; [auto|]. destruct (Z.eq_dec b a) as [->|]; [destruct (Z.eq_dec j k) as [->|]|]; auto;
    right; right; eexists _, _; (split; [reflexivity|lia]).
Qed.
Lemma h_full_lock : trx W (full_lock g) all_held none.
Proof using Hn.
  unfold full_lock. walk_open. eapply (tri_do_seq _ ok); [reflexivity|]. eapply (tri_do_seq _ ok); [reflexivity|].
  eapply tri_known with (M := all_held).
  - eapply (tri_for _ (fun a => took a 0)).
    + split; [reflexivity|]. cbn. intros l. unfold upto. split; [intros [<-|[]]; auto|].
      intros [->|(b & j & -> & B)]; [auto|lia].
    + intros a y Ha Hy. eapply (tri_for _ (fun k => took a k)).
      * exact Hy.
      * intros k z Hk Hz. destruct (took_lock a k z ltac:(lia)) as (z' & E & Hz'); [|exact Hz|].
        { rewrite nclass_eq in Hk. fold NC in Hk. lia. }
        eapply (tri_do _ ok); [exact E|exact Hz'].
      * intros z. rewrite nclass_eq. fold NC. rewrite Z.add_0_l. apply took_next.
    + intros y. rewrite Z.add_0_l, narena_eq. apply took_all.
  - intros [h k] Hy. eapply (tri_do _ ok); [reflexivity|]. exact Hy.
Qed.

Definition left_from (a k : Z) (l : lockid) : Prop :=
  exists b j, l = LClass b j /\ 0 <= b < N_ARENA g /\ 0 <= j < NC /\ (a < b \/ b = a /\ k <= j).
Definition kept_from (a k : Z) (y : ls) : Prop := l_know y = Some true /\ forall l, In l (l_held y) <-> left_from a k l.
Lemma kept_unlock a k y : 0 <= a < N_ARENA g -> 0 <= k < NC -> kept_from a k y ->
  exists y', lstep g false y (IUnlock (LClass a k)) = Some y' /\ kept_from a (k + 1) y'.
Proof using Type.
  intros Ha Hk (K & H). destruct y as [h kn]. cbn in K, H. subst kn. cbn [lstep].
  assert (F : has (LClass a k) h = true).
  { apply has_In, H. exists a, k. split; [reflexivity|lia]. }
  rewrite F. eexists. split; [reflexivity|]. split; [reflexivity|]. cbn [l_held]. intros l. rewrite filter_In, H, negb_true_iff. unfold left_from. split.
  - intros ((b & j & -> & B1 & B2 & B3) & E). exists b, j. split; [reflexivity|].
    assert (~ (b = a /\ j = k)). { intros (-> & ->). rewrite lock_eqb_refl in E. discriminate. }
    lia.
  - intros (b & j & -> & B1 & B2 & B3). split; [exists b, j; split; [reflexivity|lia]|].
    destruct (lock_eqb (LClass b j) (LClass a k)) eqn:E; [|reflexivity]. apply lock_eqb_eq in E. injection E as -> ->. lia.
Qed.
Lemma kept_next a y : kept_from a NC y -> kept_from (a + 1) 0 y.
Proof using Type.
  intros (K & H). split; [exact K|]. intros l. rewrite H. unfold left_from.
  split; intros (b & j & -> & B); exists b, j; (split; [reflexivity|lia]).
Qed.
Lemma h_full_unlock y : all_held y -> trx y (full_unlock g) isW none.
Proof using Hn.
  intros Hy. unfold full_unlock. walk_open. destruct y as [h kn]. destruct Hy as (K & Hy). cbn in K, Hy. subst kn.
  eapply (tri_do_seq _ ok); [reflexivity|].
  assert (F : has LRegion h = true). { apply has_In, Hy. left. reflexivity. }
  eapply (tri_do_seq _ ok); [cbn [lstep]; rewrite F; reflexivity|].
  eapply tri_known with (M := isW).
  - eapply (tri_for _ (fun a => kept_from a 0)).
    + split; [reflexivity|]. cbn [l_held]. intros l. rewrite filter_In, Hy, negb_true_iff. unfold left_from, handler_locks. split.
      * intros ([->|(b & j & -> & B)] & E); [rewrite lock_eqb_refl in E; discriminate|].
        exists b, j. unfold NC. split; [reflexivity|lia].
      * intros (b & j & -> & B). split; [|reflexivity]. right. exists b, j. unfold NC in B. split; [reflexivity|lia].
    + intros a y Ha Hy'. rewrite narena_eq in Ha. eapply (tri_for _ (fun k => kept_from a k)).
      * exact Hy'.
      * intros k z Hk Hz. rewrite nclass_eq in Hk. fold NC in Hk. destruct (kept_unlock a k z ltac:(lia) ltac:(lia) Hz) as (z' & E & Hz').
        eapply (tri_do _ ok); [exact E|exact Hz'].
      * intros z. rewrite nclass_eq. fold NC. rewrite Z.add_0_l. apply kept_next.
    + intros y. rewrite Z.add_0_l, narena_eq. intros (K & H). destruct y as [h' k']. cbn in K, H. subst k'.
      unfold isW, W. f_equal. destruct h' as [|l h']; [reflexivity|]. exfalso.
      destruct (proj1 (H l) (or_introl eq_refl)) as (b & j & _ & B). lia.
  - intros y ->. eapply (tri_do _ ok); [reflexivity|reflexivity].
Qed.

Lemma lax x s N R : tri (lstep g true) x s N R -> trx x s N R.
Proof using Type.
  intros H t r P. destruct (H t r P) as (y & E & Q). exists y. split; [|exact Q]. apply arun_lax. exact E.
Qed.
Lemma h_call x s N : trx x s N none -> trx x (Call s) N none.
Proof using Type. intros H. apply tri_call. eapply tri_mono; [exact H|auto|intros ? []]. Qed.
Lemma h_disable k : trx (mkL [] k) (f_disable g) all_held none.
Proof using Hn.
  unfold f_disable. apply h_call. eapply tri_known; [apply lax, l_init|]. intros y ->. apply h_call, h_full_lock.
Qed.
Lemma h_enable y : all_held y -> trx y (f_enable g) isW none.
Proof using Hn.
  intros Hy. unfold f_enable. apply h_call. walk_open. eapply tri_known with (M := all_held).
  - destruct y as [h k]. destruct Hy as (K & Hy). cbn in K, Hy. subst k. apply tri_or.
    + eapply (tri_do _ ok); [reflexivity|]. split; [reflexivity|exact Hy].
    + eapply (tri_do_seq _ ok); [reflexivity|]. apply (tri_abort _ ok).
  - intros z Hz. apply h_call, h_full_unlock, Hz.
Qed.

Lemma l_exported n f k : In (n, f) (exported g) -> tri (lstep g true) (mkL [] k) f fr none.
Proof using Type.
  intros H. cbn in H.
  repeat (destruct H as [H|H]; [injection H as <- <-|]); try destruct H;
  first [apply l_malloc|apply l_calloc|apply l_realloc|apply l_posix|apply l_aligned|apply l_pvalloc|apply l_free|apply l_usable
    |apply l_object|apply l_fast|apply l_mallopt|apply l_trim|apply l_mallinfo|apply l_arena_info|apply l_iterate|apply l_disable_tagging
    |apply l_early|apply l_constant].
Qed.

Lemma path_aborted s t : path s t Aborted -> exists u, t = u ++ [IAbort].
Proof using Type.
  intros P. remember Aborted as r eqn:E. induction P; try discriminate E; subst.
  - exists []. reflexivity.
  - destruct (IHP2 eq_refl) as (u & ->). exists (t1 ++ u). apply app_assoc.
  - auto.
  - auto.
  - auto.
  - auto.
  - destruct (IHP2 eq_refl) as (u & ->). exists (t1 ++ u). apply app_assoc.
  - auto.
  - destruct (IHP2 eq_refl) as (u & ->). exists (t1 ++ u). apply app_assoc.
  - auto.
  - destruct r; try discriminate. auto.
Qed.

(** a thread's remaining instructions, seen from what it holds *)
Definition good (x : ls) (t : list instr) : Prop :=
  exists y, arun (lstep g false) x t = Some y /\ (l_held y = [] \/ exists u, t = u ++ [IAbort]).
Lemma good_app x t1 y t2 : arun (lstep g false) x t1 = Some y -> good y t2 -> good x (t1 ++ t2).
Proof using Type.
  intros E (z & E' & H). exists z. rewrite (arun_app_some _ _ _ _ _ E). split; [exact E'|].
  destruct H as [H|(u & ->)]; [auto|]. right. exists (t1 ++ u). apply app_assoc.
Qed.
Lemma good_cons x i t : good x (i :: t) -> i <> IAbort -> exists y, lstep g false x i = Some y /\ good y t.
Proof using Type.
  intros (y & E & H) Hi. cbn in E. destruct (lstep g false x i) as [z|] eqn:Q; [|discriminate]. exists z. split; [reflexivity|].
  exists y. split; [exact E|]. destruct H as [H|(u & H)]; [auto|]. right. destruct u as [|j u]; cbn in H; injection H as H1 H2; [congruence|].
  exists u. exact H2.
Qed.
Lemma good_nil x : good x [] -> l_held x = [].
Proof using Type.
  intros (y & E & H). cbn in E. injection E as <-. destruct H as [H|(u & H)]; [exact H|]. destruct u; discriminate.
Qed.
Lemma good_call f x t t' : tri (lstep g false) x f fr none -> path f t Next -> (forall k, good (mkL [] k) t') -> good x (t ++ t').
Proof using Type.
  intros H P G. destruct (H t Next P) as (y & E & Q). eapply good_app; [exact E|]. destruct y as [h k]. unfold fr in Q. cbn in Q. subst h. apply G.
Qed.
Lemma good_aborted f x t N : tri (lstep g false) x f N none -> path f t Aborted -> good x t.
Proof using Type.
  intros H P. destruct (H t Aborted P) as (y & E & _). exists y. split; [exact E|]. right. eapply path_aborted, P.
Qed.
Lemma life_good t : life g t -> forall k, good (mkL [] k) t.
Proof using Hn.
  induction 1; intros k0.
  - exists (mkL [] k0). split; [reflexivity|left; reflexivity].
  - eapply good_call; [apply lax; eapply l_exported; eassumption|eassumption|assumption].
  - eapply good_call; [apply lax, l_malloc_info|eassumption|assumption].
  - eapply good_call; [apply lax, l_bin_info|eassumption|assumption].
  - destruct (h_disable k0 _ _ H) as (y & E & Q). destruct (h_enable y Q _ _ H0) as (z & E' & Q').
    eapply good_app; [exact E|]. eapply good_app; [exact E'|]. rewrite Q'. apply IHlife.
  - destruct (h_full_lock _ _ H) as (y & E & Q). destruct (h_full_unlock y Q _ _ H0) as (z & E' & Q').
    apply (good_app _ _ W); [reflexivity|]. eapply good_app; [exact E|]. eapply good_app; [exact E'|]. rewrite Q'. apply IHlife.
  - apply (good_app _ _ (mkL [] k0)); [reflexivity|]. apply IHlife.
  - eapply good_aborted; [apply lax; eapply l_exported; eassumption|eassumption].
  - eapply good_aborted; [apply lax, l_malloc_info|eassumption].
  - eapply good_aborted; [apply h_disable|eassumption].
Qed.

(** ** processes *)
Record pinv (s : proc) (x : nat -> ls) : Prop := {
  pi_good : forall i, good (x i) (todo s i);
  pi_hold : forall i l, holder s l = Some i <-> In l (l_held (x i));
  pi_true : forall i, l_know (x i) = Some true -> inited s = true;
  pi_false : forall i, l_know (x i) = Some false -> inited s = false /\ In LInit (l_held (x i));
  pi_lock : forall i l, In l (l_held (x i)) -> l <> LInit -> inited s = true;
  pi_reg : registered s = true -> inited s = true;
  pi_once : inits s = if inited s then 1%nat else 0%nat }.
Definition upx (x : nat -> ls) (i : nat) (y : ls) : nat -> ls := fun j => if Nat.eqb j i then y else x j.
Lemma upx_same x i y : upx x i y i = y.
Proof using Type. unfold upx. rewrite Nat.eqb_refl. reflexivity. Qed.
Lemma upx_other x i j y : j <> i -> upx x i y j = x j.
Proof using Type. intros H. unfold upx. destruct (Nat.eqb_spec j i); [contradiction|reflexivity]. Qed.

(** a step that changes only the thread's own knowledge *)
Lemma pinv_own s x i t y b :
  pinv s x -> good y t -> l_held y = l_held (x i) ->
  (l_know y = Some true -> inited s = true) -> (l_know y = Some false -> inited s = false /\ In LInit (l_held (x i))) ->
  (b = true -> inited s = true) ->
  pinv (mkProc (holder s) (inited s) b (ended s) (upd_todo (todo s) i t) (inits s)) (upx x i y).
Proof using Type.
  intros [G H T F L R O] Gy Hy Ky Kf Hb. split; cbn [holder inited registered ended todo inits]; auto.
  - intros j. unfold upd_todo, upx. destruct (Nat.eqb j i); auto.
  - intros j l. rewrite H. destruct (Nat.eq_dec j i) as [->|N]; [rewrite upx_same, Hy|rewrite (upx_other _ _ _ _ N)]; reflexivity.
  - intros j. destruct (Nat.eq_dec j i) as [->|N]; [rewrite upx_same|rewrite (upx_other _ _ _ _ N)]; eauto.
  - intros j. destruct (Nat.eq_dec j i) as [->|N]; [rewrite upx_same, Hy|rewrite (upx_other _ _ _ _ N)]; eauto.
  - intros j l. destruct (Nat.eq_dec j i) as [->|N]; [rewrite upx_same, Hy|rewrite (upx_other _ _ _ _ N)]; eauto.
Qed.
Lemma pinv_ext s x h' : pinv s x -> (forall l, h' l = holder s l) ->
  pinv (mkProc h' (inited s) (registered s) (ended s) (todo s) (inits s)) x.
Proof using Type.
  intros [G H T F L R O] E. split; cbn [holder inited registered ended todo inits]; auto. intros j l. rewrite E. apply H.
Qed.
Lemma upd_lock_same h l o : upd_lock h l o l = o.
Proof using Type. unfold upd_lock. rewrite lock_eqb_refl. reflexivity. Qed.
Lemma upd_lock_other h l o m : m <> l -> upd_lock h l o m = h m.
Proof using Type. intros N. unfold upd_lock. destruct (lock_eqb m l) eqn:E; [apply lock_eqb_eq in E; contradiction|reflexivity]. Qed.

Lemma pinv_step s s' x : pinv s x -> pstep s s' -> exists x', pinv s' x'.
Proof using Type.
  intros I P. pose proof I as [G H T F L R O]. destruct P as
    [h b r n f i l t E Hl | h b r n f i l t E | h b r n f i l t E | h b r n f i t E | h b r n f i t E | h b r n f i t E
    | h b r n f i t E | h b r n f i t E | h b r n f i a t E Ha];
  cbn [holder inited registered ended todo inits] in *; pose proof (G i) as Gi; rewrite E in Gi.
  - (* lock *)
    apply good_cons in Gi; [|discriminate]. destruct Gi as (y & S & Gy). destruct (x i) as [hd k] eqn:X. cbn [lstep] in S.
    destruct (forallb _ hd && _) eqn:C; [|discriminate]. injection S as <-. apply andb_true_iff in C. destruct C as (_ & C).
    assert (X1 : l_held (x i) = hd) by (rewrite X; reflexivity). assert (X2 : l_know (x i) = k) by (rewrite X; reflexivity).
    exists (upx x i (mkL (l :: hd) k)). split; cbn [holder inited registered ended todo inits]; auto.
    + intros j. unfold upd_todo, upx. destruct (Nat.eqb j i); auto.
    + intros j m. destruct (Nat.eq_dec j i) as [->|N]; [rewrite upx_same|rewrite (upx_other _ _ _ _ N)].
      * cbn [l_held]. unfold upd_lock. destruct (lock_eqb m l) eqn:Q.
        -- apply lock_eqb_eq in Q. subst m. split; [left; reflexivity|reflexivity].
        -- rewrite H, X1. split; [right; assumption|]. intros [->|A]; [rewrite lock_eqb_refl in Q; discriminate|exact A].
      * unfold upd_lock. destruct (lock_eqb m l) eqn:Q.
        -- apply lock_eqb_eq in Q. subst m. split; [congruence|]. intros A. apply H in A. congruence.
        -- apply H.
    + intros j. destruct (Nat.eq_dec j i) as [->|N]; [rewrite upx_same|rewrite (upx_other _ _ _ _ N)]; [|apply T].
      cbn. rewrite <- X2. apply T.
    + intros j. destruct (Nat.eq_dec j i) as [->|N]; [rewrite upx_same|rewrite (upx_other _ _ _ _ N)]; [|apply F].
      cbn. rewrite <- X2. intros A. apply F in A. rewrite X1 in A. destruct A. auto.
    + intros j m. destruct (Nat.eq_dec j i) as [->|N]; [rewrite upx_same|rewrite (upx_other _ _ _ _ N)]; [|apply L].
      cbn. intros [->|A] B; [|apply (L i m); [rewrite X1; exact A|exact B]].
      apply (T i). rewrite X2. destruct m; [congruence| |]; destruct k as [[]|]; try discriminate; reflexivity.
  - (* unlock *)
    apply good_cons in Gi; [|discriminate]. destruct Gi as (y & S & Gy). destruct (x i) as [hd k] eqn:X. cbn [lstep] in S.
    destruct (has l hd) eqn:C; [|discriminate]. injection S as S. apply has_In in C.
    assert (X1 : l_held (x i) = hd) by (rewrite X; reflexivity). assert (X2 : l_know (x i) = k) by (rewrite X; reflexivity).
    assert (Hy : l_held y = filter (fun m => negb (lock_eqb m l)) hd) by (rewrite <- S; reflexivity).
    assert (Hin : forall m, In m (l_held y) <-> In m hd /\ m <> l).
    { intros m. rewrite Hy, filter_In, negb_true_iff. split; intros (A & B); (split; [exact A|]).
      - intros ->. rewrite lock_eqb_refl in B. discriminate.
      - destruct (lock_eqb m l) eqn:Q; [apply lock_eqb_eq in Q; contradiction|reflexivity]. }
    assert (Ky : l_know y = Some true -> k = Some true) by (rewrite <- S; cbn; destruct l, k as [[]|]; congruence).
    assert (Kf : l_know y = Some false -> k = Some false /\ l <> LInit) by (rewrite <- S; cbn; destruct l, k as [[]|]; split; congruence).
    exists (upx x i y). split; cbn [holder inited registered ended todo inits]; auto.
    + intros j. unfold upd_todo, upx. destruct (Nat.eqb j i); auto.
    + intros j m. destruct (Nat.eq_dec j i) as [->|N]; [rewrite upx_same|rewrite (upx_other _ _ _ _ N)].
      * rewrite Hin. unfold upd_lock. destruct (lock_eqb m l) eqn:Q.
        -- apply lock_eqb_eq in Q. split; [discriminate|intros (_ & A); contradiction].
        -- rewrite H, X1. split; [|tauto]. intros A. split; [exact A|]. intros ->. rewrite lock_eqb_refl in Q. discriminate.
      * unfold upd_lock. destruct (lock_eqb m l) eqn:Q; [|apply H].
        apply lock_eqb_eq in Q. subst m. split; [discriminate|]. intros A. apply H in A.
        assert (B : h l = Some i) by (apply H; rewrite X1; exact C). congruence.
    + intros j. destruct (Nat.eq_dec j i) as [->|N]; [rewrite upx_same|rewrite (upx_other _ _ _ _ N)]; [|apply T].
      intros A. apply (T i). rewrite X2. auto.
    + intros j. destruct (Nat.eq_dec j i) as [->|N]; [rewrite upx_same|rewrite (upx_other _ _ _ _ N)]; [|apply F].
      intros A. apply Kf in A. destruct A as (A & B). destruct (F i) as (A1 & A2); [rewrite X2; exact A|]. split; [exact A1|].
      apply Hin. rewrite X1 in A2. split; [exact A2|congruence].
    + intros j m. destruct (Nat.eq_dec j i) as [->|N]; [rewrite upx_same|rewrite (upx_other _ _ _ _ N)]; [|apply L].
      intros A B. apply Hin in A. apply (L i m); [rewrite X1; tauto|exact B].
  - (* mutex init *)
    apply good_cons in Gi; [|discriminate]. destruct Gi as (y & S & Gy). destruct (x i) as [hd k] eqn:X. cbn [lstep] in S.
    destruct (sealed_lock l) eqn:SL; [|discriminate]. destruct k as [[]|]; try discriminate. injection S as <-.
    destruct (F i) as (F1 & F2); [rewrite X; reflexivity|]. cbn in F1. subst b.
    assert (NH : h l = None).
    { destruct (h l) as [j|] eqn:Q; [|reflexivity]. apply H in Q.
      assert (l <> LInit) by (intros ->; discriminate). specialize (L j l Q H0). discriminate. }
    exists (upx x i (mkL hd (Some false))).
    pose proof (pinv_own _ x i t (mkL hd (Some false)) r I Gy) as A. cbn [holder inited registered ended todo inits] in A.
    rewrite X in A. cbn in A. specialize (A eq_refl). rewrite X in F2. cbn in F2.
    refine (pinv_ext _ _ _ (A _ _ R) _).
    + discriminate.
    + auto.
    + intros m. cbn. unfold upd_lock. destruct (lock_eqb m l) eqn:Q; [|reflexivity]. apply lock_eqb_eq in Q. subst. symmetry. exact NH.
  - (* is_init *)
    apply good_cons in Gi; [|discriminate]. destruct Gi as (y & S & Gy). destruct (x i) as [hd k] eqn:X.
    exists (upx x i y). apply (pinv_own (mkProc h b r false f n) x i t y r I Gy); cbn [inited registered]; auto; rewrite ?X.
    + destruct b; cbn in S; injection S as <-; reflexivity.
    + destruct b; cbn in S; injection S as <-; cbn; auto. destruct (has LInit hd); [discriminate|]. intros ->.
      apply (T i). rewrite X. reflexivity.
    + destruct b; cbn in S; injection S as <-; cbn; [discriminate|].
      destruct (has LInit hd) eqn:Q.
      * apply has_In in Q. auto.
      * intros ->. destruct (F i) as (F1 & F2); [rewrite X; reflexivity|]. rewrite X in F2. auto.
  - (* publish *)
    apply good_cons in Gi; [|discriminate]. destruct Gi as (y & S & Gy). destruct (x i) as [hd k] eqn:X. cbn [lstep] in S.
    destruct k as [[]|]; try discriminate. destruct (has LInit hd) eqn:Q; [|discriminate]. injection S as <-. apply has_In in Q.
    destruct (F i) as (F1 & F2); [rewrite X; reflexivity|]. cbn in F1. subst b.
    assert (X1 : l_held (x i) = hd) by (rewrite X; reflexivity).
    exists (upx x i (mkL hd (Some true))). split; cbn [holder inited registered ended todo inits]; auto.
    + intros j. unfold upd_todo, upx. destruct (Nat.eqb j i); auto.
    + intros j m. rewrite H. destruct (Nat.eq_dec j i) as [->|N]; [rewrite upx_same, X1|rewrite (upx_other _ _ _ _ N)]; reflexivity.
    + intros j. destruct (Nat.eq_dec j i) as [->|N]; [rewrite upx_same; discriminate|rewrite (upx_other _ _ _ _ N)].
      intros A. apply F in A. destruct A as (_ & A). apply H in A.
      assert (B : h LInit = Some i) by (apply H; rewrite X1; exact Q). congruence.
  - (* register *)
    apply good_cons in Gi; [|discriminate]. destruct Gi as (y & S & Gy). destruct (x i) as [hd k] eqn:X. cbn [lstep] in S.
    destruct k as [[]|]; try discriminate. injection S as <-.
    assert (B : b = true) by (apply (T i); rewrite X; reflexivity).
    exists (upx x i (mkL hd (Some true))). apply (pinv_own (mkProc h b r false f n) x i t _ true I Gy); cbn [inited registered]; auto; rewrite ?X; cbn; auto. discriminate.
  - (* fork test *)
    apply good_cons in Gi; [|discriminate]. destruct Gi as (y & S & Gy). destruct (x i) as [hd k] eqn:X. cbn [lstep] in S. injection S as <-.
    eexists (upx x i _). apply (pinv_own (mkProc h b r false f n) x i t _ r I Gy); cbn [inited registered l_held l_know]; auto; rewrite ?X.
    + reflexivity.
    + destruct r; [auto|]. intros ->. apply (T i). rewrite X. reflexivity.
    + destruct r; [discriminate|]. intros ->. destruct (F i) as (F1 & F2); [rewrite X; reflexivity|]. rewrite X in F2. auto.
  - (* abort *)
    exists x. split; cbn [holder inited registered ended todo inits]; auto.
  - (* others *)
    apply good_cons in Gi; [|destruct a; try contradiction; discriminate]. destruct Gi as (y & S & Gy). destruct (x i) as [hd k] eqn:X.
    assert (Y : y = mkL hd k).
    { destruct a; try contradiction; cbn [lstep] in S;
      repeat match type of S with (if ?c then _ else _) = _ => destruct c | match ?c with _ => _ end = _ => destruct c end; try discriminate; injection S as <-; reflexivity. }
    subst y. exists (upx x i (mkL hd k)).
    apply (pinv_own (mkProc h b r false f n) x i t _ r I Gy); cbn [inited registered l_held l_know]; auto; rewrite ?X; cbn; auto.
    + intros ->. apply (T i). rewrite X. reflexivity.
    + intros ->. destruct (F i) as (F1 & F2); [rewrite X; reflexivity|]. rewrite X in F2. auto.
Qed.
Lemma pinv_start f : (forall i, life g (f i)) -> pinv (start f) (fun _ => mkL [] None).
Proof using Hn.
  intros H. split; cbn; try discriminate; auto.
  - intros i. apply life_good, H.
  - intros i l. split; [discriminate|intros []].
Qed.
Lemma pinv_runs f s : (forall i, life g (f i)) -> runs_to (start f) s -> exists x, pinv s x.
Proof using Hn.
  intros H. induction 1 as [|u v R IH P]; [eexists; apply pinv_start, H|].
  destruct IH as (x & I). eapply pinv_step; eassumption.
Qed.

(** ** no deadlock *)
Definition want (s : proc) (i : nat) : Z := match todo s i with ILock l :: _ => place g l | _ => 0 end.
Lemma chain s x i : pinv s x -> waiting s i -> exists j, working s j /\ (waiting s j -> want s i < want s j).
Proof using Type.
  intros [G H T F L R O] (l & t & j & E & Hl). exists j. split.
  - intros Ej. pose proof (G j) as A. rewrite Ej in A. apply good_nil in A. apply H in Hl. rewrite A in Hl. destruct Hl.
  - intros (l' & t' & j' & E' & Hl'). pose proof (G j) as A. rewrite E' in A. apply good_cons in A; [|discriminate].
    destruct A as (y & S & _). apply H in Hl. destruct (x j) as [hd k]. cbn [lstep] in S.
    destruct (forallb (fun m => place g m <? place g l') hd) eqn:C; [|discriminate]. rewrite forallb_forall in C.
    specialize (C l Hl). apply Z.ltb_lt in C. unfold want. rewrite E, E'. exact C.
Qed.
Lemma waiting_dec s i : waiting s i \/ ~ waiting s i.
Proof using Type.
  destruct (todo s i) as [|[l| | | | | | | | | | | | |] t] eqn:E; try (right; intros (l' & t' & j & E' & _); congruence).
  destruct (holder s l) as [j|] eqn:H; [left; exists l, t, j; auto|]. right. intros (l' & t' & j & E' & H'). congruence.
Qed.
Lemma no_deadlock m f s :
  (forall i, life g (f i)) -> (forall i, (m <= i)%nat -> f i = []) -> runs_to (start f) s ->
  forall i, working s i -> exists j, working s j /\ ~ waiting s j.
Proof using Hn.
  intros Hf Hm Hs.
  destruct (pinv_runs f s Hf Hs) as (x & I).
  assert (Small : forall i, working s i -> (i < m)%nat).
  { clear I x. induction Hs as [|u v Ru IH P]; intros i Hi.
    - destruct (le_lt_dec m i) as [L|]; [|assumption]. exfalso. apply Hi. cbn. auto.
    - apply IH. intros E. apply Hi. destruct P; cbn in *; unfold upd_todo; try (destruct (Nat.eqb_spec i i0) as [->|]; [congruence|exact E]); exact E. }
  destruct (bounded m (want s)) as (B & HB).
  intros i. remember (Z.to_nat (B - want s i)) as d eqn:D. revert i D.
  induction d as [d IH] using lt_wf_ind. intros i -> Wi.
  destruct (waiting_dec s i) as [Hw|Hw]; [|exists i; auto].
  destruct (chain s x i I Hw) as (j & Wj & C). destruct (waiting_dec s j) as [Hj|Hj]; [|exists j; auto].
  specialize (C Hj). pose proof (HB j (Small j Wj)). apply (IH (Z.to_nat (B - want s j)) ltac:(lia) j eq_refl Wj).
Qed.

Lemma pool_touch f s i l t : (forall i, life g (f i)) -> runs_to (start f) s ->
  todo s i = ITouch l :: t \/ todo s i = IUnlock l :: t -> holder s l = Some i.
Proof using Hn.
  intros Hf Hs E. destruct (pinv_runs f s Hf Hs) as (x & I). apply (pi_hold s x I).
  pose proof (pi_good s x I i) as G. destruct (x i) as [h k].
  destruct E as [E|E]; rewrite E in G; (apply good_cons in G; [|discriminate]); destruct G as (y & S & _); cbn [lstep] in S;
  destruct (has l h) eqn:C; try discriminate; apply has_In; exact C.
Qed.
Lemma pool_setup f s i l t : (forall i, life g (f i)) -> runs_to (start f) s ->
  todo s i = ISetup l :: t \/ todo s i = IMutexInit l :: t ->
  inited s = false /\ holder s LInit = Some i /\ forall m, m <> LInit -> holder s m = None.
Proof using Hn.
  intros Hf Hs E. destruct (pinv_runs f s Hf Hs) as (x & I).
  pose proof (pi_good s x I i) as G. destruct (x i) as [h k] eqn:X.
  assert (K : l_know (x i) = Some false).
  { rewrite X. destruct E as [E|E]; rewrite E in G; (apply good_cons in G; [|discriminate]); destruct G as (y & S & _); cbn [lstep] in S;
    destruct (sealed_lock l); try discriminate; destruct k as [[]|]; try discriminate; reflexivity. }
  destruct (pi_false s x I i K) as (A & B). split; [exact A|]. split; [apply (pi_hold s x I); exact B|].
  intros m Hm. destruct (holder s m) as [j|] eqn:Q; [|reflexivity]. apply (pi_hold s x I) in Q.
  pose proof (pi_lock s x I j m Q Hm). congruence.
Qed.
Lemma pool_once f s : (forall i, life g (f i)) -> runs_to (start f) s -> inits s = if inited s then 1%nat else 0%nat.
Proof using Hn. intros Hf Hs. destruct (pinv_runs f s Hf Hs) as (x & I). apply (pi_once s x I). Qed.
Lemma pool_free f s : (forall i, life g (f i)) -> runs_to (start f) s -> ended s = false -> (forall i, todo s i = []) -> forall l, holder s l = None.
Proof using Hn.
  intros Hf Hs _ E l. destruct (pinv_runs f s Hf Hs) as (x & I). destruct (holder s l) as [j|] eqn:Q; [|reflexivity].
  apply (pi_hold s x I) in Q. pose proof (pi_good s x I j) as G. rewrite E in G. apply good_nil in G. rewrite G in Q. destruct Q.
Qed.
End Handlers.
