(** Walks over the control-flow skeletons. *)
From Coq Require Import ZArith List Bool Lia String.
From Verif Require Import M_Base M_Config M_SizeClass M_Flow S_Flow.
Import ListNotations.
Open Scope Z_scope.

Section Auto.
Context {A : Type} (astep : A -> instr -> option A).
Context (astep_abort : forall x, astep x IAbort = Some x).
Fixpoint arun (x : A) (t : list instr) : option A :=
  match t with
  | [] => Some x
  | i :: t' => match astep x i with Some y => arun y t' | None => None end
  end.
Lemma arun_app x t1 t2 : arun x (t1 ++ t2) = match arun x t1 with Some y => arun y t2 | None => None end.
Proof using Type. revert x; induction t1 as [|i t1 IH]; intros x; cbn; [reflexivity|]. destruct (astep x i); auto. Qed.
Lemma arun_app_some x y t1 t2 : arun x t1 = Some y -> arun x (t1 ++ t2) = arun y t2.
Proof using Type. intros H. rewrite arun_app, H. reflexivity. Qed.

(** [tri x s N R]: every way through [s] from [x] is accepted; it goes on in [N] and
    returns in [R] *)
Definition tri (x : A) (s : stmt) (N R : A -> Prop) : Prop :=
  forall t r, path s t r -> exists y, arun x t = Some y /\
    match r with Next => N y | Returned => R y | Aborted => True end.

Lemma tri_mono x s (N N' R R' : A -> Prop) :
  tri x s N R -> (forall y, N y -> N' y) -> (forall y, R y -> R' y) -> tri x s N' R'.
Proof using Type. intros H a b t r P. destruct (H t r P) as (y & E & Q). exists y. split; [exact E|]. destruct r; auto. Qed.
Lemma tri_skip x (N R : A -> Prop) : N x -> tri x Skip N R.
Proof using Type. intros H t r P. inversion P; subst. exists x. auto. Qed.
Lemma tri_return x (N R : A -> Prop) : R x -> tri x Return N R.
Proof using Type. intros H t r P. inversion P; subst. exists x. auto. Qed.
Lemma tri_do x i y (N R : A -> Prop) : astep x i = Some y -> N y -> tri x (Do i) N R.
Proof using astep_abort.
  intros H Hy t r P. inversion P; subst.
  - exists y. cbn. rewrite H. auto.
  - exists x. cbn. rewrite astep_abort. auto.
Qed.
Lemma tri_abort x (N R : A -> Prop) : tri x (Do IAbort) N R.
Proof using astep_abort.
  intros t r P. inversion P; subst; [congruence|]. exists x. cbn. rewrite astep_abort. auto.
Qed.
Lemma tri_seq x s t (M N R : A -> Prop) : tri x s M R -> (forall y, M y -> tri y t N R) -> tri x (Seq s t) N R.
Proof using Type.
  intros H K u r P. inversion P; subst.
  - match goal with P1 : path s _ _, P2 : path t _ _ |- _ => destruct (H _ _ P1) as (y & E & Q); destruct (K y Q _ _ P2) as (z & E' & Q') end.
    exists z. rewrite (arun_app_some _ _ _ _ E). auto.
  - match goal with P1 : path s _ _ |- _ => destruct (H _ _ P1) as (y & E & Q) end. exists y. split; [exact E|]. destruct r; auto. congruence.
Qed.
Lemma tri_or x s t (N R : A -> Prop) : tri x s N R -> tri x t N R -> tri x (Or s t) N R.
Proof using Type. intros H K u r P. inversion P; subst; eauto. Qed.
Lemma tri_pick x f (N R : A -> Prop) : (forall a k, tri x (f a k) N R) -> tri x (Pick f) N R.
Proof using Type. intros H u r P. inversion P; subst. eapply H; eauto. Qed.
Lemma tri_many x s (N R : A -> Prop) : N x -> (forall y, N y -> tri y s N R) -> tri x (Many s) N R.
Proof using Type.
  intros H K u r P. remember (Many s) as m eqn:E. revert x H. induction P; intros x Hx; inversion E; subst.
  - exists x. auto.
  - destruct (K x Hx _ _ P1) as (y & E1 & Q1). destruct (IHP2 eq_refl y Q1) as (z & E2 & Q2). exists z.
    rewrite (arun_app_some _ _ _ _ E1). auto.
  - destruct (K x Hx _ _ P) as (y & E1 & Q1). exists y. split; [exact E1|]. destruct r; auto.
Qed.
Lemma tri_for (I : Z -> A -> Prop) n : forall lo x f (N R : A -> Prop),
  I lo x ->
  (forall i y, lo <= i < lo + Z.of_nat n -> I i y -> tri y (f i) (I (i + 1)) R) ->
  (forall y, I (lo + Z.of_nat n) y -> N y) -> tri x (For lo n f) N R.
Proof using Type.
  induction n as [|n IH]; intros lo x f N R H0 Hs HN u r P.
  - inversion P; subst. exists x. split; [reflexivity|]. apply HN. replace (lo + Z.of_nat 0) with lo by lia. exact H0.
  - inversion P; subst.
    + match goal with P1 : path (f lo) _ _ |- _ => destruct (Hs lo x ltac:(lia) H0 _ _ P1) as (y & E1 & Q1) end.
      destruct (IH (lo + 1) y f N R Q1) with (t := t2) (r := r) as (z & E2 & Q2).
      * intros i w Hi. apply Hs. lia.
      * intros w. replace (lo + 1 + Z.of_nat n) with (lo + Z.of_nat (S n)) by lia. apply HN.
      * assumption.
      * exists z. rewrite (arun_app_some _ _ _ _ E1). auto.
    + match goal with P1 : path (f lo) _ _ |- _ => destruct (Hs lo x ltac:(lia) H0 _ _ P1) as (y & E1 & Q1) end. exists y. split; [exact E1|]. destruct r; auto. congruence.
Qed.
Lemma tri_call x s (N R : A -> Prop) : tri x s N N -> tri x (Call s) N R.
Proof using Type. intros H u r P. inversion P as [| | | | | | | | | | | | | | |s' t1 r0 P1]; subst. destruct (H _ _ P1) as (y & E & Q). exists y. split; [exact E|]. destruct r0; auto. Qed.

(** sequences *)
Lemma tri_assoc x s t u (N R : A -> Prop) : tri x (Seq s (Seq t u)) N R -> tri x (Seq (Seq s t) u) N R.
Proof using Type.
  intros H w r P. apply H. inversion P; subst.
  - match goal with P1 : path (Seq s t) _ _ |- _ => inversion P1; subst; [|congruence] end. rewrite <- app_assoc. eapply p_seq; [eassumption|]. eapply p_seq; eassumption.
  - match goal with P1 : path (Seq s t) _ _ |- _ => inversion P1; subst end.
    + eapply p_seq; [eassumption|]. apply p_seq_out; assumption.
    + apply p_seq_out; assumption.
Qed.
Lemma tri_do_seq x i y t (N R : A -> Prop) : astep x i = Some y -> tri y t N R -> tri x (Seq (Do i) t) N R.
Proof using astep_abort. intros E H. eapply tri_seq; [eapply tri_do with (N := fun z => z = y); [exact E|reflexivity]|]. intros z ->. exact H. Qed.
Lemma tri_check_seq x t (N R : A -> Prop) : tri x t N R -> tri x (Seq (Or Skip (Do IAbort)) t) N R.
Proof using astep_abort.
  intros H. eapply tri_seq with (M := fun z => z = x).
  - apply tri_or; [apply tri_skip; reflexivity|apply tri_abort].
  - intros z ->. exact H.
Qed.
Lemma tri_skip_seq x t (N R : A -> Prop) : tri x t N R -> tri x (Seq Skip t) N R.
Proof using Type. intros H. eapply tri_seq with (M := fun z => z = x); [apply tri_skip; reflexivity|]. intros z ->. exact H. Qed.
Lemma tri_return_seq x t (N R : A -> Prop) : R x -> tri x (Seq Return t) N R.
Proof using Type. intros H. eapply tri_seq with (M := fun _ => False); [apply tri_return; exact H|]. intros z []. Qed.
Lemma tri_or_seq x s t u (N R : A -> Prop) : tri x (Seq s u) N R -> tri x (Seq t u) N R -> tri x (Seq (Or s t) u) N R.
Proof using Type.
  intros H K w r P. inversion P; subst.
  - match goal with P1 : path (Or s t) _ _ |- _ => inversion P1; subst end; [apply H|apply K]; eapply p_seq; eassumption.
  - match goal with P1 : path (Or s t) _ _ |- _ => inversion P1; subst end; [apply H|apply K]; eapply p_seq_out; eassumption.
Qed.
Lemma tri_pick_seq x f u (N R : A -> Prop) : (forall a k, tri x (Seq (f a k) u) N R) -> tri x (Seq (Pick f) u) N R.
Proof using Type.
  intros H w r P. inversion P; subst.
  - match goal with P1 : path (Pick f) _ _ |- _ => inversion P1; subst end. eapply H. eapply p_seq; eassumption.
  - match goal with P1 : path (Pick f) _ _ |- _ => inversion P1; subst end. eapply H. eapply p_seq_out; eassumption.
Qed.
Lemma tri_abort_seq x t (N R : A -> Prop) : tri x (Seq (Do IAbort) t) N R.
Proof using astep_abort. eapply tri_seq with (M := fun _ => False); [apply tri_abort|]. intros z []. Qed.
(** a call known to keep the state *)
Lemma tri_known x s t (M N R : A -> Prop) : tri x s M (fun _ => False) -> (forall y, M y -> tri y t N R) -> tri x (Seq s t) N R.
Proof using Type. intros H K. eapply tri_seq; [|exact K]. eapply tri_mono; [exact H|auto|intros y []]. Qed.
End Auto.

Ltac walk_open := cbv beta zeta delta [lock unlock touch unseal seal check abort isinit f_pages f_enforce_init].
(** one step of a walk; [calc] shows what one instruction does, [known] is for calls and loops *)
Ltac walk1 ok calc known :=
  walk_open;
  lazymatch goal with
  | |- forall _, _ => intros
  | |- tri _ _ (Seq ?s _) _ _ =>
      lazymatch s with
      | Do IAbort => apply (tri_abort_seq _ ok)
      | Do _ => eapply (tri_do_seq _ ok); [calc|]
      | Seq _ _ => apply tri_assoc
      | Or Skip (Do IAbort) => apply (tri_check_seq _ ok)
      | Or _ _ => first [eapply tri_known; [known|] | apply tri_or_seq]
      | Skip => apply tri_skip_seq
      | Return => apply tri_return_seq
      | Pick _ => apply tri_pick_seq
      | _ => eapply tri_known; [known|]
      end
  | |- tri _ _ ?s _ _ =>
      lazymatch s with
      | Do IAbort => apply (tri_abort _ ok)
      | Do _ => eapply (tri_do _ ok); [calc|]
      | Or _ _ => apply tri_or
      | Skip => apply tri_skip
      | Return => apply tri_return
      | Pick _ => apply tri_pick
      | _ => eapply tri_mono; [known| |]
      end
  end.

(** ** sealing *)
Definition sstep (o : bool) (i : instr) : option bool :=
  if touches i && negb o then None else Some (access1 o i).
Lemma sstep_abort o : sstep o IAbort = Some o.
Proof. reflexivity. Qed.
Lemma arun_sstep : forall t o o', arun sstep o t = Some o' ->
  access o t = o' /\ forall t1 i t2, t = t1 ++ i :: t2 -> touches i = true -> access o t1 = true.
Proof.
  induction t as [|j t IH]; intros o o' H; cbn in H.
  - injection H as <-. split; [reflexivity|]. intros t1 i t2 E. destruct t1; discriminate.
  - unfold sstep at 1 in H. destruct (touches j && negb o) eqn:T; [discriminate|].
    destruct (IH _ _ H) as (P & Q). split; [exact P|].
    intros t1 i t2 E Hi. destruct t1 as [|i1 t1]; cbn in E; injection E as <- E.
    + rewrite Hi in T. cbn in T. destruct o; [reflexivity|discriminate].
    + apply (Q t1 i t2 E Hi).
Qed.

Section Seal.
Context (g : config).
Notation trs := (tri sstep).
Let ok := sstep_abort.
Definition top (y : bool) := y = true.
Definition bot (y : bool) := y = false.
Definition none {A} (y : A) := False.
Definition anyb (y : bool) := True.

Ltac calc := first [reflexivity | match goal with |- sstep ?o _ = _ => destruct o; reflexivity end].
Ltac fin := try solve [reflexivity | exact I | assumption | congruence | auto].
Ltac step known := walk1 ok calc known.
Ltac go known := repeat (first [progress intros | match goal with H : top ?y |- _ => unfold top in H; subst y | H : bot ?y |- _ => unfold bot in H; subst y | H : none _ |- _ => destruct H end | step known]); fin.

Lemma s_allocate_small a k : trs true (f_allocate_small a k) top none.
Proof using Type. unfold f_allocate_small. apply tri_call. go ltac:(fail). Qed.
Lemma s_deallocate_small a k : trs true (f_deallocate_small a k) top none.
Proof using Type. unfold f_deallocate_small. apply tri_call. go ltac:(fail). Qed.
Lemma s_quarantine : trs true f_quarantine top none.
Proof using Type. unfold f_quarantine. apply tri_call. go ltac:(fail). Qed.
Lemma s_allocate_large : trs true f_allocate_large top none.
Proof using Type. unfold f_allocate_large. apply tri_call. go ltac:(fail). Qed.
Lemma s_corruption a k : trs true (f_corruption_check a k) top none.
Proof using Type. unfold f_corruption_check. apply tri_call. go ltac:(fail). Qed.
Ltac kn1 := solve [first [apply s_allocate_small | apply s_deallocate_small | apply s_quarantine | apply s_allocate_large | apply s_corruption]].
Lemma s_allocate : trs true f_allocate top none.
Proof using Type. unfold f_allocate. go kn1. Qed.
Lemma s_deallocate_large o : trs o f_deallocate_large top none.
Proof using Type. unfold f_deallocate_large. apply tri_call. go kn1. Qed.
Ltac kn2 := solve [first [kn1 | apply s_allocate | apply s_deallocate_large]].
Lemma s_allocate_aligned : trs true f_allocate_aligned top none.
Proof using Type. unfold f_allocate_aligned. apply tri_call. go kn2. Qed.
Lemma s_atfork o : trs o f_atfork_memory anyb none.
Proof using Type.
  unfold f_atfork_memory. apply tri_many; [exact I|]. intros y _.
  apply tri_or; [|apply tri_or]; apply tri_call; go kn2.
Qed.
Ltac kn3 := solve [first [kn2 | apply s_allocate_aligned | apply s_atfork]].
Lemma s_init_loop : trs true (For 0 (narena g) (fun a => For 0 (nclass g) (fun k => Do (IMutexInit (LClass a k)) ;; check ;; Do (ISetup (LClass a k)))))%flow top none.
Proof using Type.
  apply (tri_for _ (fun _ => top)); [reflexivity| |auto]. intros a y _ Hy.
  apply (tri_for _ (fun _ => top)); [exact Hy| |auto]. intros k z _ Hz. unfold top in *. subst. go ltac:(fail).
Qed.
Lemma s_init_slow o : trs o (f_init_slow_path g) anyb none.
Proof using Type. unfold f_init_slow_path. apply tri_call. go ltac:(solve [first [kn3 | apply s_init_loop]]). Qed.
Lemma s_init o : trs o (f_init g) anyb none.
Proof using Type. unfold f_init. go ltac:(solve [apply s_init_slow]). Qed.
Ltac kn4 := solve [first [kn3 | apply s_init]].
Lemma s_alloc o : trs o (f_alloc g) bot none.
Proof using Type. unfold f_alloc. apply tri_call. go kn4. Qed.
Lemma s_alloc_aligned o : trs o (f_alloc_aligned g) bot none.
Proof using Type. unfold f_alloc_aligned. apply tri_call. go kn4. Qed.
Ltac kn5 := solve [first [kn4 | apply s_alloc | apply s_alloc_aligned]].
Lemma s_malloc o : trs o (f_malloc g) bot none.
Proof using Type. unfold f_malloc. apply tri_call. go kn5. Qed.
Lemma s_calloc : trs false (f_calloc g) bot none.
Proof using Type. unfold f_calloc. apply tri_call. go kn5. Qed.
Lemma s_realloc : trs false (f_realloc g) bot none.
Proof using Type. unfold f_realloc. apply tri_call. go kn5. Qed.
Lemma s_posix : trs false (f_posix_memalign g) bot none.
Proof using Type. unfold f_posix_memalign. apply tri_call. go kn5. Qed.
Lemma s_aligned : trs false (f_aligned_alloc g) bot none.
Proof using Type. unfold f_aligned_alloc. apply tri_call. go kn5. Qed.
Lemma s_pvalloc : trs false (f_pvalloc g) bot none.
Proof using Type. unfold f_pvalloc. apply tri_call. go ltac:(solve [apply s_aligned]). Qed.
Lemma s_free : trs false f_free bot none.
Proof using Type. unfold f_free. apply tri_call. go kn5. Qed.
Lemma s_usable : trs false f_usable_size bot none.
Proof using Type. unfold f_usable_size. apply tri_call. go kn5. Qed.
Lemma s_object : trs false f_object_size bot none.
Proof using Type. unfold f_object_size. apply tri_call. go kn5. Qed.
Lemma s_constant : trs false f_constant bot none.
Proof using Type. apply tri_call. go ltac:(fail). Qed.
Lemma s_loop lo n (f : Z -> stmt) : (forall k, trs true (f k) top none) -> trs true (For lo n f) top none.
Proof using Type.
  intros H. apply (tri_for _ (fun _ => top)); [reflexivity| |auto]. intros i y _ E. unfold top in E. subst. apply H.
Qed.
Lemma s_many (f : stmt) : trs true f top none -> trs true (Many f) top none.
Proof using Type. intros H. apply tri_many; [reflexivity|]. intros y E. unfold top in E. subst. exact H. Qed.
Ltac knl := idtac; lazymatch goal with
  | |- tri _ _ (For _ _ _) _ _ => apply s_loop; intros ?; cbv beta; go ltac:(idtac; knl)
  | |- tri _ _ (Many _) _ _ => apply s_many; go ltac:(idtac; knl)
  | _ => fail end.
Ltac kn6 := solve [first [kn5 | knl]].
Lemma s_trim : trs false (f_trim g) bot none.
Proof using Type. unfold f_trim. apply tri_call. go kn6. Qed.
Lemma s_mallopt : trs false (f_mallopt g) bot none.
Proof using Type. unfold f_mallopt. apply tri_call. go ltac:(solve [apply s_trim]). Qed.
Lemma s_mallinfo : trs false (f_mallinfo g) bot none.
Proof using Type. unfold f_mallinfo. apply tri_call. go kn6. Qed.
Lemma s_malloc_info : trs false (f_malloc_info g io_plain) bot none.
Proof using Type. unfold f_malloc_info, io_plain. apply tri_call. go kn6. Qed.
Lemma s_arena_info : trs false (f_arena_info g) bot none.
Proof using Type. unfold f_arena_info. apply tri_call. go kn6. Qed.
Lemma s_iterate : trs false f_iterate bot none.
Proof using Type. apply tri_call. go ltac:(fail). Qed.
Lemma s_disable_tagging : trs false f_disable_tagging bot none.
Proof using Type. apply tri_call. go ltac:(fail). Qed.
Lemma s_early : trs false (f_early_init g) bot none.
Proof using Type. unfold f_early_init. apply tri_call. go ltac:(solve [first [apply s_malloc | apply s_free]]). Qed.
Lemma s_full_lock : trs false (full_lock g) bot none.
Proof using Type. unfold full_lock. go kn6. Qed.
Lemma s_full_unlock : trs false (full_unlock g) bot none.
Proof using Type. unfold full_unlock. go kn6. Qed.
Lemma s_post_fork : trs false (post_fork_child g) bot none.
Proof using Type. unfold post_fork_child. go kn6. Qed.
Lemma s_full_lock_any o : trs o (full_lock g) bot none.
Proof using Type. unfold full_lock. go kn6. Qed.
Lemma s_call o f : trs o f bot none -> trs o (Call f) bot none.
Proof using Type. intros H. apply tri_call. eapply tri_mono; [exact H|auto|intros ? []]. Qed.
Lemma s_disable : trs false (f_disable g) bot none.
Proof using Type. unfold f_disable. apply tri_call. go ltac:(solve [first [apply s_init | apply s_call, s_full_lock_any]]). Qed.
Lemma s_enable : trs false (f_enable g) bot none.
Proof using Type. unfold f_enable. apply tri_call. go ltac:(solve [first [apply s_call, s_full_unlock]]). Qed.
Lemma s_fast : trs false f_object_size_fast bot none.
Proof using Type. apply tri_call. go ltac:(fail). Qed.

Lemma s_exported n f : In (n, f) (exported g) -> trs false f bot none.
Proof using Type.
  intros H. cbn in H.
  repeat (destruct H as [H|H]; [injection H as <- <-|]); try destruct H;
  first [apply s_malloc|apply s_calloc|apply s_realloc|apply s_posix|apply s_aligned|apply s_pvalloc|apply s_free|apply s_usable
    |apply s_object|apply s_fast|apply s_mallopt|apply s_trim|apply s_mallinfo|apply s_arena_info|apply s_iterate|apply s_disable_tagging
    |apply s_early|apply s_constant].
Qed.
Lemma s_claim f t r : trs false f bot none -> path f t r ->
  respects_seal t /\ (r = Next -> access false t = false).
Proof using Type.
  intros H P. destruct (H t r P) as (y & E & Q). apply arun_sstep in E. destruct E as (A & B). split; [exact B|].
  intros ->. rewrite A. exact Q.
Qed.
End Seal.
