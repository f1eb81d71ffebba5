(** From walks to the statements of C38 and C43. *)
From Coq Require Import String ZArith List Bool Lia Arith.
From Verif Require Import M_Base M_Config M_SizeClass M_Flow S_Flow P_Flow P_Flow2 P_Flow3.
Import ListNotations.
Open Scope Z_scope.

(** ** locks of one thread *)
Lemma lstep_held g b x i y : lstep g b x i = Some y -> l_held y = held1 (l_held x) i.
Proof.
  destruct x as [h k]. destruct i; cbn [lstep held1];
  repeat match goal with |- context [match ?c with _ => _ end] => destruct c end; try discriminate;
  intros E; injection E as <-; reflexivity.
Qed.
Lemma arun_held g b t : forall x y, arun (lstep g b) x t = Some y -> l_held y = fold_left held1 t (l_held x).
Proof.
  induction t as [|i t IH]; intros x y H; cbn in *; [injection H as <-; reflexivity|].
  destruct (lstep g b x i) as [z|] eqn:E; [|discriminate]. rewrite <- (lstep_held _ _ _ _ _ E). auto.
Qed.
Lemma arun_split g b t1 t2 x y : arun (lstep g b) x (t1 ++ t2) = Some y ->
  exists z, arun (lstep g b) x t1 = Some z /\ arun (lstep g b) z t2 = Some y.
Proof. rewrite arun_app. destruct (arun (lstep g b) x t1) as [z|]; [|discriminate]. intros H. exists z. auto. Qed.
Definition start_ls : ls := mkL [] None.
Lemma held_run g b t x : arun (lstep g b) start_ls t = Some x -> l_held x = held t.
Proof. intros H. rewrite (arun_held _ _ _ _ _ H). reflexivity. Qed.

Lemma filter_len {A} (f : A -> bool) h : (length (filter f h) <= length h)%nat.
Proof. induction h as [|m h IH]; cbn; [lia|]. destruct (f m); cbn; lia. Qed.
Lemma strict_len g x i y : lstep g true x i = Some y -> (length (l_held x) <= 1)%nat -> (length (l_held y) <= 1)%nat.
Proof.
  intros E. rewrite (lstep_held _ _ _ _ _ E). destruct i as [l|l| | | | | | | | | | | |]; cbn [held1]; auto.
  - destruct x as [[|m h] k]; cbn in E; [cbn; lia|discriminate].
  - pose proof (filter_len (fun m => negb (lock_eqb m l)) (l_held x)). lia.
Qed.
Lemma strict_run g t : forall x y, arun (lstep g true) x t = Some y -> (length (l_held x) <= 1)%nat -> (length (l_held y) <= 1)%nat.
Proof.
  induction t as [|i t IH]; intros x y H L; cbn in *; [injection H as <-; exact L|].
  destruct (lstep g true x i) as [z|] eqn:E; [|discriminate]. eapply IH; [exact H|]. eapply strict_len; eassumption.
Qed.
Lemma l_claim g f t r : tri (lstep g true) start_ls f fr none -> path f t r ->
  lock_use t (match r with Aborted => false | _ => true end).
Proof.
  intros H P. destruct (H t r P) as (y & E & Q). split; [|split; [|split]].
  - intros t1 t2 ->. apply arun_split in E. destruct E as (z & E & _). rewrite <- (held_run _ _ _ _ E).
    eapply strict_run; [exact E|]. cbn. lia.
  - intros t1 l t2 ->. apply arun_split in E. destruct E as (z & E & E2). rewrite <- (held_run _ _ _ _ E). cbn in E2.
    destruct z as [h k]. cbn [lstep] in E2. destruct (has l h) eqn:C; [|discriminate]. apply has_In in C. exact C.
  - intros t1 l t2 ->. apply arun_split in E. destruct E as (z & E & E2). rewrite <- (held_run _ _ _ _ E). cbn in E2.
    destruct z as [h k]. cbn [lstep] in E2. destruct (has l h) eqn:C; [|discriminate]. apply has_In in C. exact C.
  - intros F. rewrite <- (held_run _ _ _ _ E). destruct r; try discriminate; [exact Q|destruct Q].
Qed.

(** ** the handlers *)
Lemma handlers g t1 t2 : 0 <= N_ARENA g -> path (full_lock g) t1 Next -> path (full_unlock g) t2 Next ->
  (forall l, In l (held t1) <-> handler_locks g l) /\
  (forall u l v, t1 = u ++ ILock l :: v -> forall m, In m (held u) -> place g m < place g l) /\
  held (t1 ++ t2) = [].
Proof.
  intros Hn P1 P2. destruct (h_full_lock g Hn _ _ P1) as (y & E & Q). destruct (h_full_unlock g Hn y Q _ _ P2) as (z & E' & Q').
  assert (HW : forall t x, arun (lstep g false) W t = Some x -> l_held x = held t).
  { intros t x A. rewrite (arun_held _ _ _ _ _ A). reflexivity. }
  split; [|split].
  - intros l. rewrite <- (HW _ _ E). apply Q.
  - intros u l v -> m Hm. apply arun_split in E. destruct E as (x & E & E2). rewrite <- (HW _ _ E) in Hm. cbn in E2.
    destruct x as [h k]. cbn [lstep] in E2. destruct (forallb (fun m => place g m <? place g l) h) eqn:C; [|discriminate].
    rewrite forallb_forall in C. apply Z.ltb_lt, (C m Hm).
  - rewrite <- (HW (t1 ++ t2) z); [rewrite Q'; reflexivity|]. rewrite (arun_app_some _ _ _ _ _ E). exact E'.
Qed.

(** ** the child after fork *)
Definition cstep (x : list lockid * list lockid) (i : instr) : option (list lockid * list lockid) :=
  match i with
  | IMutexInit l => Some (l :: fst x, snd x)
  | ISeed l => Some (fst x, l :: snd x)
  | IUnseal | ISeal | IAbort => Some x
  | _ => None
  end.
Lemma cstep_abort x : cstep x IAbort = Some x.
Proof. reflexivity. Qed.
Definition ctook g (a k : Z) (y : list lockid * list lockid) : Prop :=
  forall l, (In l (fst y) <-> upto g a k l) /\ (In l (snd y) <-> upto g a k l).
Lemma upto_succ g a k l : 0 <= a -> 0 <= k < N_SIZE_CLASSES g -> (upto g a (k + 1) l <-> LClass a k = l \/ upto g a k l).
Proof.
  intros Ha Hk. unfold upto. split.
  - intros [->|(b & j & -> & B)]; [auto|]. destruct (Z.eq_dec b a) as [->|]; [destruct (Z.eq_dec j k) as [->|]|]; auto;
    right; right; eexists _, _; (split; [reflexivity|lia]).
  - intros [<-|[->|(b & j & -> & B)]]; [|auto|]; right; [exists a, k|exists b, j]; (split; [reflexivity|lia]).
Qed.
Lemma upto_next g a l : upto g a (N_SIZE_CLASSES g) l <-> upto g (a + 1) 0 l.
Proof.
  unfold upto. split; (intros [->|(b & j & -> & B)]; [auto|right]; exists b, j; (split; [reflexivity|lia])).
Qed.
Lemma upto_all g l : upto g (N_ARENA g) 0 l <-> handler_locks g l.
Proof.
  unfold upto, handler_locks. split; (intros [->|(b & j & -> & B)]; [auto|right]; exists b, j; (split; [reflexivity|lia])).
Qed.
Definition call_done g (y : list lockid * list lockid) : Prop :=
  forall l, (In l (fst y) <-> handler_locks g l) /\ (In l (snd y) <-> handler_locks g l).
Lemma c_post_fork g : 0 <= N_ARENA g -> tri cstep ([], []) (post_fork_child g) (call_done g) none.
Proof.
  intros Hn. unfold post_fork_child. walk_open.
  do 3 (eapply (tri_do_seq _ cstep_abort); [reflexivity|]). apply (tri_check_seq _ cstep_abort).
  eapply tri_known with (M := call_done g).
  - eapply (tri_for _ (fun a => ctook g a 0)).
    + intros l. cbn. unfold upto. split; (split; [intros [<-|[]]; auto|]); (intros [->|(b & j & -> & B)]; [auto|lia]).
    + intros a y Ha Hy. eapply (tri_for _ (fun k => ctook g a k)).
      * exact Hy.
      * intros k z Hk Hz. rewrite nclass_eq in Hk.
        eapply (tri_do_seq _ cstep_abort); [reflexivity|]. eapply (tri_do_seq _ cstep_abort); [reflexivity|].
        apply tri_or; [apply tri_skip|apply (tri_abort _ cstep_abort)].
        intros l. cbn. rewrite (upto_succ g a k l) by lia. destruct (Hz l) as (A & B). rewrite A, B. tauto.
      * intros z. rewrite nclass_eq, Z.add_0_l. intros Hz l. destruct (Hz l) as (A & B). rewrite A, B, upto_next. tauto.
    + intros y. rewrite Z.add_0_l, (narena_eq g Hn). intros Hy l. destruct (Hy l) as (A & B). rewrite A, B, upto_all. tauto.
  - intros y Hy. eapply (tri_do _ cstep_abort); [reflexivity|exact Hy].
Qed.
Lemma c_seeds t : forall x y, arun cstep x t = Some y -> forall l, In l (snd y) -> In l (snd x) \/ In (ISeed l) t.
Proof.
  induction t as [|i t IH]; intros x y H l Hl; cbn in *; [injection H as <-; auto|].
  destruct (cstep x i) as [z|] eqn:E; [|discriminate]. destruct (IH _ _ H l Hl) as [A|A]; [|auto].
  destruct i; try discriminate; injection E as <-; cbn in A; auto. destruct A as [->|A]; auto.
Qed.
(** running such a sequence in the child *)
Definition alone (t : list instr) : nat -> list instr := fun i => match i with O => t | _ => [] end.
Lemma c_runs t : forall x y s, arun cstep x t = Some y -> ~ In IAbort t ->
  ended s = false -> (forall i, todo s i = alone t i) ->
  exists s', runs_to s s' /\ (forall i, todo s' i = []) /\ ended s' = false /\ inited s' = inited s /\
    forall l, holder s' l = if existsb (fun i => match i with IMutexInit m => lock_eqb l m | _ => false end) t then None else holder s l.
Proof.
  assert (TR : forall a b c, runs_to a b -> runs_to b c -> runs_to a c).
  { intros a b c A B. induction B; [exact A|]. eapply rt_step; eassumption. }
  induction t as [|i t IH]; intros x y s E NA He Ht; cbn in E.
  - exists s. split; [apply rt_refl|]. split; [intros j; rewrite Ht; destruct j; reflexivity|]. repeat split; auto.
  - destruct (cstep x i) as [z|] eqn:Q; [|discriminate].
    assert (NA' : ~ In IAbort t) by (intros A; apply NA; right; exact A).
    destruct s as [h b r e f n]. cbn in He, Ht. subst e.
    set (h' := match i with IMutexInit m => upd_lock h m None | _ => h end).
    destruct (IH z y (mkProc h' b r false (upd_todo f 0%nat t) n) E NA' eq_refl) as (s' & R & T & D & I & H).
    { intros j. cbn. unfold upd_todo. destruct j; [reflexivity|]. cbn. apply Ht. }
    exists s'. split.
    + eapply TR; [|exact R]. eapply rt_step; [apply rt_refl|]. unfold h'.
      assert (F0 : f 0%nat = i :: t) by (rewrite Ht; reflexivity).
      destruct i; try discriminate Q; try (eapply ps_other; [exact F0|exact I0]); try (eapply ps_other; [exact F0|cbn; exact Logic.I]).
      * apply ps_mutex_init, F0.
      * exfalso. apply NA. left. reflexivity.
    + split; [exact T|]. split; [exact D|]. split; [exact I|]. intros l. rewrite H. cbn. unfold h'.
      destruct (existsb _ t); [rewrite orb_true_r; reflexivity|]. rewrite orb_false_r.
      destruct i; try reflexivity.
Qed.
Lemma c_inits t : forall x y, arun cstep x t = Some y -> forall l, In l (fst y) ->
  In l (fst x) \/ existsb (fun i => match i with IMutexInit m => lock_eqb l m | _ => false end) t = true.
Proof.
  induction t as [|i t IH]; intros x y H l Hl; cbn in *; [injection H as <-; auto|].
  destruct (cstep x i) as [z|] eqn:E; [|discriminate]. destruct (IH _ _ H l Hl) as [A|A]; [|right; rewrite A; apply orb_true_r].
  destruct i; try discriminate; injection E as <-; cbn in A; auto. destruct A as [->|A]; auto. right. rewrite lock_eqb_refl. reflexivity.
Qed.
Lemma path_no_abort s t r : path s t r -> r <> Aborted -> ~ In IAbort t.
Proof.
  induction 1; intros Hr A; try rewrite in_app_iff in *; cbn in A; try tauto; try congruence.
  - destruct A as [A|A]; [apply IHpath1 in A; [exact A|discriminate]|apply IHpath2 in A; auto].
  - destruct A as [A|A]; [apply IHpath1 in A; [exact A|discriminate]|apply IHpath2 in A; auto].
  - destruct A as [A|A]; [apply IHpath1 in A; [exact A|discriminate]|apply IHpath2 in A; auto].
  - apply IHpath; [|exact A]. intros ->. apply Hr. reflexivity.
Qed.
Lemma child_ok g s t : 0 <= N_ARENA g -> path (post_fork_child g) t Next ->
  (forall l, handler_locks g l -> In (ISeed l) t) /\
  exists s', runs_to (child s t) s' /\ todo s' 0%nat = [] /\ ended s' = false /\ (forall l, handler_locks g l -> holder s' l = None).
Proof.
  intros Hn P. destruct (c_post_fork g Hn _ _ P) as (y & E & Q). split.
  - intros l Hl. apply (proj2 (Q l)) in Hl. apply (c_seeds _ _ _ E) in Hl. destruct Hl as [[]|Hl]. exact Hl.
  - destruct (c_runs t _ _ (child s t) E) as (s' & R & T & D & I & H).
    + eapply path_no_abort; [exact P|discriminate].
    + reflexivity.
    + intros i. reflexivity.
    + exists s'. split; [exact R|]. split; [apply T|]. split; [exact D|]. intros l Hl. rewrite H.
      apply (proj1 (Q l)) in Hl. apply (c_inits _ _ _ E) in Hl. destruct Hl as [[]|Hl]. rewrite Hl. reflexivity.
Qed.

(** ** paths that exist *)
Lemma for_path n : forall lo f, (forall k, exists t, path (f k) t Next) -> exists t, path (For lo n f) t Next.
Proof.
  induction n as [|n IH]; intros lo f H; [exists []; constructor|].
  destruct (H lo) as (t1 & P1). destruct (IH (lo + 1) f H) as (t2 & P2). exists (t1 ++ t2). eapply p_for; eassumption.
Qed.
Lemma p_call_next s t : path s t Next -> path (Call s) t Next.
Proof. intros P. exact (p_call s t Next P). Qed.
Lemma p_call_ret s t : path s t Returned -> path (Call s) t Next.
Proof. intros P. exact (p_call s t Returned P). Qed.
Lemma p_seq_ret s t u : path s u Returned -> path (Seq s t) u Returned.
Proof. intros P. apply p_seq_out; [exact P|discriminate]. Qed.
Lemma p_do' i : i <> IAbort -> path (Do i) [i] Next.
Proof. apply p_do. Qed.
Lemma p_cons i s t r : i <> IAbort -> path s t r -> path (Seq (Do i) s) (i :: t) r.
Proof. intros H P. apply (p_seq (Do i) s [i] t r); [apply p_do; exact H|exact P]. Qed.
Lemma p_skip_seq s t r : path s t r -> path (Seq Skip s) t r.
Proof. intros P. apply (p_seq Skip s [] t r); [constructor|exact P]. Qed.
Lemma p_check s t r : path s t r -> path (Seq check s) t r.
Proof. intros P. apply (p_seq _ s [] t r); [apply p_or1; constructor|exact P]. Qed.
Lemma p_or2_skip_seq a s t r : path s t r -> path (Seq (Or a Skip) s) t r.
Proof. intros P. apply (p_seq _ s [] t r); [apply p_or2; constructor|exact P]. Qed.

(** an allocation from a partial slab of class [k] *)
Lemma small_path a k : let l := LClass a k in
  path (f_allocate_small a k) [ILock l; ITouch l; ITouch l; ITouch l; IUnlock l] Next.
Proof.
  intros l. unfold f_allocate_small. fold l. apply p_call_ret. walk_open.
  apply p_cons; [discriminate|]. apply p_cons; [discriminate|]. apply p_or2_skip_seq.
  apply p_cons; [discriminate|]. apply p_check. apply p_cons; [discriminate|]. apply p_cons; [discriminate|]. constructor.
Qed.
Definition malloc_trace (a k : Z) : list instr :=
  let l := LClass a k in [IIsInit true; IUnseal; ILock l; ITouch l; ITouch l; ITouch l; IUnlock l; ISeal].
Lemma alloc_path g a k : path (f_alloc g) (malloc_trace a k) Next.
Proof.
  unfold f_alloc. apply p_call_ret.
  apply (p_seq _ _ [IIsInit true]); [apply p_or1, p_do; discriminate|].
  apply p_cons; [discriminate|].
  apply (p_seq _ _ [ILock (LClass a k); ITouch (LClass a k); ITouch (LClass a k); ITouch (LClass a k); IUnlock (LClass a k)] [ISeal]).
  - apply p_or1. eapply p_pick. apply small_path.
  - apply p_cons; [discriminate|]. constructor.
Qed.
Lemma malloc_path g a k : path (f_malloc g) (malloc_trace a k) Next.
Proof.
  unfold f_malloc. apply p_call_ret. apply (p_seq _ _ (malloc_trace a k) []); [apply alloc_path|constructor].
Qed.
Lemma full_lock_path g : exists t, path (full_lock g) t Next.
Proof.
  destruct (for_path (narena g) 0 (fun a => For 0 (nclass g) (fun k => lock (LClass a k)))) as (t & P).
  { intros a. apply for_path. intros k. eexists. apply p_do. discriminate. }
  eexists. apply p_cons; [discriminate|]. apply p_cons; [discriminate|]. eapply p_seq; [exact P|]. apply p_do. discriminate.
Qed.
Lemma full_unlock_path g : exists t, path (full_unlock g) t Next.
Proof.
  destruct (for_path (narena g) 0 (fun a => For 0 (nclass g) (fun k => unlock (LClass a k)))) as (t & P).
  { intros a. apply for_path. intros k. eexists. apply p_do. discriminate. }
  eexists. apply p_cons; [discriminate|]. apply p_cons; [discriminate|]. eapply p_seq; [exact P|]. apply p_do. discriminate.
Qed.
Lemma post_fork_path g : exists t, path (post_fork_child g) t Next.
Proof.
  destruct (for_path (narena g) 0 (fun a => For 0 (nclass g) (fun k => Do (IMutexInit (LClass a k)) ;; Do (ISeed (LClass a k)) ;; check)%flow)) as (t & P).
  { intros a. apply for_path. intros k. eexists. apply p_cons; [discriminate|]. apply p_cons; [discriminate|]. apply p_or1. constructor. }
  eexists. do 3 (apply p_cons; [discriminate|]). apply p_check. eapply p_seq; [exact P|]. apply p_do. discriminate.
Qed.
(** a first call that initializes the allocator *)
Lemma init_path g : exists t, path (f_init_slow_path g) (ILock LInit :: IIsInit false :: t) Next.
Proof.
  destruct (for_path (narena g) 0 (fun a => For 0 (nclass g) (fun k => Do (IMutexInit (LClass a k)) ;; check ;; Do (ISetup (LClass a k)))%flow)) as (t & P).
  { intros a. apply for_path. intros k. eexists. apply p_cons; [discriminate|]. apply p_check. apply p_do. discriminate. }
  eexists. unfold f_init_slow_path. apply p_call_next. walk_open. apply p_cons; [discriminate|].
  apply (p_seq _ _ [IIsInit false]); [apply p_or2, p_do; discriminate|].
  apply p_cons; [discriminate|]. do 4 apply p_check. apply p_cons; [discriminate|]. apply p_check. apply p_cons; [discriminate|].
  do 2 apply p_check. eapply p_seq; [exact P|]. apply p_check. apply p_cons; [discriminate|]. apply p_check. apply p_cons; [discriminate|].
  apply (p_seq _ _ []); [apply p_many0|]. apply p_cons; [discriminate|]. apply p_or1. constructor.
Qed.
Lemma first_malloc_path g (a k : Z) : exists t, path (f_malloc g) (IIsInit false :: ILock LInit :: IIsInit false :: t) Next.
Proof.
  destruct (init_path g) as (t & P).
  exists (t ++ [IUnseal; ILock (LClass a k); ITouch (LClass a k); ITouch (LClass a k); ITouch (LClass a k); IUnlock (LClass a k); ISeal]).
  assert (Q : path (f_init g) (IIsInit false :: ILock LInit :: IIsInit false :: t) Next).
  { apply p_or2. apply p_cons; [discriminate|]. exact P. }
  unfold f_malloc. apply p_call_ret.
  match goal with |- path _ ?u _ => rewrite <- (app_nil_r u) end. eapply p_seq; [|constructor].
  unfold f_alloc. apply p_call_ret. rewrite !app_comm_cons. eapply p_seq; [exact Q|].
  apply p_cons; [discriminate|].
  apply (p_seq _ _ [ILock (LClass a k); ITouch (LClass a k); ITouch (LClass a k); ITouch (LClass a k); IUnlock (LClass a k)] [ISeal]).
  - apply p_or1. eapply p_pick. apply small_path.
  - apply p_cons; [discriminate|]. constructor.
Qed.

(** ** fork while another thread is inside its first call *)
Lemma fork_stuck g :
  exists f s t u, (forall i, life g (f i)) /\ runs_to (start f) s /\ todo s 0%nat = [IForkTest false] /\
    path (f_malloc g) t Next /\ runs_to (child s t) u /\ waiting u 0%nat /\ forall v, ~ pstep u v.
Proof.
  destruct (first_malloc_path g 0 0) as (w & P).
  set (m := IIsInit false :: ILock LInit :: IIsInit false :: w) in *.
  set (f := fun i => match i with 0%nat => [IForkTest false] | 1%nat => m ++ [] | _ => [] end).
  assert (F : forall i, life g (f i)).
  { intros [|[|i]]; cbn [f]; [|apply (life_call g "malloc"%string (f_malloc g)); [left; reflexivity|exact P|constructor]|constructor].
    apply (life_fork_plain g []). constructor. }
  set (f1 := upd_todo f 1%nat (ILock LInit :: IIsInit false :: w ++ [])).
  set (f2 := upd_todo f1 1%nat (IIsInit false :: w ++ [])).
  set (h := upd_lock (fun _ => None) LInit (Some 1%nat)).
  set (s := mkProc h false false false f2 0).
  exists f, s, m, (mkProc h false false false (upd_todo (fun i => match i with O => m | _ => [] end) 0%nat (ILock LInit :: IIsInit false :: w)) 0).
  split; [exact F|]. split; [|split; [reflexivity|split; [exact P|split; [|split]]]].
  - eapply rt_step; [eapply rt_step; [apply rt_refl|]|].
    + apply (ps_is_init (fun _ => None) false false 0 f 1%nat (ILock LInit :: IIsInit false :: w ++ [])). reflexivity.
    + apply (ps_lock (fun _ => None) false false 0 f1 1%nat LInit (IIsInit false :: w ++ [])); reflexivity.
  - eapply rt_step; [apply rt_refl|].
    apply (ps_is_init h false false 0 (fun i => match i with O => m | _ => [] end) 0%nat (ILock LInit :: IIsInit false :: w)). reflexivity.
  - exists LInit, (IIsInit false :: w), 1%nat. split; reflexivity.
  - intros v S. inversion S; subst; match goal with H : upd_todo _ _ _ ?i = _ |- _ => destruct i as [|i]; cbn in H; [|discriminate H] end;
    try discriminate; try (match goal with H : _ :: _ = _ |- _ => injection H as <- <- end; discriminate).
    match goal with H : ILock _ :: _ = ?x :: _ |- _ => injection H as <- end. assumption.
Qed.

Lemma waits g : exists f s,
  (forall i, life g (f i)) /\ (forall i, (2 <= i)%nat -> f i = []) /\ runs_to (start f) s /\ waiting s 0%nat.
Proof.
  destruct (first_malloc_path g 0 0) as (w & P).
  set (m := IIsInit false :: ILock LInit :: IIsInit false :: w) in *.
  set (f := fun i => match i with 0%nat | 1%nat => m ++ [] | _ => [] end).
  set (f1 := upd_todo f 1%nat (ILock LInit :: IIsInit false :: w ++ [])).
  set (f2 := upd_todo f1 1%nat (IIsInit false :: w ++ [])).
  set (f3 := upd_todo f2 0%nat (ILock LInit :: IIsInit false :: w ++ [])).
  set (h := upd_lock (fun _ => None) LInit (Some 1%nat)).
  exists f, (mkProc h false false false f3 0). split; [|split; [|split]].
  - intros [|[|i]]; cbn [f]; [| |constructor]; (apply (life_call g "malloc"%string (f_malloc g)); [left; reflexivity|exact P|constructor]).
  - intros [|[|i]] Hi; [lia|lia|reflexivity].
  - eapply rt_step; [eapply rt_step; [eapply rt_step; [apply rt_refl|]|]|].
    + apply (ps_is_init (fun _ => None) false false 0 f 1%nat (ILock LInit :: IIsInit false :: w ++ [])). reflexivity.
    + apply (ps_lock (fun _ => None) false false 0 f1 1%nat LInit (IIsInit false :: w ++ [])); reflexivity.
    + apply (ps_is_init h false false 0 f2 0%nat (ILock LInit :: IIsInit false :: w ++ [])). reflexivity.
  - exists LInit, (IIsInit false :: w ++ []), 1%nat. split; reflexivity.
Qed.

(** ** writing to a stream that allocates *)
Lemma info_unsealed g : 1 <= N_ARENA g -> 1 <= N_SIZE_CLASSES g ->
  exists t, path (f_malloc_info g (io_alloc g)) t Next /\ ~ respects_seal t.
Proof.
  intros Ha Hc. unfold f_malloc_info.
  set (body := fun k a => (lock (LClass a k) ;; touch (LClass a k) ;; unlock (LClass a k) ;; Or (io_alloc g) Skip)%flow).
  assert (B : forall a k, path (body k a) [ILock (LClass a k); ITouch (LClass a k); IUnlock (LClass a k)] Next).
  { intros a k. unfold body. walk_open. do 3 (apply p_cons; [discriminate|]). apply p_or2. constructor. }
  assert (IO0 : path (io_alloc g) [] Next) by (apply p_or1; constructor).
  assert (IOm : path (io_alloc g) (malloc_trace 0 0) Next) by (apply p_or2, malloc_path).
  set (arena := fun a => (io_alloc g ;; For 0 (nclass g) (fun k => body k a) ;; io_alloc g)%flow).
  destruct (nclass g) as [|nc] eqn:NC.
  { pose proof (nclass_eq g). rewrite NC in H. cbn in H. lia. }
  destruct (narena g) as [|na] eqn:NA.
  { pose proof (narena_eq g ltac:(lia)). rewrite NA in H. cbn in H. lia. }
  destruct (for_path nc 1 (fun k => body k 0)) as (t1 & P1). { intros k. eexists. apply B. }
  destruct (for_path na 1 arena) as (t2 & P2).
  { intros a. unfold arena. destruct (for_path (S nc) 0 (fun k => body k a)) as (t & P).
    - intros k. eexists. apply B.
    - exists ([] ++ t ++ []). eapply p_seq; [exact IO0|]. eapply p_seq; [exact P|exact IO0]. }
  set (loop := (malloc_trace 0 0 ++ ([ILock (LClass 0 0); ITouch (LClass 0 0); IUnlock (LClass 0 0)] ++ t1) ++ []) ++ t2).
  exists ([IIsInit true; IUnseal] ++ loop ++ [ILock LRegion; ITouch LRegion; IUnlock LRegion] ++ [ISeal]). split.
  - apply p_call_ret. apply p_or2_skip_seq. apply (p_seq _ _ []); [exact IO0|].
    match goal with |- path _ ?u _ => rewrite <- (app_nil_r u) end.
    eapply p_seq.
    + apply p_or1. walk_open. cbn [app]. apply p_cons; [discriminate|]. apply p_cons; [discriminate|].
      apply (p_seq _ _ loop).
      * unfold loop. fold body. eapply p_for; [|exact P2]. eapply p_seq; [exact IOm|]. eapply p_seq; [|exact IO0].
        eapply p_for; [apply B|exact P1].
      * do 3 (apply p_cons; [discriminate|]). apply (p_seq _ _ []); [exact IO0|]. apply p_do. discriminate.
    + apply (p_seq _ _ []); [exact IO0|]. constructor.
  - intros H. unfold loop in H. unfold malloc_trace in H. cbn [app] in H.
    specialize (H [IIsInit true; IUnseal; IIsInit true; IUnseal; ILock (LClass 0 0); ITouch (LClass 0 0); ITouch (LClass 0 0); ITouch (LClass 0 0); IUnlock (LClass 0 0); ISeal]
      (ILock (LClass 0 0)) _ eq_refl eq_refl). discriminate H.
Qed.
Lemma bin_info_unsealed a k :
  exists t, path f_bin_info t Next /\ In (ITouch (LClass a k)) t /\ ~ respects_seal t /\ access false t = true.
Proof.
  exists [IIsInit true; ISeal; ILock (LClass a k); ITouch (LClass a k); IUnlock (LClass a k); IUnseal].
  split; [|split; [|split]].
  - unfold f_bin_info. apply p_call_ret. apply (p_seq _ _ [IIsInit true]); [apply p_or2, p_do; discriminate|].
    match goal with |- path _ ?u _ => rewrite <- (app_nil_r u) end. eapply p_seq; [|constructor].
    apply p_or1. apply (p_pick _ a k). walk_open. do 4 (apply p_cons; [discriminate|]). apply p_do. discriminate.
  - cbn. tauto.
  - intros H. specialize (H [IIsInit true; ISeal] (ILock (LClass a k)) _ eq_refl eq_refl). discriminate H.
  - reflexivity.
Qed.
