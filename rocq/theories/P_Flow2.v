(** Locks along the control-flow skeletons. *)
From Coq Require Import ZArith List Bool Lia String.
From Verif Require Import M_Base M_Config M_SizeClass M_Flow S_Flow P_Flow.
Import ListNotations.
Open Scope Z_scope.

(** what is known about one thread: the locks it holds and whether it knows the allocator
    to be initialized ([Some false] only while it holds init_lock) *)
Record ls : Type := mkL { l_held : list lockid; l_know : option bool }.
Definition has (l : lockid) (h : list lockid) : bool := existsb (lock_eqb l) h.
Definition lstep (g : config) (strict : bool) (x : ls) (i : instr) : option ls :=
  let '(mkL h k) := x in
  match i with
  | ILock l =>
      if (if strict then match h with [] => true | _ => false end else forallb (fun m => place g m <? place g l) h)
         && (match l with LInit => true | _ => match k with Some true => true | _ => false end end)
      then Some (mkL (l :: h) k) else None
  | IUnlock l =>
      if has l h
      then Some (mkL (filter (fun m => negb (lock_eqb m l)) h) (match l, k with LInit, Some false => None | _, _ => k end)) else None
  | ITouch l => if has l h then Some x else None
  | IMutexInit l | ISetup l => if sealed_lock l && match k with Some false => true | _ => false end then Some x else None
  | IKeyAlloc => match k with Some false => Some x | _ => None end
  | IIsInit true => Some (mkL h (Some true))
  | IIsInit false => Some (mkL h (if has LInit h then Some false else k))
  | IPublish => match k with Some false => if has LInit h then Some (mkL h (Some true)) else None | _ => None end
  | IRegister => match k with Some true => Some x | _ => None end
  | IForkTest b => Some (mkL h (if b then Some true else k))
  | IUnseal | ISeal | IAbort => Some x
  | ISeed _ => None
  end.
Lemma lstep_abort g b x : lstep g b x IAbort = Some x.
Proof. destruct x. reflexivity. Qed.
Lemma lock_eqb_eq l m : lock_eqb l m = true <-> l = m.
Proof.
  destruct l, m; cbn; try (split; congruence).
  rewrite andb_true_iff, !Z.eqb_eq. split; [intros []; congruence|intros E; injection E; auto].
Qed.
Lemma lock_eqb_refl l : lock_eqb l l = true.
Proof. apply lock_eqb_eq. reflexivity. Qed.
Lemma has_In l h : has l h = true <-> In l h.
Proof.
  unfold has. rewrite existsb_exists. split.
  - intros (m & Hm & E). apply lock_eqb_eq in E. subst. exact Hm.
  - intros H. exists l. split; [exact H|apply lock_eqb_refl].
Qed.

(** strict walks are walks *)
Lemma lstep_lax g x i y : lstep g true x i = Some y -> lstep g false x i = Some y.
Proof.
  destruct x as [h k]. destruct i; cbn; auto. destruct h; [|discriminate]. cbn. auto.
Qed.
Lemma arun_lax g t : forall x y, arun (lstep g true) x t = Some y -> arun (lstep g false) x t = Some y.
Proof.
  induction t as [|i t IH]; intros x y H; cbn in *; [exact H|].
  destruct (lstep g true x i) eqn:E; [|discriminate]. rewrite (lstep_lax _ _ _ _ E). auto.
Qed.

Section Locks.
Context (g : config).
Notation trl := (tri (lstep g true)).
Let ok := lstep_abort g true.
Definition W : ls := mkL [] (Some true).
Definition isW (y : ls) := y = W.
Definition fr (y : ls) := l_held y = [].

Ltac calc := cbn; rewrite ?Z.eqb_refl; cbn; reflexivity.
Ltac fin := try solve [reflexivity | assumption | congruence | auto].
Ltac step known := walk1 ok calc known.
Ltac go known := repeat (first [progress intros | match goal with H : isW ?y |- _ => unfold isW in H; subst y | H : none _ |- _ => destruct H end | step known]); fin.

Lemma l_allocate_small a k : trl W (f_allocate_small a k) isW none.
Proof using Type. unfold f_allocate_small. apply tri_call. go ltac:(fail). Qed.
Lemma l_deallocate_small a k : trl W (f_deallocate_small a k) isW none.
Proof using Type. unfold f_deallocate_small. apply tri_call. go ltac:(fail). Qed.
Lemma l_quarantine : trl W f_quarantine isW none.
Proof using Type. unfold f_quarantine. apply tri_call. go ltac:(fail). Qed.
Lemma l_allocate_large : trl W f_allocate_large isW none.
Proof using Type. unfold f_allocate_large. apply tri_call. go ltac:(fail). Qed.
Lemma l_corruption a k : trl W (f_corruption_check a k) isW none.
Proof using Type. unfold f_corruption_check. apply tri_call. go ltac:(fail). Qed.
Ltac kn1 := solve [first [apply l_allocate_small | apply l_deallocate_small | apply l_quarantine | apply l_allocate_large | apply l_corruption]].
Lemma l_allocate : trl W f_allocate isW none.
Proof using Type. unfold f_allocate. go kn1. Qed.
Lemma l_deallocate_large k : trl (mkL [] k) f_deallocate_large isW none.
Proof using Type. unfold f_deallocate_large. apply tri_call. go kn1. Qed.
Ltac kn2 := solve [first [kn1 | apply l_allocate | apply l_deallocate_large]].
Lemma l_allocate_aligned : trl W f_allocate_aligned isW none.
Proof using Type. unfold f_allocate_aligned. apply tri_call. go kn2. Qed.
Lemma l_atfork : trl W f_atfork_memory isW none.
Proof using Type.
  unfold f_atfork_memory. apply tri_many; [reflexivity|]. intros y ->.
  apply tri_or; [|apply tri_or]; apply tri_call; go kn2.
Qed.
Ltac kn3 := solve [first [kn2 | apply l_allocate_aligned | apply l_atfork]].
Lemma l_init_loop : trl (mkL [LInit] (Some false)) (For 0 (narena g) (fun a => For 0 (nclass g) (fun k => Do (IMutexInit (LClass a k)) ;; check ;; Do (ISetup (LClass a k)))))%flow (fun y => y = mkL [LInit] (Some false)) none.
Proof using Type.
  apply (tri_for _ (fun _ y => y = mkL [LInit] (Some false))); [reflexivity| |auto]. intros a y _ ->.
  apply (tri_for _ (fun _ y => y = mkL [LInit] (Some false))); [reflexivity| |auto]. intros k z _ ->. go ltac:(fail).
Qed.
Ltac sub := repeat match goal with H : _ = mkL _ _ |- _ => subst end.
Lemma l_init_slow k : trl (mkL [] k) (f_init_slow_path g) isW none.
Proof using Type.
  unfold f_init_slow_path. apply tri_call.
  repeat (first [progress intros | match goal with H : isW ?y |- _ => unfold isW in H; subst y | H : (fun _ => _) _ |- _ => cbv beta in H; subst end | step ltac:(solve [first [kn3 | apply l_init_loop]])]); fin.
Qed.
Lemma l_init k : trl (mkL [] k) (f_init g) isW none.
Proof using Type. unfold f_init. go ltac:(solve [apply l_init_slow]). Qed.
Ltac kn4 := solve [first [kn3 | apply l_init]].
Lemma l_alloc k : trl (mkL [] k) (f_alloc g) isW none.
Proof using Type. unfold f_alloc. apply tri_call. go kn4. Qed.
Lemma l_alloc_aligned k : trl (mkL [] k) (f_alloc_aligned g) isW none.
Proof using Type. unfold f_alloc_aligned. apply tri_call. go kn4. Qed.
Ltac kn5 := solve [first [kn4 | apply l_alloc | apply l_alloc_aligned]].
Lemma l_malloc k : trl (mkL [] k) (f_malloc g) fr none.
Proof using Type. unfold f_malloc. apply tri_call. go kn5. Qed.
Lemma l_calloc k : trl (mkL [] k) (f_calloc g) fr none.
Proof using Type. unfold f_calloc. apply tri_call. go kn5. Qed.
Lemma l_realloc k : trl (mkL [] k) (f_realloc g) fr none.
Proof using Type. unfold f_realloc. apply tri_call. go kn5. Qed.
Lemma l_posix k : trl (mkL [] k) (f_posix_memalign g) fr none.
Proof using Type. unfold f_posix_memalign. apply tri_call. go kn5. Qed.
Lemma l_aligned k : trl (mkL [] k) (f_aligned_alloc g) fr none.
Proof using Type. unfold f_aligned_alloc. apply tri_call. go kn5. Qed.
Lemma l_pvalloc k : trl (mkL [] k) (f_pvalloc g) fr none.
Proof using Type. unfold f_pvalloc. apply tri_call. go ltac:(solve [apply l_aligned]). Qed.
Lemma l_free k : trl (mkL [] k) f_free fr none.
Proof using Type. unfold f_free. apply tri_call. go kn5. Qed.
Lemma l_usable k : trl (mkL [] k) f_usable_size fr none.
Proof using Type. unfold f_usable_size. apply tri_call. go kn5. Qed.
Lemma l_object k : trl (mkL [] k) f_object_size fr none.
Proof using Type. unfold f_object_size. apply tri_call. go kn5. Qed.
Lemma l_constant k : trl (mkL [] k) f_constant fr none.
Proof using Type. apply tri_call. go ltac:(fail). Qed.
Lemma l_loop x lo n (f : Z -> stmt) : (forall k, trl x (f k) (fun y => y = x) none) -> trl x (For lo n f) (fun y => y = x) none.
Proof using Type. intros H. apply (tri_for _ (fun _ y => y = x)); [reflexivity| |auto]. intros i y _ ->. apply H. Qed.
Lemma l_many x (f : stmt) : trl x f (fun y => y = x) none -> trl x (Many f) (fun y => y = x) none.
Proof using Type. intros H. apply tri_many; [reflexivity|]. intros y ->. exact H. Qed.
Ltac go2 known := repeat (first [progress intros | match goal with H : isW ?y |- _ => unfold isW in H; subst y | H : fr ?y |- _ => is_var y; let h := fresh in let k := fresh in destruct y as [h k]; change (h = []) in H; subst h | H : none _ |- _ => destruct H | H : (fun _ => _) _ |- _ => cbv beta in H | H : ?y = mkL _ _ |- _ => is_var y; subst y | H : ?y = W |- _ => is_var y; subst y end | step known]); fin.
Ltac knl known := idtac; first [known | lazymatch goal with
  | |- tri _ _ (For _ _ _) _ _ => apply l_loop; intros ?; cbv beta; go2 ltac:(idtac; knl known)
  | |- tri _ _ (Many _) _ _ => apply l_many; go2 ltac:(idtac; knl known)
  | _ => fail end].
Ltac kn6 := solve [first [kn5 | knl ltac:(fail)]].
Lemma l_trim k : trl (mkL [] k) (f_trim g) fr none.
Proof using Type. unfold f_trim. apply tri_call. go2 kn6. Qed.
Lemma l_mallopt k : trl (mkL [] k) (f_mallopt g) fr none.
Proof using Type. unfold f_mallopt. apply tri_call. go2 ltac:(solve [apply l_trim]). Qed.
Lemma l_mallinfo k : trl (mkL [] k) (f_mallinfo g) fr none.
Proof using Type. unfold f_mallinfo. apply tri_call. go2 kn6. Qed.
Lemma l_malloc_W : trl W (f_malloc g) isW none.
Proof using Type. unfold f_malloc. apply tri_call. go kn5. Qed.
Lemma l_io_W : trl W (io_alloc g) isW none.
Proof using Type. unfold io_alloc. go ltac:(solve [apply l_malloc_W]). Qed.
Lemma l_io k : trl (mkL [] k) (io_alloc g) fr none.
Proof using Type. unfold io_alloc. go ltac:(solve [apply l_malloc]). Qed.
Lemma l_malloc_info k : trl (mkL [] k) (f_malloc_info g (io_alloc g)) fr none.
Proof using Type.
  unfold f_malloc_info. apply tri_call.
  go2 ltac:(solve [first [knl ltac:(solve [apply l_io_W | apply l_io])]]).
Qed.
Lemma l_arena_info k : trl (mkL [] k) (f_arena_info g) fr none.
Proof using Type. unfold f_arena_info. apply tri_call. go2 kn6. Qed.
Lemma l_bin_info k : trl (mkL [] k) f_bin_info fr none.
Proof using Type. unfold f_bin_info. apply tri_call. go2 kn6. Qed.
Lemma l_iterate k : trl (mkL [] k) f_iterate fr none.
Proof using Type. apply tri_call. go ltac:(fail). Qed.
Lemma l_disable_tagging k : trl (mkL [] k) f_disable_tagging fr none.
Proof using Type. apply tri_call. go ltac:(fail). Qed.
Lemma l_early k : trl (mkL [] k) (f_early_init g) fr none.
Proof using Type. unfold f_early_init. apply tri_call. go2 ltac:(solve [first [apply l_malloc | apply l_free]]). Qed.
Lemma l_fast k : trl (mkL [] k) f_object_size_fast fr none.
Proof using Type. apply tri_call. go ltac:(fail). Qed.
End Locks.
