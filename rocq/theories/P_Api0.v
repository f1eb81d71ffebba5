(** The slab region and the allocator state do not move after initialization. *)
From Coq Require Import String ZArith List Bool Lia ZifyBool.
From Verif Require Import M_Base M_Config M_SizeClass M_OS M_Random M_Slab M_Region M_Api M_Hist P_Base P_Heap4.
Import ListNotations.
Open Scope Z_scope.
Ltac Zify.zify_post_hook ::= idtac.

Definition sited (s s' : state) : Prop := is_init s = true -> st_start s' = st_start s /\ st_end s' = st_end s /\ st_base s' = st_base s.
Definition anyf (f : fault) : Prop := True.
Definition mst {A} (m : M state A) : Prop := forall s, wp m s (fun _ s' => sited s s') anyf.
Definition pst {A} (p : prog state A) : Prop := mst (run p).
Lemma sited_refl s : sited s s. Proof. intros _. auto. Qed.
Lemma sited_trans s1 s2 s3 : sited s1 s2 -> sited s2 s3 -> sited s1 s3.
Proof. intros H1 H2 I. destruct (H1 I) as (A & B & C). assert (is_init s2 = true) as I2 by (unfold is_init in *; rewrite B; exact I). destruct (H2 I2) as (D & E & F). rewrite D, E, F. auto. Qed.
Lemma wp_any {S A} (m : M S A) s (Q : A -> S -> Prop) : (forall a s', Q a s') -> wp m s Q anyf.
Proof. intros H. unfold wp. destruct (m s) as [[a s']|f]; [apply H|exact I]. Qed.
Lemma mst_ret {A} (a : A) : mst (ret a). Proof. intros s. apply wp_ret, sited_refl. Qed.
Lemma mst_bind {A B} (m : M state A) (f : A -> M state B) : mst m -> (forall a, mst (f a)) -> mst (bind m f).
Proof. intros H1 H2 s. apply wp_bind. eapply wp_mono; [apply H1| |intros; exact I]. intros a s1 R1. eapply wp_mono; [apply H2| |intros; exact I]. intros b s2 R2. exact (sited_trans _ _ _ R1 R2). Qed.
Lemma mst_fail {A} f : mst (@fail state A f). Proof. intros s. exact I. Qed.
Lemma mst_get : mst get. Proof. intros s. apply wp_get, sited_refl. Qed.
Lemma mst_gets {A} (f : state -> A) : mst (gets f). Proof. intros s. apply wp_gets, sited_refl. Qed.
Lemma mst_os {A} (m : M os A) : mst (on_os m). Proof. intros s. apply wp_zoom, wp_any. intros a o _. auto. Qed.
Lemma mst_ra {A} (m : M rastate A) : mst (on_ra m). Proof. intros s. apply wp_zoom, wp_any. intros a o _. auto. Qed.
Lemma mst_class {A} g a k (m : M cstate A) : mst (on_class g a k m).
Proof. intros s. unfold on_class. destruct (_ && _); [|exact I]. apply wp_zoom, wp_any. intros x o _. auto. Qed.
Lemma mst_at {A} g p (m : Z -> Z -> M state A) : (forall a k, mst (m a k)) -> mst (fun s => let '(a, k) := slab_size_class g s p in m a k s).
Proof. intros H s. unfold wp. destruct (slab_size_class g s p) as [a k]. apply H. Qed.
Lemma pst_ret {A} (a : A) : pst (Ret a). Proof. apply mst_ret. Qed.
Lemma pst_act {A} (m : M state A) : mst m -> pst (act m). Proof. intros H s. apply wp_run_act, H. Qed.
Lemma pst_bind {A B} (p : prog state A) (f : A -> prog state B) : pst p -> (forall a, pst (f a)) -> pst (pbind p f).
Proof. intros H1 H2 s. apply wp_run_pbind. eapply wp_mono; [apply H1| |intros; exact I]. intros a s1 R1. eapply wp_mono; [apply H2| |intros; exact I]. intros b s2 R2. exact (sited_trans _ _ _ R1 R2). Qed.
Lemma pst_ra {A} (p : prog rastate A) : pst (p_ra p). Proof. intros s. apply wp_pra, wp_any. intros a o _. auto. Qed.
Lemma pst_os {A} (p : prog os A) : pst (p_os p). Proof. intros s. apply wp_pos, wp_any. intros a o _. auto. Qed.
Lemma pst_init g tid : pst (init g tid).
Proof.
  unfold init. apply pst_bind.
  - apply pst_act. intros s. unfold pick_arena. apply wp_bind, wp_get. destruct (N_ARENA g =? 1); [apply wp_ret, sited_refl|]. destruct (st_arena s tid <? N_ARENA g); [apply wp_ret, sited_refl|].
    apply wp_bind, wp_put, wp_ret. intros _. auto.
  - intros [a r]. apply pst_bind; [|intros _; apply pst_ret]. destruct r; [apply pst_ret|]. apply pst_act. intros s. unfold init_slow_path. apply wp_bind, wp_get.
    destruct (is_init s) eqn:E; [apply wp_ret, sited_refl|]. apply wp_any. intros x s' H. congruence.
Qed.
Lemma pst_trim g l : forall b, pst (trim_classes g l b).
Proof.
  induction l as [|[a k] l IH]; intros b; cbn [trim_classes]; [apply pst_ret|]. apply pst_bind; [|intros; apply IH]. destruct (k =? 0); [apply pst_ret|apply pst_act, mst_class].
Qed.
Ltac pst := repeat first
  [ apply pst_init | apply pst_trim | apply pst_ret | apply pst_ra | apply pst_os | apply mst_class | apply mst_os | apply mst_ra | apply mst_get | apply mst_gets | apply mst_fail | apply mst_ret
  | apply mst_at; intros | apply pst_act | apply pst_bind; intros | apply mst_bind; intros
  | match goal with
    | |- pst (if ?b then _ else _) => destruct b
    | |- mst (if ?b then _ else _) => destruct b
    | |- pst (match ?o with Some _ => _ | None => _ end) => destruct o
    | |- pst (match ?o with inl _ => _ | inr _ => _ end) => destruct o
    | |- pst (let '(_, _) := ?x in _) => destruct x
    end ].
Lemma pst_alloc g arena n : pst (allocate g arena n). Proof. unfold allocate, allocate_small. pst. Qed.
Lemma op_sited g tid c : pst (op_run g tid c).
Proof.
  destruct c; cbn [op_run]; unfold pmap; (apply pst_bind; [|intros; apply pst_ret]);
  unfold h_malloc, h_calloc, h_realloc, h_posix_memalign, h_aligned_alloc, h_valloc, h_pvalloc, alloc_aligned_simple, alloc_aligned, allocate_aligned, alloc,
    realloc_copy, realloc_shrink, realloc_mremap, h_free, h_free_sized, deallocate_small, deallocate_large_top, h_malloc_usable_size, h_malloc_object_size, h_malloc_object_size_fast, h_malloc_trim,
    store, set_errno_to, enforce_init, allocate, allocate_small; pst.
Qed.
Lemma op_sited_ok g tid c s a s' : run (op_run g tid c) s = Ok (a, s') -> sited s s'.
Proof. intros H. pose proof (op_sited g tid c s) as W. unfold wp in W. rewrite H in W. exact W. Qed.
