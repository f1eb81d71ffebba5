(** Histories satisfy the heap invariant; running concrete programs. *)
From Coq Require Import String ZArith List Bool Lia ZifyBool Permutation.
From Verif Require Import M_Base M_Config M_SizeClass M_Libdivide M_OS M_Random M_Slab M_Region M_Api M_Hist S_Heap
  P_Base P_Count P_SizeClass P_Libdivide P_Random P_OS P_Slab1 P_Slab2 P_Region P_Heap1 P_Heap2 P_Heap3 P_Heap4 P_Heap5 P_Heap6 P_Heap7 P_Heap8 P_Heap9 P_Heap10 P_Heap11 P_Init P_Api0 P_Api1.
Import ListNotations.
Open Scope Z_scope.
Ltac Zify.zify_post_hook ::= idtac.

Definition mapped0 (o : os) (q : Z) : bool := match pages o q with Some _ => true | None => false end.
Definition ground0 (g : config) (o : os) : ground := mkGround (mapped0 o) (REAL_CLASS_REGION_SIZE g).
Lemma boot_linv g o : usable_config g = true -> linv g [] (boot g o) (no_regs (ground0 g o)).
Proof.
  intros U. assert (idle g (boot g o) (no_regs (ground0 g o))) as ID.
  { constructor; auto; try reflexivity; cbn; try lia. intros q. unfold mapped0. destruct (pages o q); congruence. }
  constructor.
  - right. exact ID.
  - intros p. split; [intros (n & B); elim (idle_block _ _ _ _ _ ID B)|intros (c & [])].
  - constructor.
  - intros p c [].
Qed.
Lemma boot_steady g o : steady g (boot g o). Proof. intros H. discriminate. Qed.
Lemma history_base g W o t s : usable_config g = true -> history g W o t s -> exists LL, linv g t s LL /\ rl_base LL = ground0 g o.
Proof.
  intros U H. induction H as [|t s tid c a s' H (LL & LI & EB) TC WD PM ST E]; [exists (no_regs (ground0 g o)); split; [apply boot_linv; auto|reflexivity]|].
  pose proof (op_step g t s LL tid c LI TC WD PM) as K. unfold wp in K. rewrite E in K. destruct K as (LL' & K). exists LL'. split; [apply K|]. rewrite (sp_base _ _ _ _ _ _ _ _ _ K). exact EB.
Qed.
Lemma history_linv g W o t s : usable_config g = true -> history g W o t s -> exists LL, linv g t s LL.
Proof. intros U H. destruct (history_base g W o t s U H) as (LL & L & _). eauto. Qed.
Lemma history_steady g o t s : usable_config g = true -> history g (own_store g) o t s -> steady g s.
Proof.
  intros U H. induction H as [|t s tid c a s' H IH TC WD PM ST E]; [apply boot_steady|].
  destruct (history_linv _ _ _ _ _ U H) as (LL & LI). pose proof (op_step g t s LL tid c LI TC WD PM) as K. unfold wp in K. rewrite E in K. destruct K as (LL' & K). apply (sp_steady _ _ _ _ _ _ _ _ _ K); auto.
Qed.
Lemma history_any g W o t s : history g W o t s -> history g any_store o t s.
Proof. intros H. induction H; [constructor|]. econstructor; eauto. destruct c; exact I. Qed.
Lemma history_step g W o t s tid c a s' LL : usable_config g = true -> history g W o t s -> linv g t s LL -> table_cleared s -> words c -> permitted g (live t) c -> run (op_run g tid c) s = Ok (a, s') ->
  exists LL', stepped g t s LL tid c a s' LL'.
Proof.
  intros U H LI TC WD PM E. pose proof (op_step g t s LL tid c LI TC WD PM) as K. unfold wp in K. rewrite E in K. exact K.
Qed.
Lemma run_wp {S A} (m : M S A) s (Q : A -> S -> Prop) (E : fault -> Prop) a s' : wp m s Q E -> m s = Ok (a, s') -> Q a s'.
Proof. unfold wp. intros H K. rewrite K in H. exact H. Qed.
Lemma fail_wp {S A} (m : M S A) s (Q : A -> S -> Prop) (E : fault -> Prop) f : wp m s Q E -> m s = Fail f -> E f.
Proof. unfold wp. intros H K. rewrite K in H. exact H. Qed.
Lemma run_pmap {S A B} (h : A -> B) (p : prog S A) s b s' : run (pmap h p) s = Ok (b, s') -> exists a, run p s = Ok (a, s') /\ b = h a.
Proof.
  intros H. assert (wp (run (pmap h p)) s (fun b s' => exists a, run p s = Ok (a, s') /\ b = h a) (fun _ => True)) as W.
  { apply wp_pmap. unfold wp. destruct (run p s) as [[a s1]|f]; [exists a; auto|exact I]. }
  exact (run_wp _ _ _ _ _ _ W H).
Qed.
Lemma run_pmap_fail {S A B} (h : A -> B) (p : prog S A) s f : run (pmap h p) s = Fail f -> run p s = Fail f.
Proof.
  intros H. assert (wp (run (pmap h p)) s (fun _ _ => True) (fun f => run p s = Fail f)) as W.
  { apply wp_pmap. unfold wp. destruct (run p s) as [[a s1]|f']; auto. }
  exact (fail_wp _ _ _ _ _ W H).
Qed.
Lemma run_pmap_ok {S A B} (h : A -> B) (p : prog S A) s a s' : run p s = Ok (a, s') -> run (pmap h p) s = Ok (h a, s').
Proof.
  intros H. destruct (run (pmap h p) s) as [[b s1]|f] eqn:E.
  - apply run_pmap in E. destruct E as (a' & E & ->). congruence.
  - apply run_pmap_fail in E. congruence.
Qed.

(** ** concrete programs *)
Definition wordb (x : Z) : bool := (0 <=? x) && (x <? 2 ^ 64).
Definition wordsb (c : op) : bool :=
  match c with
  | OMalloc n | OValloc n | OPvalloc n => wordb n
  | OCalloc m n => wordb m && wordb n
  | ORealloc p n | OFreeSized p n => wordb p && wordb n
  | OPosixMemalign al n | OAlignedAlloc al n | OMemalign al n => wordb al && wordb n
  | OFree p | OUsableSize p | OObjectSize p | OObjectSizeFast p => wordb p
  | OTrim => true
  | OWrite x v => wordb x
  end.
Definition permittedb (g : config) (l : owned) (c : op) : bool :=
  match c with
  | ORealloc p _ => (p =? 0) || existsb (fun b => (fst b =? p) && negb ((4096 <? alignment (snd b)) && (request (snd b) + canary_size g <=? max_slab_size_class g))) l
  | _ => true
  end.
Definition storeb (g : config) (l : owned) (s : state) (c : op) : bool :=
  match c with
  | OWrite x _ => existsb (fun b => match run (h_malloc_usable_size g (fst b)) s with Ok (n, _) => (fst b <=? x) && (x <? fst b + n) | Fail _ => false end) l
  | _ => true
  end.
Definition script : Type := list (trace -> Z * op).
Fixpoint exec (g : config) (own : bool) (l : script) (t : trace) (s : state) : option (trace * state) :=
  match l with
  | [] => Some (t, s)
  | f :: l =>
      let '(tid, c) := f t in
      if negb (ra_leftover (st_ra s)) && wordsb c && permittedb g (live t) c && (negb own || storeb g (live t) s c) then
        match run (op_run g tid c) s with
        | Ok (a, s') => exec g own l (mkEv tid c a :: t) s'
        | Fail _ => None
        end
      else None
  end.
Lemma wordb_ok x : wordb x = true -> word x. Proof. unfold wordb, word. lia. Qed.
Lemma wordsb_ok c : wordsb c = true -> words c.
Proof. destruct c; cbn; rewrite ?andb_true_iff; intuition auto using wordb_ok. Qed.
Lemma permittedb_ok g l c : permittedb g l c = true -> permitted g l c.
Proof.
  destruct c; cbn; auto. rewrite orb_true_iff. intros [H|H]; [left; lia|right]. apply existsb_exists in H. destruct H as ([q b] & H1 & H2). cbn in H2. exists b. unfold overaligned. replace p with q by lia. split; [auto|]. lia.
Qed.
Lemma storeb_ok g l s c : storeb g l s c = true -> store_ok (own_store g) l s c.
Proof.
  destruct c; cbn; auto. intros H. apply existsb_exists in H. destruct H as ([q b] & H1 & H2). cbn in H2. destruct (run (h_malloc_usable_size g q) s) as [[n s']|f] eqn:E; [|discriminate].
  exists q, b, n. split; [auto|]. split; [exists s'; exact E|lia].
Qed.
Lemma exec_any g o l t s t' s' : history g any_store o t s -> exec g false l t s = Some (t', s') -> history g any_store o t' s'.
Proof.
  revert t s. induction l as [|f l IH]; cbn; intros t s H E; [injection E as <- <-; auto|]. destruct (f t) as [tid c]. destruct (_ && _) eqn:Q; [|discriminate]. rewrite !andb_true_iff, negb_true_iff in Q. destruct Q as [[[Q1 Q2] Q3] Q4]. destruct (run (op_run g tid c) s) as [[a s1]|e] eqn:R; [|discriminate].
  eapply IH; [|exact E]. econstructor; eauto; [apply wordsb_ok; auto|apply permittedb_ok; auto|destruct c; exact I].
Qed.
Lemma exec_own g o l t s t' s' : history g (own_store g) o t s -> exec g true l t s = Some (t', s') -> history g (own_store g) o t' s'.
Proof.
  revert t s. induction l as [|f l IH]; cbn; intros t s H E; [injection E as <- <-; auto|]. destruct (f t) as [tid c]. destruct (_ && _) eqn:Q; [|discriminate]. rewrite !andb_true_iff, negb_true_iff in Q. destruct Q as [[[Q1 Q2] Q3] Q4]. destruct (run (op_run g tid c) s) as [[a s1]|e] eqn:R; [|discriminate].
  eapply IH; [|exact E]. econstructor; eauto; [apply wordsb_ok; auto|apply permittedb_ok; auto|apply storeb_ok; auto].
Qed.
