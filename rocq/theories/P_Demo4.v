(** Concrete programs with interleaved calls, for the examples of T_C37.v: a checker that
    follows a given schedule. *)
From Coq Require Import String ZArith List Bool Lia.
From Verif Require Import M_Base M_Config M_SizeClass M_OS M_Random M_Slab M_Region M_Api M_Hist M_Conc S_Heap S_Conc P_Api2 P_Demo.
Import ListNotations.
Open Scope list_scope.
Open Scope Z_scope.

Inductive kind : Type := KLawful | KCorrect | KReckless.
(** the checker does not look at the kernel *)
Definition rule_of (k : kind) (g : config) (o : os) : rules := match k with KLawful => lawful g | KCorrect => fun t e => obliging o -> correct g o t e | KReckless => reckless g o end.
Definition lawfulb (t : list cev) (e : cev) : bool :=
  match e with
  | Began _ c => wordsb c && (negb (borrows c) || existsb (borrowed c) (in_hand t)) &&
      match c with OWrite _ _ => false | _ => true end
  | Stored _ x _ => existsb (fun b => (fst b <=? x) && (x <? fst b + request (snd b))) (in_hand t)
  | Ended _ _ _ => true
  end.
Definition rule_ofb (k : kind) (g : config) (t : list cev) (e : cev) : bool :=
  match k with
  | KLawful => lawfulb t e
  | KCorrect => lawfulb t e && match e with
                | Began _ (ORealloc p _) => forallb (fun b => negb ((fst b =? p) && (4096 <? alignment (snd b)) && (request (snd b) + canary_size g <=? max_slab_size_class g))) (in_hand t)
                | _ => true
                end
  | KReckless => match e with
                 | Began _ c => wordsb c && (alignment c <=? 4096) &&
                     match c with ORealloc p _ => p =? 0 | OCalloc _ _ => ZERO_ON_FREE g | OObjectSize _ | OWrite _ _ => false | _ => true end
                 | _ => true
                 end
  end.
Lemma lawfulb_ok g t e : lawfulb t e = true -> lawful g t e.
Proof.
  destruct e as [tid c|tid c a|tid x v]; cbn; [|auto|].
  - rewrite !andb_true_iff. intros [[A B] C]. split; [apply wordsb_ok, A|]. split.
    + intros E. rewrite E in B. apply existsb_exists in B. exact B.
    + destruct c; auto; discriminate.
  - intros B. apply existsb_exists in B. destruct B as ([q b] & B1 & B2). cbn in B2. exists q, b. split; [auto|lia].
Qed.
Lemma rule_ofb_ok k g o t e : rule_ofb k g t e = true -> rule_of k g o t e.
Proof.
  destruct k; cbn [rule_ofb rule_of].
  - apply lawfulb_ok.
  - rewrite andb_true_iff. intros [A B] Ob. split; [apply lawfulb_ok, A|]. split; [auto|]. intros tid p n b -> Hb [H1 H2]. rewrite forallb_forall in B. specialize (B _ Hb). cbn [fst snd] in B.
    apply negb_true_iff in B. rewrite <- not_true_iff_false in B. apply B. rewrite !andb_true_iff. split; [split; lia|lia].
  - destruct e as [tid c|tid c a|tid x v]; cbn; auto. rewrite !andb_true_iff. intros [[A B] C]. split; [apply wordsb_ok, A|]. split; [lia|]. destruct c; auto; try discriminate. lia.
Qed.
(** one step: begin a call, advance a call (nothing if the thread is in no call), store *)
Inductive cmd : Type := Call (tid : Z) (c : op) | Go (tid : Z) | Put (tid a v : Z).
Definition config_t : Type := (list cev * conc)%type.
Definition move (g : config) (k : kind) (m : cmd) (y : config_t) : option config_t :=
  let '(t, x) := y in
  if ra_leftover (st_ra (co_st x)) then None else
  match m with
  | Call tid c => match co_run x tid with None => if rule_ofb k g t (Began tid c) then Some (Began tid c :: t, begin g tid c x) else None | Some _ => None end
  | Go tid => match co_run x tid with
              | Some (c, Act m f) => match m (co_st x) with Ok (b, s') => Some (t, mkConc s' (fupd (co_run x) tid (Some (c, f b)))) | Fail _ => None end
              | Some (c, Ret a) => if rule_ofb k g t (Ended tid c a) then Some (Ended tid c a :: t, mkConc (co_st x) (fupd (co_run x) tid None)) else None
              | None => Some y
              end
  | Put tid a v => match co_run x tid with
                   | None => if rule_ofb k g t (Stored tid a v) then match store g a v (co_st x) with Ok (_, s') => Some (Stored tid a v :: t, mkConc s' (co_run x)) | Fail _ => None end else None
                   | Some _ => None
                   end
  end.
Lemma move_ok g k o m t x y : execution (rule_of k g o) g o t x -> move g k m (t, x) = Some y -> execution (rule_of k g o) g o (fst y) (snd y).
Proof.
  intros H. unfold move. destruct (ra_leftover (st_ra (co_st x))) eqn:T; [discriminate|]. destruct m as [tid c|tid|tid a v].
  - destruct (co_run x tid) as [[]|] eqn:E; [discriminate|]. destruct (rule_ofb k g t (Began tid c)) eqn:R; [|discriminate]. intros [= <-]. apply (execution_step _ _ _ _ _ [Began tid c] _ H T); [constructor; auto|].
    intros a [<-|[]]. apply rule_ofb_ok, R.
  - destruct (co_run x tid) as [[c [a|B m f]]|] eqn:E; [| |intros [= <-]; exact H].
    + destruct (rule_ofb k g t (Ended tid c a)) eqn:R; [|discriminate]. intros [= <-]. apply (execution_step _ _ _ _ _ [Ended tid c a] _ H T); [constructor; auto|]. intros e [<-|[]]. apply rule_ofb_ok, R.
    + destruct (m (co_st x)) as [[b s']|] eqn:Em; [|discriminate]. intros [= <-]. apply (execution_step _ _ _ _ _ [] _ H T); [econstructor; eauto|]. intros e [].
  - destruct (co_run x tid) as [[]|] eqn:E; [discriminate|]. destruct (rule_ofb k g t (Stored tid a v)) eqn:R; [|discriminate]. destruct (store g a v (co_st x)) as [[[] s']|] eqn:Es; [|discriminate].
    intros [= <-]. apply (execution_step _ _ _ _ _ [Stored tid a v] _ H T); [constructor; auto|]. intros e [<-|[]]. apply rule_ofb_ok, R.
Qed.
(** [cmd]s may depend on the pointers seen so far *)
Definition drive1 (g : config) (k : kind) (f : list cev -> list cmd) (y : config_t) : option config_t :=
  fold_left (fun y m => match y with Some y => move g k m y | None => None end) (f (fst y)) (Some y).
Fixpoint drive (g : config) (k : kind) (l : list (list cev -> list cmd)) (y : config_t) : option config_t :=
  match l with [] => Some y | f :: l => match drive1 g k f y with Some y => drive g k l y | None => None end end.
Lemma fold_none g k ms : fold_left (fun y m => match y with Some y => move g k m y | None => None end) ms None = None.
Proof. induction ms as [|m ms IH]; [auto|exact IH]. Qed.
Lemma drive1_ok g k o f y y' : execution (rule_of k g o) g o (fst y) (snd y) -> drive1 g k f y = Some y' -> execution (rule_of k g o) g o (fst y') (snd y').
Proof.
  unfold drive1. generalize (f (fst y)). intros ms. revert y. induction ms as [|m ms IH]; cbn [fold_left]; intros y H E; [injection E as <-; auto|].
  destruct (move g k m y) as [y1|] eqn:M; [|rewrite fold_none in E; discriminate]. apply (IH y1); [|exact E]. destruct y as [t x]. eapply move_ok; eauto.
Qed.
Lemma drive_ok g k o l : forall y y', execution (rule_of k g o) g o (fst y) (snd y) -> drive g k l y = Some y' -> execution (rule_of k g o) g o (fst y') (snd y').
Proof.
  induction l as [|f l IH]; cbn; intros y y' H E; [injection E as <-; auto|]. destruct (drive1 g k f y) as [y1|] eqn:D; [|discriminate]. eapply IH; [|exact E]. eapply drive1_ok; eauto.
Qed.
Definition drives (g : config) (o : os) (k : kind) (l : list (list cev -> list cmd)) : config_t := match drive g k l ([], first g o) with Some y => y | None => ([], first g o) end.
Lemma execution_mono (R R' : rules) g o t x : (forall t e, R t e -> R' t e) -> execution R g o t x -> execution R' g o t x.
Proof. intros H. induction 1; [constructor|]. econstructor; eauto. Qed.
Lemma drives_ok g o k l : execution (rule_of k g o) g o (fst (drives g o k l)) (snd (drives g o k l)).
Proof. unfold drives. destruct (drive g k l ([], first g o)) as [y|] eqn:E; [|constructor]. eapply drive_ok; [|exact E]. constructor. Qed.
(** the pointer returned by the latest finished call of [tid] *)
Fixpoint cptr (tid : Z) (t : list cev) : Z := match t with [] => 0 | Ended i _ (APtr p) :: t => if i =? tid then p else cptr tid t | _ :: t => cptr tid t end.

(** ** Programs *)
Definition gos (a : Z) (n : nat) : list cmd := repeat (Go a) n.
Definition alt (a b : Z) (n : nat) : list cmd := concat (repeat [Go a; Go b] n).
(** five threads, allocating and freeing at the same time; the last calls are unfinished *)
Definition demo_correct : list (list cev -> list cmd) :=
  [fun _ => [Call 0 (OMalloc 100); Call 1 (OMalloc 200000)] ++ alt 0 1 20;
   fun t => [Call 3 (OObjectSize (cptr 0 t + 50))] ++ gos 3 20;
   fun t => [Put 1 (cptr 1 t + 7) 5; Call 0 (OFree (cptr 0 t)); Call 1 (OMalloc 100)] ++ alt 0 1 20;
   fun t => [Call 0 (OMalloc 3000); Call 2 (OMemalign 4096 100)] ++ alt 0 2 20;
   fun t => [Call 0 (ORealloc (cptr 0 t) 500000); Call 1 (OFree (cptr 1 t)); Call 4 (OMemalign 65536 1000)] ++ alt 0 4 2 ++ alt 1 4 20 ++ gos 0 1].
(** a block that two threads free at the same time, between other calls *)
Definition demo_double : list (list cev -> list cmd) :=
  [fun _ => [Call 0 (OMalloc 100); Call 1 (OMalloc 200000)] ++ alt 0 1 20;
   fun t => [Call 0 (OFree (cptr 1 t)); Call 1 (OFree (cptr 1 t))] ++ alt 0 1 3 ++ gos 0 20].
(** memalign(1048576, 200000) in one thread, malloc(200000) in another.  The kernel puts
    the second block where the first call has just unmapped the pages in front of its own
    block, and then refuses to unmap the pages behind it. *)
Definition o_unlucky : os := mkOs (fun _ => None) (fun _ => 7)
  (fun n => match n with 12%nat => mkSysans 0 42949672960 | 14%nat => mkSysans ENOMEM 0 | _ => mkSysans 0 (4294967296 + Z.of_nat n * 4294967296) end) 0
  (fun n => mkEntans 0 (map (fun i => (i * 37 + 11 * Z.of_nat n) mod 256) (zrange 0 200))) 0 8 0.
Definition demo_unlucky : list (list cev -> list cmd) :=
  [fun _ => [Call 0 (OMalloc 16)] ++ gos 0 20; fun t => [Call 0 (OMemalign 1048576 200000)] ++ gos 0 6; fun t => [Call 1 (OMalloc 200000)] ++ gos 1 20; fun _ => gos 0 20].
Lemma o0_obliging : obliging o0. Proof. intros n. cbn. discriminate. Qed.
Definition d_correct : config_t := drives g0 o0 KCorrect demo_correct.
Definition d_double : config_t := drives g0 o0 KReckless demo_double.
Definition d_unlucky : config_t := drives g0 o_unlucky KLawful demo_unlucky.
Lemma d_correct_ok : execution (correct g0 o0) g0 o0 (fst d_correct) (snd d_correct).
Proof. eapply execution_mono; [|exact (drives_ok g0 o0 KCorrect demo_correct)]. intros t e H. exact (H o0_obliging). Qed.
Lemma d_correct_hands : in_hand (fst d_correct) = [(68719542272, OMemalign 65536 1000); (25829208064, OMemalign 4096 100); (42949701632, OMalloc 200000)].
Proof. vm_compute. reflexivity. Qed.
Lemma d_correct_asked : hd (AUnit) (rev (flat_map (fun e => match e with Ended 3 _ a => [a] | _ => [] end) (fst d_correct))) = ASize 54.
Proof. vm_compute. reflexivity. Qed.
Definition runs (y : config_t) (tid : Z) (c : op) : bool := match co_run (snd y) tid with Some (d, _) => if op_dec d c then true else false | None => false end.
Lemma runs_ok y tid c : runs y tid c = true -> exists p, co_run (snd y) tid = Some (c, p).
Proof. unfold runs. destruct (co_run (snd y) tid) as [[d p]|]; [|discriminate]. destruct (op_dec d c) as [->|]; [eauto|discriminate]. Qed.
Lemma d_correct_runs : runs d_correct 0 (ORealloc 25824430080 500000) = true. Proof. vm_compute. reflexivity. Qed.
Lemma d_correct_content : content (co_st (snd d_correct)) 42949701639 = 5. Proof. vm_compute. reflexivity. Qed.
Definition nextb (g : config) (k : kind) (tid : Z) (y : config_t) : bool :=
  negb (ra_leftover (st_ra (co_st (snd y)))) && match move g k (Go tid) y with Some _ => true | None => false end && match co_run (snd y) tid with Some (_, Act _ _) => true | _ => false end.
Lemma go_step g k tid y y' c p : co_run (snd y) tid = Some (c, p) -> (forall a, p <> Ret a) -> move g k (Go tid) y = Some y' -> cstep g (snd y) [] (snd y').
Proof.
  destruct y as [t x]. cbn [snd]. intros E N. unfold move. destruct (ra_leftover _); [discriminate|]. rewrite E. destruct p as [a|B m f]; [elim (N a); auto|]. destruct (m (co_st x)) as [[b s']|] eqn:Em; [|discriminate]. intros [= <-]. econstructor; eauto.
Qed.
Lemma nextb_ok g k tid y : nextb g k tid y = true -> table_cleared (co_st (snd y)) /\ exists x', cstep g (snd y) [] x'.
Proof.
  unfold nextb, table_cleared. rewrite !andb_true_iff, negb_true_iff. intros [[A B] C]. split; [exact A|]. destruct (move g k (Go tid) y) as [y'|] eqn:M; [|discriminate]. exists (snd y').
  destruct (co_run (snd y) tid) as [[c [a|D m f]]|] eqn:E; try discriminate. eapply go_step; [exact E|discriminate|exact M].
Qed.
Lemma d_correct_next : nextb g0 KCorrect 0 d_correct = true. Proof. vm_compute. reflexivity. Qed.
Definition abortsb (y : config_t) (tid : Z) (c : op) (f : fault) : bool :=
  negb (ra_leftover (st_ra (co_st (snd y)))) && match co_run (snd y) tid with Some (d, Act m _) => (if op_dec d c then true else false) && match m (co_st (snd y)) with Fail e => if fault_dec e f then true else false | Ok _ => false end | _ => false end.
Lemma abortsb_ok g y tid c f : abortsb y tid c f = true -> aborts g (snd y) tid c f.
Proof.
  unfold abortsb. rewrite andb_true_iff, negb_true_iff. intros [H1 H]. split; [exact H1|]. destruct (co_run (snd y) tid) as [[d [|B m k]]|] eqn:E; try discriminate. destruct (op_dec d c) as [->|]; [|discriminate].
  destruct (m (co_st (snd y))) as [|e] eqn:Em; [discriminate|]. cbn in H. destruct (fault_dec e f) as [->|]; [|discriminate]. eauto.
Qed.
Lemma d_double_aborts : abortsb d_double 1 (OFree 42949701632) (Fatal "invalid free") = true. Proof. vm_compute. reflexivity. Qed.
Lemma d_double_counts : times_given (fst d_double) 42949701632 = 1 /\ times_freed (fst d_double) 42949701632 = 1. Proof. vm_compute. auto. Qed.
Lemma d_unlucky_hands : in_hand (fst d_unlucky) = [(42949689344, OMalloc 200000); (25774169440, OMalloc 16)]. Proof. vm_compute. reflexivity. Qed.
Lemma d_unlucky_gone : pages (st_os (co_st (snd d_unlucky))) (page_of 42949689344) = None. Proof. vm_compute. reflexivity. Qed.
