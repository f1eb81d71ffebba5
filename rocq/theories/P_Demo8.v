(** Concrete interleavings around one call of one thread, for the examples of T_C37.v. *)
From Coq Require Import String ZArith List Bool Lia.
From Verif Require Import M_Base M_Config M_SizeClass M_OS M_Random M_Slab M_Region M_Api M_Hist M_Conc S_Heap S_Conc P_Api2 P_Demo P_Demo4.
Import ListNotations.
Open Scope list_scope.
Open Scope Z_scope.

Definition calls (tid : Z) (m : cmd) : bool := match m with Call i _ => i =? tid | _ => false end.
Fixpoint moves (g : config) (k : kind) (tid : Z) (ms : list cmd) (y : config_t) : option config_t :=
  match ms with
  | [] => Some y
  | m :: ms => if calls tid m then None else match move g k m y with Some y => moves g k tid ms y | None => None end
  end.
Lemma move_on g o k tid m t0 x0 t x y : goes_on (rule_of k g o) g tid t0 x0 t x -> calls tid m = false -> move g k m (t, x) = Some y -> goes_on (rule_of k g o) g tid t0 x0 (fst y) (snd y).
Proof.
  intros H N. unfold move. destruct (ra_leftover (st_ra (co_st x))) eqn:T; [discriminate|]. destruct m as [i c|i|i a v].
  - destruct (co_run x i) as [[]|] eqn:E; [discriminate|]. destruct (rule_ofb k g t (Began i c)) eqn:R; [|discriminate]. intros [= <-]. apply (goes_step _ _ _ _ _ _ _ [Began i c] _ H T); [constructor; auto| |].
    + intros a [<-|[]]. apply rule_ofb_ok, R.
    + intros d [[= -> _]|[]]. cbn in N. lia.
  - destruct (co_run x i) as [[c [a|B m f]]|] eqn:E; [| |intros [= <-]; exact H].
    + destruct (rule_ofb k g t (Ended i c a)) eqn:R; [|discriminate]. intros [= <-]. apply (goes_step _ _ _ _ _ _ _ [Ended i c a] _ H T); [constructor; auto| |intros d [[=]|[]]]. intros e [<-|[]]. apply rule_ofb_ok, R.
    + destruct (m (co_st x)) as [[b s']|] eqn:Em; [|discriminate]. intros [= <-]. apply (goes_step _ _ _ _ _ _ _ [] _ H T); [econstructor; eauto|intros e []|intros d []].
  - destruct (co_run x i) as [[]|] eqn:E; [discriminate|]. destruct (rule_ofb k g t (Stored i a v)) eqn:R; [|discriminate]. destruct (store g a v (co_st x)) as [[[] s']|] eqn:Es; [|discriminate].
    intros [= <-]. apply (goes_step _ _ _ _ _ _ _ [Stored i a v] _ H T); [constructor; auto| |intros d [[=]|[]]]. intros e [<-|[]]. apply rule_ofb_ok, R.
Qed.
Lemma moves_on g o k tid ms t0 x0 : forall y y', goes_on (rule_of k g o) g tid t0 x0 (fst y) (snd y) -> moves g k tid ms y = Some y' -> goes_on (rule_of k g o) g tid t0 x0 (fst y') (snd y').
Proof.
  induction ms as [|m ms IH]; cbn; intros y y' H E; [injection E as <-; auto|]. destruct (calls tid m) eqn:C; [discriminate|]. destruct (move g k m y) as [y1|] eqn:M; [|discriminate]. eapply IH; [|exact E]. destruct y as [t x]. eapply move_on; eauto.
Qed.
(** the states before a call, after it began, before it returns and after, and its answer *)
Definition around (g : config) (o : os) (k : kind) (pre : list (list cev -> list cmd)) (tid : Z) (c : op) (mid : list cmd) : option (config_t * config_t * config_t * ans * conc) :=
  match drive g k pre ([], first g o) with
  | Some y0 =>
      match move g k (Call tid c) y0 with
      | Some y1 =>
          match moves g k tid mid y1 with
          | Some y2 =>
              match co_run (snd y2) tid with
              | Some (d, Ret a) => if op_dec d c then Some (y0, y1, y2, a, mkConc (co_st (snd y2)) (fupd (co_run (snd y2)) tid None)) else None
              | _ => None
              end
          | None => None
          end
      | None => None
      end
  | None => None
  end.
Record went (g : config) (o : os) (k : kind) (tid : Z) (c : op) (y0 y1 y2 : config_t) (a : ans) (x3 : conc) : Prop := {
  w_ex : execution (rule_of k g o) g o (fst y0) (snd y0);
  w_tc : table_cleared (co_st (snd y0));
  w_begin : cstep g (snd y0) [Began tid c] (snd y1);
  w_rule : rule_of k g o (fst y0) (Began tid c);
  w_go : goes_on (rule_of k g o) g tid (Began tid c :: fst y0) (snd y1) (fst y2) (snd y2);
  w_ex2 : execution (rule_of k g o) g o (fst y2) (snd y2);
  w_end : cstep g (snd y2) [Ended tid c a] x3 }.
Lemma goes_mono (R R' : rules) g tid t0 x0 t x : (forall t e, R t e -> R' t e) -> goes_on R g tid t0 x0 t x -> goes_on R' g tid t0 x0 t x.
Proof. intros H. induction 1; [constructor|]. econstructor; eauto. Qed.
Lemma obliged_rule t e : rule_of KCorrect g0 o0 t e -> correct g0 o0 t e.
Proof. intros H. exact (H o0_obliging). Qed.
Lemma goes_execution R g o tid t0 x0 t x : execution R g o t0 x0 -> goes_on R g tid t0 x0 t x -> execution R g o t x.
Proof. intros E. induction 1; [exact E|]. econstructor; eauto. Qed.
Lemma around_ok g o k pre tid c mid y0 y1 y2 a x3 : around g o k pre tid c mid = Some (y0, y1, y2, a, x3) -> went g o k tid c y0 y1 y2 a x3.
Proof.
  unfold around. destruct (drive g k pre ([], first g o)) as [z0|] eqn:D; [|discriminate]. destruct (move g k (Call tid c) z0) as [z1|] eqn:M; [|discriminate]. destruct (moves g k tid mid z1) as [z2|] eqn:W; [|discriminate].
  destruct (co_run (snd z2) tid) as [[d [b|]]|] eqn:E; try discriminate. destruct (op_dec d c) as [->|]; [|discriminate]. intros [= <- <- <- <- <-].
  assert (execution (rule_of k g o) g o (fst z0) (snd z0)) as Ex by (eapply (drive_ok g k o pre ([], first g o)); [constructor|exact D]).
  destruct z0 as [t0 x0]. cbn [fst snd] in *.
  assert (execution (rule_of k g o) g o (fst z1) (snd z1)) as Ex1 by (eapply move_ok; eauto).
  unfold move in M. destruct (ra_leftover (st_ra (co_st x0))) eqn:T; [discriminate|]. destruct (co_run x0 tid) as [[]|] eqn:E0; [discriminate|]. destruct (rule_ofb k g t0 (Began tid c)) eqn:R; [|discriminate]. injection M as <-. cbn [fst snd] in *.
  assert (goes_on (rule_of k g o) g tid (Began tid c :: t0) (begin g tid c x0) (fst z2) (snd z2)) as Go by (eapply (moves_on g o k tid mid _ _ (Began tid c :: t0, begin g tid c x0)); [constructor|exact W]).
  constructor; cbn [fst snd]; auto.
  - constructor. exact E0.
  - apply rule_ofb_ok, R.
  - eapply goes_execution; eauto.
  - destruct z2 as [t2 x2]. constructor. exact E.
Qed.
(** checks on the outcome *)
Definition around_ck (check : config_t -> config_t -> Z -> conc -> bool) (r : option (config_t * config_t * config_t * ans * conc)) : bool :=
  match r with Some (y0, _, y2, APtr q, x3) => check y0 y2 q x3 | _ => false end.
Lemma around_ck_ok check g o k pre tid c mid : around_ck check (around g o k pre tid c mid) = true -> exists y0 y1 y2 q x3, went g o k tid c y0 y1 y2 (APtr q) x3 /\ check y0 y2 q x3 = true.
Proof.
  destruct (around g o k pre tid c mid) as [[[[[y0 y1] y2] a] x3]|] eqn:A; cbn; [|discriminate]. destruct a; try discriminate. intros H. exists y0, y1, y2, p, x3. split; [|exact H]. eapply around_ok; exact A.
Qed.
Definition ended (tid : Z) (t : list cev) : Z := Z.of_nat (length (filter (fun e => match e with Ended i _ _ => i =? tid | _ => false end) t)).
(** realloc of a block of 3000 bytes in thread 0, while thread 1 allocates, stores and frees *)
Definition pre_realloc : list (list cev -> list cmd) :=
  [fun _ => [Call 0 (OMalloc 3000); Call 1 (OMalloc 200000)] ++ alt 0 1 20; fun t => [Put 0 (cptr 0 t + 7) 5; Put 0 (cptr 0 t + 2999) 6]].
Definition mid_realloc : list cmd := [Call 1 (OFree 42949701632)] ++ alt 0 1 4 ++ gos 1 20 ++ [Call 1 (OMalloc 3000)] ++ alt 0 1 3 ++ gos 1 20 ++ gos 0 2.
Definition check_realloc (y0 y2 : config_t) (q : Z) (x3 : conc) : bool :=
  existsb (fun e => (fst e =? 25824430080) && (if op_dec (snd e) (OMalloc 3000) then true else false)) (in_hand (fst y0)) && negb (q =? 25824430080) && (ended 1 (fst y2) =? ended 1 (fst y0) + 2) &&
  (content (co_st (snd y0)) (25824430080 + 7) =? 5) && (content (co_st (snd y0)) (25824430080 + 2999) =? 6) && (content (co_st x3) (q + 7) =? 5) && (content (co_st x3) (q + 2999) =? 6).
Lemma d_realloc : around_ck check_realloc (around g0 o0 KCorrect pre_realloc 0 (ORealloc 25824430080 500000) mid_realloc) = true.
Proof. vm_compute. reflexivity. Qed.
(** calloc in thread 0, while thread 1 frees a block it stored to and allocates another *)
Definition pre_calloc : list (list cev -> list cmd) := pre_realloc ++ [fun t => [Put 1 (cptr 1 t + 3) 9; Call 0 (OFree (cptr 0 t))] ++ gos 0 20].
Definition mid_calloc : list cmd := [Call 1 (OFree 42949701632)] ++ alt 0 1 4 ++ gos 1 20 ++ [Call 1 (OMalloc 3000)] ++ gos 1 20 ++ gos 0 2.
Definition check_calloc (y0 y2 : config_t) (q : Z) (x3 : conc) : bool :=
  (content (co_st (snd y0)) (42949701632 + 3) =? 9) && (ended 1 (fst y2) =? ended 1 (fst y0) + 2) && (content (co_st x3) (q + 299999) =? 0).
Lemma d_calloc : around_ck check_calloc (around g0 o0 KCorrect pre_calloc 0 (OCalloc 500 600) mid_calloc) = true.
Proof. vm_compute. reflexivity. Qed.
Lemma realloc_case : exists t x x1 t2 x2 q x3, execution (correct g0 o0) g0 o0 t x /\ table_cleared (co_st x) /\ In (25824430080, OMalloc 3000) (in_hand t) /\
  cstep g0 x [Began 0 (ORealloc 25824430080 500000)] x1 /\ correct g0 o0 t (Began 0 (ORealloc 25824430080 500000)) /\
  goes_on (correct g0 o0) g0 0 (Began 0 (ORealloc 25824430080 500000) :: t) x1 t2 x2 /\ cstep g0 x2 [Ended 0 (ORealloc 25824430080 500000) (APtr q)] x3 /\
  q <> 25824430080 /\ ended 1 t2 = ended 1 t + 2 /\
  content (co_st x) (25824430080 + 7) = 5 /\ content (co_st x) (25824430080 + 2999) = 6 /\ content (co_st x3) (q + 7) = 5 /\ content (co_st x3) (q + 2999) = 6.
Proof.
  destruct (around_ck_ok _ _ _ _ _ _ _ _ d_realloc) as (y0 & y1 & y2 & q & x3 & [WA WB WC WD WE WF WG] & C). apply (execution_mono _ _ _ _ _ _ obliged_rule) in WA. apply (execution_mono _ _ _ _ _ _ obliged_rule) in WF. apply obliged_rule in WD. apply (goes_mono _ _ _ _ _ _ _ _ obliged_rule) in WE. unfold check_realloc in C. rewrite !andb_true_iff in C. destruct C as ((((((C1 & C2) & C3) & C4) & C5) & C6) & C7).
  exists (fst y0), (snd y0), (snd y1), (fst y2), (snd y2), q, x3. split; [exact WA|]. split; [exact WB|]. split.
  { apply existsb_exists in C1. destruct C1 as ([p b] & H1 & H2). cbn [fst snd] in H2. rewrite andb_true_iff in H2. destruct H2 as [H2 H3]. apply Z.eqb_eq in H2. subst p. destruct (op_dec b (OMalloc 3000)) as [->|]; [exact H1|discriminate]. }
  repeat (split; [assumption|]). split; [lia|]. repeat (split; [apply Z.eqb_eq; assumption|]). apply Z.eqb_eq; assumption.
Qed.
Lemma calloc_case : exists t x q x', execution (correct g0 o0) g0 o0 t x /\ cstep g0 x [Ended 0 (OCalloc 500 600) (APtr q)] x' /\ content (co_st x') (q + 299999) = 0 /\ 2 <= ended 1 t.
Proof.
  destruct (around_ck_ok _ _ _ _ _ _ _ _ d_calloc) as (y0 & y1 & y2 & q & x3 & [WA WB WC WD WE WF WG] & C). apply (execution_mono _ _ _ _ _ _ obliged_rule) in WA. apply (execution_mono _ _ _ _ _ _ obliged_rule) in WF. apply obliged_rule in WD. apply (goes_mono _ _ _ _ _ _ _ _ obliged_rule) in WE. unfold check_calloc in C. rewrite !andb_true_iff in C. destruct C as ((C1 & C2) & C3).
  exists (fst y2), (snd y2), q, x3. split; [exact WF|]. split; [exact WG|]. split; [apply Z.eqb_eq; assumption|]. assert (0 <= ended 1 (fst y0)) by apply Zle_0_nat. lia.
Qed.
