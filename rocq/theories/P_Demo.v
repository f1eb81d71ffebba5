(** Concrete programs for the examples beside the theorems: a small configuration, a
    kernel, and a checker that runs a program once (vm_compute) and compares everything
    the examples need. *)
From Coq Require Import String ZArith List Bool Lia.
From Verif Require Import M_Base M_Config M_SizeClass M_OS M_Random M_Slab M_Region M_Api M_Hist S_Heap P_Api2.
Import ListNotations.
Open Scope string_scope.
Open Scope list_scope.
Open Scope Z_scope.

(** all features on, small tables *)
Definition g0 : config := mkConfig true true true true 1 1 false true 1 2 2 2 33554432 4 1048576 1 true 1048576.
(** a kernel that grants everything, and fixed entropy *)
Definition o0 : os := mkOs (fun _ => None) (fun _ => 7) (fun n => mkSysans 0 (4294967296 + Z.of_nat n * 4294967296)) 0
  (fun n => mkEntans 0 (map (fun i => (i * 37 + 11 * Z.of_nat n) mod 256) (zrange 0 200))) 0 8 0.

Definition op_dec (c d : op) : {c = d} + {c <> d}. Proof. decide equality; apply Z.eq_dec. Defined.
Definition ans_dec (c d : ans) : {c = d} + {c <> d}. Proof. decide equality; solve [apply Z.eq_dec|apply bool_dec]. Defined.
Definition fault_dec (c d : fault) : {c = d} + {c <> d}. Proof. decide equality; apply string_dec. Defined.
Definition event_dec (c d : event) : {c = d} + {c <> d}. Proof. decide equality; solve [apply Z.eq_dec|apply op_dec|apply ans_dec]. Defined.
Definition trace_eqb (t t' : trace) : bool := if list_eq_dec event_dec t t' then true else false.

(** things to look at in the final state of a program *)
Inductive look : Type :=
| LUsable (p n : Z)                       (* malloc_usable_size *)
| LCall (tid : Z) (c : op) (a : ans)      (* the next call would return this *)
| LEnd (tid : Z) (c : op) (f : fault)     (* the next call would end the process *)
| LByte (x v : Z)                         (* memory *)
| LRW (x : Z) | LNone (x : Z)             (* page protection *)
| LOther (f : state -> bool).
Definition pageb (s : state) (x : Z) (v : prot) : bool := match pages (st_os s) (page_of x), v with Some PRW, PRW | Some PNone, PNone => true | _, _ => false end.
Definition lookb (g : config) (own : bool) (t : trace) (s : state) (k : look) : bool :=
  match k with
  | LUsable p n => match run (h_malloc_usable_size g p) s with Ok (m, _) => m =? n | Fail _ => false end
  | LCall tid c a => negb (ra_leftover (st_ra s)) && wordsb c && permittedb g (live t) c && (negb own || storeb g (live t) s c) &&
      match run (op_run g tid c) s with Ok (b, _) => if ans_dec b a then true else false | Fail _ => false end
  | LEnd tid c f => negb (ra_leftover (st_ra s)) && wordsb c && permittedb g (live t) c && (negb own || storeb g (live t) s c) &&
      match run (op_run g tid c) s with Ok _ => false | Fail e => if fault_dec e f then true else false end
  | LByte x v => content s x =? v
  | LRW x => pageb s x PRW
  | LNone x => pageb s x PNone
  | LOther f => f s
  end.
Definition rule (g : config) (own : bool) : store_rule := if own then own_store g else any_store.
Definition looks (g : config) (own : bool) (t : trace) (s : state) (k : look) : Prop :=
  match k with
  | LUsable p n => usable_size g s p n
  | LCall tid c a => exists s', calls g (rule g own) t s tid c a s'
  | LEnd tid c f => ends g (rule g own) t s tid c f
  | LByte x v => content s x = v
  | LRW x => accessible s x
  | LNone x => inaccessible s x
  | LOther f => f s = true
  end.
Lemma pageb_ok s x v : pageb s x v = true -> pages (st_os s) (page_of x) = Some v.
Proof. unfold pageb. destruct (pages (st_os s) (page_of x)) as [[]|], v; intros; try discriminate; reflexivity. Qed.
Lemma lookb_ok g own t s k : lookb g own t s k = true -> looks g own t s k.
Proof.
  destruct k; cbn [lookb looks]; unfold usable_size, calls, ends, table_cleared, rule.
  - destruct (run _ s) as [[m s']|]; [|discriminate]. intros H. exists s'. f_equal. f_equal. lia.
  - intros H. rewrite !andb_true_iff, negb_true_iff in H. destruct H as [[[[H1 H2] H3] H4] H5]. destruct (run _ s) as [[b s']|]; [|discriminate]. destruct (ans_dec b a) as [->|]; [|discriminate]. exists s'. repeat split; [auto|apply wordsb_ok; auto|apply permittedb_ok; auto|].
    destruct own; [apply storeb_ok; auto|destruct c; exact I].
  - intros H. rewrite !andb_true_iff, negb_true_iff in H. destruct H as [[[[H1 H2] H3] H4] H5]. destruct (run _ s) as [[b s']|e]; [discriminate|]. destruct (fault_dec e f) as [->|]; [|discriminate]. repeat split; [auto|apply wordsb_ok; auto|apply permittedb_ok; auto|].
    destruct own; [apply storeb_ok; auto|destruct c; exact I].
  - intros H; lia.
  - apply pageb_ok.
  - apply pageb_ok.
  - auto.
Qed.

(** the state a program ends in *)
Definition final (g : config) (o : os) (own : bool) (l : script) : state := match exec g own l [] (boot g o) with Some (_, s) => s | None => boot g o end.
Definition check (g : config) (o : os) (own : bool) (l : script) (t : trace) (ks : list look) : bool :=
  match exec g own l [] (boot g o) with Some (t', s) => trace_eqb t' t && forallb (lookb g own t s) ks | None => false end.
Lemma check_ok g o own l t ks : check g o own l t ks = true -> history g (rule g own) o t (final g o own l) /\ forall k, In k ks -> looks g own t (final g o own l) k.
Proof.
  unfold check, final. destruct (exec g own l [] (boot g o)) as [[t' s]|] eqn:E; [|discriminate]. rewrite andb_true_iff. unfold trace_eqb. destruct (list_eq_dec event_dec t' t) as [->|]; [|intros []; discriminate]. intros [_ H]. split.
  - destruct own; [eapply exec_own; eauto; constructor|eapply exec_any; eauto; constructor].
  - intros k Hk. apply lookb_ok. eapply forallb_forall in H; eauto.
Qed.
Lemma exec_app g own l l' t s : exec g own (l ++ l') t s = match exec g own l t s with Some (t1, s1) => exec g own l' t1 s1 | None => None end.
Proof.
  revert t s. induction l as [|f l IH]; cbn; intros t s; [reflexivity|]. destruct (f t) as [tid c]. destruct (_ && _); [|reflexivity]. destruct (run _ s) as [[a s']|]; [apply IH|reflexivity].
Qed.
Lemma exec_cont g own l t0 s0 t s t' s' : continues g (rule g own) t0 s0 t s -> exec g own l t s = Some (t', s') -> continues g (rule g own) t0 s0 t' s'.
Proof.
  revert t s. induction l as [|f l IH]; cbn; intros t s H E; [injection E as <- <-; auto|]. destruct (f t) as [tid c]. destruct (_ && _) eqn:Q; [|discriminate]. rewrite !andb_true_iff, negb_true_iff in Q. destruct Q as [[[Q1 Q2] Q3] Q4]. destruct (run (op_run g tid c) s) as [[a s1]|e] eqn:R; [|discriminate].
  eapply IH; [|exact E]. econstructor; [exact H|]. repeat split; [auto|apply wordsb_ok; auto|apply permittedb_ok; auto| |exact R]. destruct own; [apply storeb_ok; auto|destruct c; exact I].
Qed.
Lemma check_cont g o own l l' t t' ks ks' : check g o own l t ks = true -> check g o own (l ++ l') t' ks' = true -> continues g (rule g own) t (final g o own l) t' (final g o own (l ++ l')).
Proof.
  unfold check, final. rewrite exec_app. destruct (exec g own l [] (boot g o)) as [[t1 s1]|]; [|discriminate]. rewrite andb_true_iff. unfold trace_eqb. destruct (list_eq_dec event_dec t1 t) as [->|]; [|intros []; discriminate]. intros _.
  destruct (exec g own l' t s1) as [[t2 s2]|] eqn:E; [|discriminate]. rewrite andb_true_iff. destruct (list_eq_dec event_dec t2 t') as [->|]; [|intros []; discriminate]. intros _. eapply exec_cont; [constructor|exact E].
Qed.
(** the pointer returned by the n-th call (counting from 0) *)
Definition ptr (n : nat) (t : trace) : Z := match nth_error (rev t) n with Some (mkEv _ _ (APtr p)) => p | _ => 0 end.

(** ** The demonstration program *)
Definition demo1 : script :=
  [fun _ => (0, OMalloc 100); fun _ => (1, OMalloc 0); fun _ => (0, OCalloc 10 20); fun _ => (0, OAlignedAlloc 64 200);
   fun _ => (1, OMalloc 200000); fun _ => (0, OMemalign 65536 200000); fun t => (0, OWrite (ptr 0 t + 5) 42); fun _ => (0, OMalloc 300); fun t => (0, OFree (ptr 7 t))].
Definition demo2 : script :=
  [fun t => (0, OMalloc 90); fun t => (0, OFree (ptr 2 t)); fun t => (0, ORealloc (ptr 4 t) 100000); fun t => (0, OMalloc 104); fun _ => (1, OMalloc 0); fun _ => (0, OCalloc 13 15)].
Definition t1 : trace :=
  [mkEv 0 (OFree 25797181888) AUnit;
   mkEv 0 (OMalloc 300) (APtr 25797181888);
   mkEv 0 (OWrite 25784834805 42) AUnit;
   mkEv 0 (OMemalign 65536 200000) (APtr 73014509568);
   mkEv 1 (OMalloc 200000) (APtr 64424538112);
   mkEv 0 (OAlignedAlloc 64 200) (APtr 25795574016);
   mkEv 0 (OCalloc 10 20) (APtr 25793651232);
   mkEv 1 (OMalloc 0) (APtr 25770672192);
   mkEv 0 (OMalloc 100) (APtr 25784834800)].
Definition t2 : trace :=
  [mkEv 0 (OCalloc 13 15) (APtr 25793644736);
   mkEv 1 (OMalloc 0) (APtr 25770676096);
   mkEv 0 (OMalloc 104) (APtr 25784835360);
   mkEv 0 (ORealloc 64424538112 100000) (APtr 64424538112);
   mkEv 0 (OFree 25793651232) AUnit;
   mkEv 0 (OMalloc 90) (APtr 25784835920)] ++ t1.
Definition s1 : state := final g0 o0 true demo1.
Definition s2 : state := final g0 o0 true (demo1 ++ demo2).
Definition bad_realloc (s : state) : bool := match run (op_run g0 0 (ORealloc 64424538113 100)) s with Fail f => if fault_dec f (Fatal "invalid realloc") then true else false | Ok _ => false end.
Lemma bad_realloc_ok s : bad_realloc s = true -> run (op_run g0 0 (ORealloc 64424538113 100)) s = Fail (Fatal "invalid realloc").
Proof. unfold bad_realloc. destruct (run _ s) as [|f]; [discriminate|]. destruct (fault_dec f _) as [->|]; [reflexivity|discriminate]. Qed.
Definition looks1 : list look :=
  [LUsable 25784834800 104; LUsable 25770672192 0; LUsable 25793651232 216; LUsable 25795574016 248; LUsable 64424538112 229376; LUsable 73014509568 229376;
   LByte 25784834805 42; LRW 25784834805; LNone 25770672192; LNone (64424538112 - 1); LRW 64424538112;
   LCall 0 (OMalloc 1000) (APtr 25812790272);
   LCall 0 (OMalloc 0) (APtr 25770676096);
   LCall 0 (OMalloc 18446744073709551615) ANull;
   LCall 1 (OCalloc 9223372036854775808 2) ANull;
   LCall 0 (OCalloc 13 15) (APtr 25793645856);
   LCall 0 (OPosixMemalign 3 10) (AErr 22);
   LCall 0 (OAlignedAlloc 48 48) ANull;
   LCall 0 (OPosixMemalign 32 100) (APtr 25786941824);
   LCall 0 (OPvalloc 5000) (APtr 25841528832);
   LCall 0 (OPvalloc 0) ANull;
   LEnd 0 (OUsableSize 25797181888) (Fatal "invalid malloc_usable_size (quarantine)");
   LCall 0 (OFree 25784834800) AUnit; LCall 0 (OFree 64424538112) AUnit;
   LEnd 0 (OFree 25797181888) (Fatal "double free (quarantine)");
   LEnd 0 (OFree 25784834816) (Fatal "invalid unaligned free");
   LEnd 0 (OFree 12345) (Fatal "invalid free"); LOther bad_realloc;
   LCall 0 (OFreeSized 25784834800 100) AUnit; LCall 0 (OFreeSized 25784834800 104) AUnit;
   LEnd 0 (OFreeSized 25784834800 105) (Fatal "sized deallocation mismatch (small)");
   LEnd 0 (OFreeSized 25795574016 200) (Fatal "sized deallocation mismatch (small)");
   LCall 0 (ORealloc 25784834800 1000) (APtr 25812790272);
   LCall 0 (ORealloc 25784834800 101) (APtr 25784834800);
   LCall 0 (ORealloc 64424538112 300000) (APtr 98784350208);
   LCall 0 (ORealloc 25784834800 18446744073709551614) ANull;
   LCall 0 (OObjectSize 25784834810) (ASize 94);
   LCall 0 (OObjectSize 64424538112) (ASize 229376);
   LCall 0 OTrim (ABool false);
   LOther (fun s => st_start s =? 25769803776); LOther (fun s => st_end s =? 25847398400); LOther is_init].
Definition looks2 : list look :=
  [LUsable 25784834800 104; LUsable 25770672192 0; LUsable 25770676096 0; LUsable 25784835360 104; LUsable 25793644736 216;
   LUsable 64424538112 114688; LNone 25770672192; LByte 25784834805 42].
Lemma demo1_check : check g0 o0 true demo1 t1 looks1 = true.
Proof. vm_cast_no_check (eq_refl true). Qed.
Lemma demo2_check : check g0 o0 true (demo1 ++ demo2) t2 looks2 = true.
Proof. vm_cast_no_check (eq_refl true). Qed.
Lemma demo1_history : history g0 (own_store g0) o0 t1 s1.
Proof. exact (proj1 (check_ok _ _ _ _ _ _ demo1_check)). Qed.
Lemma demo1_looks k : In k looks1 -> looks g0 true t1 s1 k.
Proof. exact (proj2 (check_ok _ _ _ _ _ _ demo1_check) k). Qed.
Lemma demo2_history : history g0 (own_store g0) o0 t2 s2.
Proof. exact (proj1 (check_ok _ _ _ _ _ _ demo2_check)). Qed.
Lemma demo2_looks k : In k looks2 -> looks g0 true t2 s2 k.
Proof. exact (proj2 (check_ok _ _ _ _ _ _ demo2_check) k). Qed.
Lemma demo_continues : continues g0 (own_store g0) t1 s1 t2 s2.
Proof. exact (check_cont _ _ _ _ _ _ _ _ _ demo1_check demo2_check). Qed.
Lemma g0_usable : usable_config g0 = true. Proof. reflexivity. Qed.
Ltac in_list := cbn; repeat (first [left; reflexivity | right]).
Ltac look1 k := exact (demo1_looks k ltac:(in_list)).
Ltac look2 k := exact (demo2_looks k ltac:(in_list)).
