(** A second program for the examples: it fills two slabs of 16 KiB slots, frees the slots
    and takes them again. *)
From Coq Require Import String ZArith List Bool Lia.
From Verif Require Import M_Base M_Config M_SizeClass M_OS M_Random M_Slab M_Region M_Api M_Hist S_Slab S_Heap S_Class P_Api2 P_Demo.
Import ListNotations.
Open Scope string_scope.
Open Scope list_scope.
Open Scope Z_scope.

(** the configuration of [g0] without the write-after-free check, so that the examples
    evaluate quickly *)
Definition g1 : config := mkConfig false true true true 1 1 false true 1 2 2 2 33554432 4 1048576 1 true 1048576.
Definition progA : script :=
  [fun _ => (0, OMalloc 16000); fun _ => (0, OMalloc 16000); fun _ => (1, OMalloc 16000); fun _ => (0, OMalloc 16000); fun _ => (0, OMalloc 16000); fun _ => (0, OMalloc 16000);
   fun t => (0, OFree (ptr 0 t)); fun t => (0, OFree (ptr 1 t)); fun t => (0, OFree (ptr 2 t))].
Definition progB : script := progA ++ [fun t => (0, OFree (ptr 3 t))].
Definition progC : script := progB ++ [fun t => (0, OFree (ptr 4 t)); fun t => (0, OFree (ptr 5 t))].
Definition progD : script := progC ++ [fun _ => (0, OMalloc 16000); fun _ => (0, OMalloc 16000)].
Definition progT : script := progC ++ [fun _ => (0, OTrim)].
Definition tA : trace :=
  [mkEv 0 (OFree 25846325248) AUnit; mkEv 0 (OFree 25846308864) AUnit; mkEv 0 (OFree 25846292480) AUnit;
   mkEv 0 (OMalloc 16000) (APtr 25846439936); mkEv 0 (OMalloc 16000) (APtr 25846423552); mkEv 0 (OMalloc 16000) (APtr 25846276096);
   mkEv 1 (OMalloc 16000) (APtr 25846325248); mkEv 0 (OMalloc 16000) (APtr 25846308864); mkEv 0 (OMalloc 16000) (APtr 25846292480)].
Definition tB : trace := mkEv 0 (OFree 25846276096) AUnit :: tA.
Definition tC : trace := mkEv 0 (OFree 25846439936) AUnit :: mkEv 0 (OFree 25846423552) AUnit :: tB.
Definition tD : trace := mkEv 0 (OMalloc 16000) (APtr 25846407168) :: mkEv 0 (OMalloc 16000) (APtr 25846456320) :: tC.
Definition tT : trace := mkEv 0 OTrim (ABool true) :: tC.
Definition sA : state := final g1 o0 true progA.
Definition sB : state := final g1 o0 true progB.
Definition sC : state := final g1 o0 true progC.
Definition sD : state := final g1 o0 true progD.
Definition sT : state := final g1 o0 true progT.
Definition is0 (x : option Z) : bool := match x with Some 0 => true | _ => false end.
Definition isN {A} (x : option A) : bool := match x with None => true | _ => false end.
(** the class of 16 KiB slots *)
Definition c16 (s : state) : size_class := st_cls s 0 36.
Definition cached0 (s : state) : bool := is0 (c_empty (c16 s)) && isN (sb_next (c_slabs (c16 s) 0)).
Definition nocached (s : state) : bool := isN (c_empty (c16 s)).
Definition holds2 (s : state) : bool := occupied (sb_bitmap (c_slabs (c16 s) 2)) 1.
Definition lay (s : state) : bool := (c_start (c16 s) =? 25846276096).
Definition looksA : list look := [LUsable 25846276096 16376; LOther (fun s => st_start s =? 25769803776); LOther (fun s => st_end s =? 25847398400); LOther is_init].
Definition looksC : list look := [LOther cached0; LOther lay; LOther holds2; LOther is_init; LRW 25846276096; LRW 25846407168; LNone 25846341632; LByte 25846341632 0; LOther (fun s => st_start s =? 25769803776); LOther (fun s => st_end s =? 25847398400)].
Definition looksD : list look := [LCall 1 (OMalloc 16000) (APtr 25846276096)].
Definition looksT : list look := [LOther nocached; LNone 25846276096; LOther is_init].
Lemma checkA : check g1 o0 true progA tA looksA = true. Proof. vm_cast_no_check (eq_refl true). Qed.
Lemma checkB : check g1 o0 true progB tB [] = true. Proof. vm_cast_no_check (eq_refl true). Qed.
Lemma checkC : check g1 o0 true progC tC looksC = true. Proof. vm_cast_no_check (eq_refl true). Qed.
Lemma checkD : check g1 o0 true progD tD looksD = true. Proof. vm_cast_no_check (eq_refl true). Qed.
Lemma checkT : check g1 o0 true progT tT looksT = true. Proof. vm_cast_no_check (eq_refl true). Qed.
Lemma check_call g o own l f t tid c a ks ks' : check g o own l t ks = true -> check g o own (l ++ [f]) (mkEv tid c a :: t) ks' = true ->
  calls g (rule g own) t (final g o own l) tid c a (final g o own (l ++ [f])).
Proof.
  unfold check, final. rewrite exec_app. destruct (exec g own l [] (boot g o)) as [[t1 s1]|]; [|discriminate]. rewrite andb_true_iff. unfold trace_eqb. destruct (list_eq_dec event_dec t1 t) as [->|]; [|intros []; discriminate].
  intros _. cbn [exec]. destruct (f t) as [tid' c']. destruct (_ && _) eqn:Q; [|discriminate]. destruct (run (op_run g tid' c') s1) as [[a' s']|] eqn:R; [|discriminate].
  rewrite andb_true_iff. destruct (list_eq_dec event_dec _ _) as [E|]; [|intros []; discriminate]. intros _. injection E as -> -> ->.
  rewrite !andb_true_iff, negb_true_iff in Q. destruct Q as [[[Q1 Q2] Q3] Q4]. unfold calls, table_cleared. split; [auto|]. split; [apply wordsb_ok; auto|]. split; [apply permittedb_ok; auto|]. split; [|exact R].
  destruct own; [apply storeb_ok; auto|destruct c; exact I].
Qed.
Lemma g1_usable : usable_config g1 = true. Proof. reflexivity. Qed.
Lemma histA : history g1 (own_store g1) o0 tA sA. Proof. exact (proj1 (check_ok _ _ _ _ _ _ checkA)). Qed.
Lemma histC : history g1 (own_store g1) o0 tC sC. Proof. exact (proj1 (check_ok _ _ _ _ _ _ checkC)). Qed.
Lemma histD : history g1 (own_store g1) o0 tD sD. Proof. exact (proj1 (check_ok _ _ _ _ _ _ checkD)). Qed.
Lemma callB : calls g1 (own_store g1) tA sA 0 (OFree 25846276096) AUnit sB. Proof. exact (check_call g1 o0 true progA (fun t => (0, OFree (ptr 3 t))) tA 0 (OFree 25846276096) AUnit looksA [] checkA checkB). Qed.
Lemma callT : calls g1 (own_store g1) tC sC 0 OTrim (ABool true) sT. Proof. exact (check_call g1 o0 true progC (fun _ => (0, OTrim)) tC 0 OTrim (ABool true) looksC looksT checkC checkT). Qed.
Lemma contBD : continues g1 (own_store g1) tB sB tD sD.
Proof.
  assert (progD = progB ++ [fun t => (0, OFree (ptr 4 t)); fun t => (0, OFree (ptr 5 t)); fun _ => (0, OMalloc 16000); fun _ => (0, OMalloc 16000)]) as E by (unfold progD, progC; rewrite <- app_assoc; reflexivity).
  unfold sD. pose proof checkD as K. rewrite E in *. exact (check_cont _ _ _ _ _ _ _ _ _ checkB K).
Qed.
Lemma lkA k : In k looksA -> looks g1 true tA sA k. Proof. exact (proj2 (check_ok _ _ _ _ _ _ checkA) k). Qed.
Lemma lkC k : In k looksC -> looks g1 true tC sC k. Proof. exact (proj2 (check_ok _ _ _ _ _ _ checkC) k). Qed.
Lemma lkD k : In k looksD -> looks g1 true tD sD k. Proof. exact (proj2 (check_ok _ _ _ _ _ _ checkD) k). Qed.
Lemma lkT k : In k looksT -> looks g1 true tT sT k. Proof. exact (proj2 (check_ok _ _ _ _ _ _ checkT) k). Qed.
Ltac lkA k := exact (lkA k ltac:(in_list)).
Ltac lkC k := exact (lkC k ltac:(in_list)).
Ltac lkD k := exact (lkD k ltac:(in_list)).
Ltac lkT k := exact (lkT k ltac:(in_list)).
Lemma cached0_ok s : cached0 s = true -> empty_slabs (st_cls s 0 36) [0].
Proof.
  change (st_cls s 0 36) with (c16 s).
  unfold cached0, is0, isN, empty_slabs. destruct (c_empty (c16 s)) as [[]|] eqn:E; try discriminate. destruct (sb_next _) eqn:E2; [discriminate|]. intros _. apply follows_next. rewrite E2. constructor.
Qed.
Lemma nocached_ok s : nocached s = true -> empty_slabs (st_cls s 0 36) [].
Proof. change (st_cls s 0 36) with (c16 s). unfold nocached, isN, empty_slabs. destruct (c_empty (c16 s)); [discriminate|]. constructor. Qed.
Lemma areaA : in_small_area sA 25846276096.
Proof.
  assert ((st_start sA =? 25769803776) = true) as E1 by lkA (LOther (fun s => st_start s =? 25769803776)). assert ((st_end sA =? 25847398400) = true) as E2 by lkA (LOther (fun s => st_end s =? 25847398400)).
  unfold in_small_area. lia.
Qed.
Lemma initC : is_init sC = true. Proof. lkC (LOther is_init). Qed.
Lemma emptyC : empty_slabs (st_cls sC 0 36) [0]. Proof. apply cached0_ok. lkC (LOther cached0). Qed.
Lemma lay_ok s : lay s = true -> in_slab_no g1 s 0 36 2 25846407168 /\ in_slab_no g1 s 0 36 1 25846341632 /\ in_slab_no g1 s 0 36 0 25846276096.
Proof.
  unfold lay. rewrite Z.eqb_eq. intros E. unfold in_slab_no. change (st_cls s 0 36) with (c16 s). rewrite E.
  change (slab_bytes g1 36) with 65536. change (CLASS_REGION_SIZE g1) with 1048576. lia.
Qed.
Lemma slab2C : in_slab_no g1 sC 0 36 2 25846407168 /\ in_slab_no g1 sC 0 36 1 25846341632 /\ in_slab_no g1 sC 0 36 0 25846276096.
Proof. apply lay_ok. lkC (LOther lay). Qed.
Lemma holds2_ok s : holds2 s = true -> holds (st_cls s 0 36) 2.
Proof. intros H. exists 1. split; [lia|exact H]. Qed.
Lemma empty_cached c : empty_slabs c [0] -> cached c 0. Proof. intros H. exists [0]. split; [exact H|left; reflexivity]. Qed.
Lemma empty_none c i : empty_slabs c [] -> ~ cached c i.
Proof. intros N (l & H & I). unfold empty_slabs in *. inversion N as [E|]. rewrite <- E in H. inversion H; subst. destruct I. Qed.
Lemma emptyT : empty_slabs (st_cls sT 0 36) []. Proof. apply nocached_ok. lkT (LOther nocached). Qed.
Lemma holdsC : holds (st_cls sC 0 36) 2. Proof. apply holds2_ok. lkC (LOther holds2). Qed.
