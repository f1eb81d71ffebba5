(** Programs for the examples about the statistics. *)
From Coq Require Import String ZArith List Bool Lia.
From Verif Require Import M_Base M_Config M_SizeClass M_OS M_Random M_Slab M_Region M_Api M_Hist M_Stats S_Heap S_Class S_Stats P_Api2 P_Demo.
Import ListNotations.
Open Scope Z_scope.

Definition demo5 : script :=
  [fun _ => (0, OMalloc 200000); fun _ => (0, OMalloc 100); fun _ => (1, OMalloc 100); fun _ => (0, OMalloc 150000); fun t => (0, OFree (ptr 1 t)); fun t => (1, ORealloc (ptr 0 t) 100000);
   fun _ => (0, OCalloc 300 1000); fun t => (1, OFree (ptr 3 t)); fun _ => (0, OMalloc 0)].
Definition t5 : trace :=
  [mkEv 0 (OMalloc 0) (APtr 25770672192); mkEv 1 (OFree 51539619840) AUnit; mkEv 0 (OCalloc 300 1000) (APtr 68719509504); mkEv 1 (ORealloc 34359767040 100000) (APtr 34359767040);
   mkEv 0 (OFree 25784834800) AUnit; mkEv 0 (OMalloc 150000) (APtr 51539619840); mkEv 1 (OMalloc 100) (APtr 25784835920); mkEv 0 (OMalloc 100) (APtr 25784834800); mkEv 0 (OMalloc 200000) (APtr 34359767040)].
(** a large block with a large alignment, and the same block freed *)
Definition demo6 : script := [fun _ => (0, OMalloc 100); fun _ => (0, OMemalign 65536 200000)].
Definition t6 : trace := [mkEv 0 (OMemalign 65536 200000) (APtr 42949738496); mkEv 0 (OMalloc 100) (APtr 25784834800)].
Definition demo7 : script := demo6 ++ [fun t => (0, OFree (ptr 1 t))].
Definition t7 : trace := mkEv 0 (OFree 42949738496) AUnit :: t6.
Definition info_eqb (a b : mallinfo) : bool :=
  (hblkhd a =? hblkhd b) && (ordblks a =? ordblks b) && (uordblks a =? uordblks b) && (fordblks a =? fordblks b) && (fsmblks a =? fsmblks b) && (usmblks a =? usmblks b).
Definition says (p : prog state mallinfo) (i : mallinfo) (s : state) : bool := match run p s with Ok (r, _) => info_eqb r i | Fail _ => false end.
Lemma says_ok p i s r : says p i s = true -> reports s p r -> r = i.
Proof.
  unfold says. intros H (s' & E & _). rewrite E in H. unfold info_eqb in H. destruct r, i. cbn in H. rewrite !andb_true_iff, !Z.eqb_eq in H. destruct H as [[[[[-> ->] ->] ->] ->] ->]. reflexivity.
Qed.
Definition s5 : state := final g0 o0 true demo5.
Definition s6 : state := final g0 o0 true demo6.
Definition s7 : state := final g0 o0 true demo7.
Definition looks5 : list look :=
  [LOther is_init; LOther (fun s => large_used g0 s t5 =? 442368);
   LOther (says (h_mallinfo2 g0) (mkInfo 450560 0 442496 8064 0 450560)); LOther (says (h_mallinfo_arena_info g0 1) (mkInfo 442368 0 442368 0 0 0));
   LOther (says (h_mallinfo_arena_info g0 0) (mkInfo 8192 0 0 0 128 0)); LOther (says (h_mallinfo_bin_info g0 0 7) (mkInfo 0 112 2 1 0 0))].
Definition looks6 : list look := [LOther is_init; LOther (fun s => large_used g0 s t6 =? 229376); LOther (says (h_mallinfo_arena_info g0 1) (mkInfo 0 0 0 0 0 0))].
Definition looks7 : list look :=
  [LOther is_init; LOther (fun s => large_used g0 s t7 =? 0); LOther (says (h_mallinfo_arena_info g0 1) (mkInfo 18446744073709322240 0 18446744073709322240 0 0 0))].
Lemma demo5_check : check g0 o0 true demo5 t5 looks5 = true.
Proof. vm_cast_no_check (eq_refl true). Qed.
Lemma demo6_check : check g0 o0 true demo6 t6 looks6 = true.
Proof. vm_cast_no_check (eq_refl true). Qed.
Lemma demo7_check : check g0 o0 true demo7 t7 looks7 = true.
Proof. vm_cast_no_check (eq_refl true). Qed.
Lemma demo5_history : history g0 (own_store g0) o0 t5 s5.
Proof. exact (proj1 (check_ok _ _ _ _ _ _ demo5_check)). Qed.
Lemma demo6_history : history g0 (own_store g0) o0 t6 s6.
Proof. exact (proj1 (check_ok _ _ _ _ _ _ demo6_check)). Qed.
Lemma demo7_history : history g0 (own_store g0) o0 t7 s7.
Proof. exact (proj1 (check_ok _ _ _ _ _ _ demo7_check)). Qed.
Lemma demo5_looks k : In k looks5 -> looks g0 true t5 s5 k.
Proof. exact (proj2 (check_ok _ _ _ _ _ _ demo5_check) k). Qed.
Lemma demo6_looks k : In k looks6 -> looks g0 true t6 s6 k.
Proof. exact (proj2 (check_ok _ _ _ _ _ _ demo6_check) k). Qed.
Lemma demo7_looks k : In k looks7 -> looks g0 true t7 s7 k.
Proof. exact (proj2 (check_ok _ _ _ _ _ _ demo7_check) k). Qed.
Lemma ordinary5 : ordinary t5.
Proof. intros e He. cbn in He. repeat (destruct He as [<-|He]; [cbn; lia|]). destruct He. Qed.
