(** More programs for the examples: slabs that are purged and used again, and stray writes. *)
From Coq Require Import String ZArith List Bool Lia.
From Verif Require Import M_Base M_Config M_SizeClass M_OS M_Random M_Slab M_Region M_Api M_Hist S_Slab S_Heap S_Class P_Api2 P_Demo P_Demo2.
Import ListNotations.
Open Scope string_scope.
Open Scope list_scope.
Open Scope Z_scope.

(** ** purged slabs *)
Definition mm : trace -> Z * op := fun _ => (0, OMalloc 16000).
Definition fr (n : nat) : trace -> Z * op := fun t => (0, OFree (ptr n t)).
Definition tm : trace -> Z * op := fun _ => (0, OTrim).
Definition progX : script := repeat mm 12 ++ map fr (seq 0 12) ++ [tm] ++ repeat mm 10 ++ map fr (seq 25 7).
Definition progU : script := progX ++ [fr 32].
Definition progM : script := progU ++ [fr 33; fr 34; tm].
Definition progV : script := progM ++ repeat mm 7.
Definition run_trace (g : config) (own : bool) (l : script) : trace := match exec g own l [] (boot g o0) with Some (t, _) => t | None => [] end.
Definition tX : trace := Eval vm_compute in run_trace g1 true progX.
Definition tU : trace := mkEv 0 (OFree 25846816768) AUnit :: tX.
Definition tM : trace := mkEv 0 OTrim (ABool true) :: mkEv 0 (OFree 25846800384) AUnit :: mkEv 0 (OFree 25846833152) AUnit :: tU.
Definition tV : trace := [mkEv 0 (OMalloc 16000) (APtr 25846685696); mkEv 0 (OMalloc 16000) (APtr 25846423552); mkEv 0 (OMalloc 16000) (APtr 25846407168);
  mkEv 0 (OMalloc 16000) (APtr 25846456320); mkEv 0 (OMalloc 16000) (APtr 25846439936); mkEv 0 (OMalloc 16000) (APtr 25846849536); mkEv 0 (OMalloc 16000) (APtr 25846816768)] ++ tM.
Definition sX : state := final g1 o0 true progX.
Definition sU : state := final g1 o0 true progU.
Definition sM : state := final g1 o0 true progM.
Definition sV : state := final g1 o0 true progV.
Definition held (i : Z) (s : state) : bool := existsb (fun j => occupied (sb_bitmap (c_slabs (c16 s) i)) j) [0; 1; 2; 3].
Definition vacant (i : Z) (s : state) : bool := forallb (fun j => negb (occupied (sb_bitmap (c_slabs (c16 s) i)) j)) (map Z.of_nat (seq 0 256)).
Definition oeq (x y : option Z) : bool := match x, y with None, None => true | Some a, Some b => a =? b | _, _ => false end.
Definition empty4 (s : state) : bool := oeq (c_empty (c16 s)) (Some 4) && oeq (sb_next (c_slabs (c16 s) 4)) None.
Definition waits6 (s : state) : bool := existsb (oeq (Some 6)) (c_fq (c16 s)).
Definition list2 (s : state) : bool := oeq (c_fhead (c16 s)) (Some 2) && oeq (sb_next (c_slabs (c16 s) 2)) None.
Definition list26 (s : state) : bool := oeq (c_fhead (c16 s)) (Some 2) && oeq (sb_next (c_slabs (c16 s) 2)) (Some 6) && oeq (sb_next (c_slabs (c16 s) 6)) None.
Definition looksX : list look := [LOther is_init; LOther (held 6)].
Definition looksU : list look := [LOther is_init; LOther waits6; LOther (vacant 6); LOther empty4; LOther list2].
Definition looksM : list look := [LOther is_init; LOther list26].
Definition looksV : list look := [LOther (held 6)].
Lemma checkX : check g1 o0 true progX tX looksX = true. Proof. vm_cast_no_check (eq_refl true). Qed.
Lemma checkU : check g1 o0 true progU tU looksU = true. Proof. vm_cast_no_check (eq_refl true). Qed.
Lemma checkM : check g1 o0 true progM tM looksM = true. Proof. vm_cast_no_check (eq_refl true). Qed.
Lemma checkV : check g1 o0 true progV tV looksV = true. Proof. vm_cast_no_check (eq_refl true). Qed.
Lemma histX : history g1 (own_store g1) o0 tX sX. Proof. exact (proj1 (check_ok _ _ _ _ _ _ checkX)). Qed.
Lemma histU : history g1 (own_store g1) o0 tU sU. Proof. exact (proj1 (check_ok _ _ _ _ _ _ checkU)). Qed.
Lemma histM : history g1 (own_store g1) o0 tM sM. Proof. exact (proj1 (check_ok _ _ _ _ _ _ checkM)). Qed.
Lemma callU : calls g1 (own_store g1) tX sX 0 (OFree 25846816768) AUnit sU. Proof. exact (check_call g1 o0 true progX (fr 32) tX 0 (OFree 25846816768) AUnit looksX looksU checkX checkU). Qed.
Lemma contMV : continues g1 (own_store g1) tM sM tV sV. Proof. exact (check_cont _ _ _ _ _ _ _ _ _ checkM checkV). Qed.
Lemma contUV : continues g1 (own_store g1) tU sU tV sV.
Proof.
  assert (progV = progU ++ ([fr 33; fr 34; tm] ++ repeat mm 7)) as E by (unfold progV, progM; rewrite <- app_assoc; reflexivity).
  unfold sV. pose proof checkV as K. rewrite E in *. exact (check_cont _ _ _ _ _ _ _ _ _ checkU K).
Qed.
Lemma lkX k : In k looksX -> looks g1 true tX sX k. Proof. exact (proj2 (check_ok _ _ _ _ _ _ checkX) k). Qed.
Lemma lkU k : In k looksU -> looks g1 true tU sU k. Proof. exact (proj2 (check_ok _ _ _ _ _ _ checkU) k). Qed.
Lemma lkM k : In k looksM -> looks g1 true tM sM k. Proof. exact (proj2 (check_ok _ _ _ _ _ _ checkM) k). Qed.
Lemma lkV k : In k looksV -> looks g1 true tV sV k. Proof. exact (proj2 (check_ok _ _ _ _ _ _ checkV) k). Qed.
Ltac lkX k := exact (lkX k ltac:(in_list)).
Ltac lkU k := exact (lkU k ltac:(in_list)).
Ltac lkM k := exact (lkM k ltac:(in_list)).
Ltac lkV k := exact (lkV k ltac:(in_list)).
Lemma oeq_ok x y : oeq x y = true -> x = y.
Proof. destruct x, y; cbn; try discriminate; auto. rewrite Z.eqb_eq. congruence. Qed.
Lemma held_ok i s : held i s = true -> holds (st_cls s 0 36) i.
Proof.
  unfold held. rewrite existsb_exists. intros (j & Hj & O). exists j. split; [|exact O]. cbn in Hj. intuition lia.
Qed.
Lemma vacant_ok i s : vacant i s = true -> ~ holds (st_cls s 0 36) i.
Proof.
  unfold vacant. rewrite forallb_forall. intros H (j & Hj & O). specialize (H j). assert (In j (map Z.of_nat (seq 0 256))) as I.
  { apply in_map_iff. exists (Z.to_nat j). split; [lia|]. apply in_seq. lia. }
  specialize (H I). change (c16 s) with (st_cls s 0 36) in H. rewrite O in H. discriminate.
Qed.
Lemma waits6_ok s : waits6 s = true -> waiting (st_cls s 0 36) 6.
Proof. unfold waits6, waiting. rewrite existsb_exists. intros (x & Hx & O). apply oeq_ok in O. rewrite O. exact Hx. Qed.
Lemma empty4_ok s : empty4 s = true -> ~ cached (st_cls s 0 36) 6.
Proof.
  unfold empty4. rewrite andb_true_iff. intros [H1 H2] (l & F & I). apply oeq_ok in H1, H2. unfold empty_slabs in F. change (c16 s) with (st_cls s 0 36) in *. rewrite H1 in F. inversion F as [|x l' F' Ex Ey]; subst.
  rewrite H2 in F'. inversion F'; subst. destruct I as [I|[]]. lia.
Qed.
Lemma list2_ok s : list2 s = true -> purged_slabs (st_cls s 0 36) [2].
Proof. unfold list2. rewrite andb_true_iff. intros [H1 H2]. apply oeq_ok in H1, H2. unfold purged_slabs. change (c16 s) with (st_cls s 0 36) in *. rewrite H1. apply follows_next. rewrite H2. constructor. Qed.
Lemma list26_ok s : list26 s = true -> purged_slabs (st_cls s 0 36) [2; 6].
Proof.
  unfold list26. rewrite !andb_true_iff. intros [[H1 H2] H3]. apply oeq_ok in H1, H2, H3. unfold purged_slabs. change (c16 s) with (st_cls s 0 36) in *. rewrite H1. apply follows_next. rewrite H2. apply follows_next. rewrite H3. constructor.
Qed.

(** ** stray writes *)
Definition progP : script := demo1.
Definition progQ : script := demo1 ++ [fun _ => (0, OMalloc 90)].
(** the first byte of the canary of the new block 25784835920, which has 104 usable bytes *)
Definition progK : script := progQ ++ [fun t => (0, OWrite (ptr 9 t + 107) 7)].
Definition tQ : trace := mkEv 0 (OMalloc 90) (APtr 25784835920) :: t1.
Definition tK : trace := mkEv 0 (OWrite 25784836027 7) AUnit :: tQ.
Definition sP : state := final g0 o0 false progP.
Definition sQ : state := final g0 o0 false progQ.
Definition sK : state := final g0 o0 false progK.
Definition slab7 (s : state) : bool := (c_start (st_cls s 0 7) =? 25784832000) && negb (number_at s 25784836024 =? sb_canary (c_slabs (st_cls s 0 7) 0)).
Definition slab7_eq (s : state) : bool := (c_start (st_cls s 0 7) =? 25784832000) && (number_at s 25784836024 =? sb_canary (c_slabs (st_cls s 0 7) 0)).
Definition bytes8 (s : state) : bool := forallb (fun i => (0 <=? content s (25784836024 + i)) && (content s (25784836024 + i) <? 256)) [0; 1; 2; 3; 4; 5; 6; 7].
Definition differs (s : state) : bool := negb (content s 25784836027 =? 7).
Definition looksP : list look := [LOther is_init].
Definition looksQ : list look := [LOther slab7_eq; LOther bytes8; LOther differs; LOther (fun s => (st_start s =? 25769803776) && (st_end s =? 25847398400)); LUsable 25784835920 104; LByte 25784836024 0].
Definition looksK : list look := [LEnd 0 (OFree 25784835920) (Fatal "canary corrupted"); LEnd 0 (OUsableSize 25784835920) (Fatal "canary corrupted");
  LEnd 0 (ORealloc 25784835920 5000) (Fatal "canary corrupted"); LCall 0 (ORealloc 25784835920 100) (APtr 25784835920); LByte 25784836027 7; LOther slab7; LOther bytes8].
Lemma checkP : check g0 o0 false progP t1 looksP = true. Proof. vm_cast_no_check (eq_refl true). Qed.
Lemma checkQ : check g0 o0 false progQ tQ looksQ = true. Proof. vm_cast_no_check (eq_refl true). Qed.
Lemma checkK : check g0 o0 false progK tK looksK = true. Proof. vm_cast_no_check (eq_refl true). Qed.
Lemma histP : history g0 any_store o0 t1 sP. Proof. exact (proj1 (check_ok _ _ _ _ _ _ checkP)). Qed.
Lemma histQ : history g0 any_store o0 tQ sQ. Proof. exact (proj1 (check_ok _ _ _ _ _ _ checkQ)). Qed.
Lemma histK : history g0 any_store o0 tK sK. Proof. exact (proj1 (check_ok _ _ _ _ _ _ checkK)). Qed.
Lemma callQ : calls g0 any_store t1 sP 0 (OMalloc 90) (APtr 25784835920) sQ. Proof. exact (check_call g0 o0 false progP (fun _ => (0, OMalloc 90)) t1 0 (OMalloc 90) (APtr 25784835920) looksP looksQ checkP checkQ). Qed.
Lemma contK : continues g0 any_store tQ sQ tK sK. Proof. exact (check_cont _ _ _ _ _ _ _ _ _ checkQ checkK). Qed.
Lemma lkP k : In k looksP -> looks g0 false t1 sP k. Proof. exact (proj2 (check_ok _ _ _ _ _ _ checkP) k). Qed.
Lemma lkQ k : In k looksQ -> looks g0 false tQ sQ k. Proof. exact (proj2 (check_ok _ _ _ _ _ _ checkQ) k). Qed.
Lemma lkK k : In k looksK -> looks g0 false tK sK k. Proof. exact (proj2 (check_ok _ _ _ _ _ _ checkK) k). Qed.
Ltac lkP k := exact (lkP k ltac:(in_list)).
Ltac lkQ k := exact (lkQ k ltac:(in_list)).
Ltac lkK k := exact (lkK k ltac:(in_list)).
Lemma bytes8_ok s : bytes8 s = true -> bytes_at s (25784835920 + 104) (25784835920 + 104 + 8).
Proof.
  unfold bytes8, bytes_at. rewrite forallb_forall. intros H x Hx. specialize (H (x - 25784836024)). replace (25784836024 + (x - 25784836024)) with x in H by lia.
  assert (In (x - 25784836024) [0; 1; 2; 3; 4; 5; 6; 7]) as I by (cbn; lia). specialize (H I). lia.
Qed.
Lemma slab7_ok s : slab7 s = true -> exists v, canary_of g0 s 25784835920 104 v /\ number_at s (25784835920 + 104) <> v.
Proof.
  unfold slab7. rewrite andb_true_iff, negb_true_iff, Z.eqb_neq, Z.eqb_eq. intros [H1 H2]. exists (sb_canary (c_slabs (st_cls s 0 7) 0)). split; [|exact H2].
  exists 0, 7, 0. split; [unfold exists_class; cbn; lia|]. split; [discriminate|]. split; [|split; reflexivity]. unfold in_slab_no. rewrite H1. change (slab_bytes g0 7) with 4096. cbn; lia.
Qed.
Lemma slab7_eq_ok s : slab7_eq s = true -> exists v, canary_of g0 s 25784835920 104 v /\ number_at s (25784835920 + 104) = v.
Proof.
  unfold slab7_eq. rewrite andb_true_iff, !Z.eqb_eq. intros [H1 H2]. exists (sb_canary (c_slabs (st_cls s 0 7) 0)). split; [|exact H2].
  exists 0, 7, 0. split; [unfold exists_class; cbn; lia|]. split; [discriminate|]. split; [|split; reflexivity]. unfold in_slab_no. rewrite H1. change (slab_bytes g0 7) with 4096. cbn; lia.
Qed.
Lemma areaQ : in_small_area sQ 25784835920.
Proof.
  pose proof (lkQ (LOther (fun s => (st_start s =? 25769803776) && (st_end s =? 25847398400))) ltac:(in_list)) as H. cbn [looks] in H. revert H. generalize sQ. intros s H. apply andb_prop in H. unfold in_small_area. lia.
Qed.

(** the slot that the next call of malloc for its size is going to hand out *)
Definition progW : script := demo1 ++ firstn 3 demo2 ++ [fun _ => (0, OWrite 25784835363 1)].
Definition tW : trace :=
  [mkEv 0 (OWrite 25784835363 1) AUnit;
   mkEv 0 (ORealloc 64424538112 100000) (APtr 64424538112);
   mkEv 0 (OFree 25793651232) AUnit;
   mkEv 0 (OMalloc 90) (APtr 25784835920)] ++ t1.
Definition sW : state := final g0 o0 false progW.
Definition looksW : list look := [LEnd 0 (OMalloc 104) (Fatal "detected write after free"); LByte 25784835363 1].
Lemma checkW : check g0 o0 false progW tW looksW = true. Proof. vm_cast_no_check (eq_refl true). Qed.
Lemma histW : history g0 any_store o0 tW sW. Proof. exact (proj1 (check_ok _ _ _ _ _ _ checkW)). Qed.
Lemma lkW k : In k looksW -> looks g0 false tW sW k. Proof. exact (proj2 (check_ok _ _ _ _ _ _ checkW) k). Qed.
Ltac lkW k := exact (lkW k ltac:(in_list)).
