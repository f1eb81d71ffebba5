(** Configurations that the compile-time checks accept. *)
From Coq Require Import String ZArith List Bool Lia.
From Verif Require Import M_Base M_Config M_SizeClass M_OS M_Random M_Slab M_Region M_Api M_Hist S_Heap S_Random P_Random2 P_Random3 P_Api2 P_Demo P_Refute.
Import ListNotations.
Open Scope string_scope.
Open Scope list_scope.
Open Scope Z_scope.

Lemma u16_uniform_wrap bound s : get_random_u16_uniform bound s = get_random_u16_uniform (bound mod 2 ^ 16) s.
Proof. unfold get_random_u16_uniform, w16. change (2 ^ 16) with 65536. rewrite Z.mod_mod by lia. reflexivity. Qed.
Lemma C49_in_range bound s v s' : 0 < bound -> rng_reachable s -> get_random_u16_uniform bound s = Ok (v, s') -> 0 <= v < bound.
Proof.
  intros B R E. rewrite u16_uniform_wrap in E. assert (0 <= bound mod 2 ^ 16 < 2 ^ 16 /\ bound mod 2 ^ 16 <= bound) as (C & L) by (split; [apply Z.mod_pos_bound; lia|apply Z.mod_le; lia]).
  destruct (u16_single_draw _ _ _ _ C R E) as (x & _ & X & ->). split; [apply Z.div_pos; nia|]. apply Z.div_lt_upper_bound; [lia|]. nia.
Qed.
Lemma C49_whole bound i : 0 <= i < bound -> bound <= 65535 -> exists x, 0 <= x < 65536 /\ x * (bound mod 65536) / 65536 = i.
Proof.
  intros I B. rewrite (Z.mod_small bound) by lia. exists ((i * 65536 + bound - 1) / bound).
  pose proof (Z.div_mod (i * 65536 + bound - 1) bound ltac:(lia)) as D. pose proof (Z.mod_pos_bound (i * 65536 + bound - 1) bound ltac:(lia)) as M. set (x := (i * 65536 + bound - 1) / bound) in *.
  split; [split; [apply Z.div_pos; nia|apply Z.div_lt_upper_bound; nia]|]. symmetry. apply Z.div_unique with (r := x * bound - i * 65536); nia.
Qed.
Lemma C49_truncated bound s v s' : 0 <= bound -> bound mod 65536 = 0 -> rng_reachable s -> get_random_u16_uniform bound s = Ok (v, s') -> v = 0.
Proof.
  intros B T R E. rewrite u16_uniform_wrap in E. change (2 ^ 16) with 65536 in E. rewrite T in E. destruct (u16_single_draw 0 _ _ _ ltac:(lia) R E) as (x & _ & X & ->). rewrite Z.mul_0_r. reflexivity.
Qed.

(** a slab quarantine of 8 entries per 128 KiB *)
Definition g49a : config := mkConfig true true true true 8 0 true true 1 2 2 2 33554432 4 1048576 1 true 1048576.
Lemma C49_bad_random : exists (g : config), static_asserts g = true /\ usable_config g = true /\
  slab_quarantine_random_length g 16 = 65536 /\ forall s v s', rng_reachable s -> get_random_u16_uniform (slab_quarantine_random_length g 16) s = Ok (v, s') -> v = 0.
Proof. exists g49a. split; [reflexivity|]. split; [reflexivity|]. split; [reflexivity|]. intros s v s'. apply C49_truncated; [vm_compute; discriminate|reflexivity]. Qed.

(** no array for the free slabs *)
Definition g49b : config := mkConfig true true true true 0 0 true true 1 2 2 2 33554432 0 1048576 1 true 1048576.
Definition l49 : script := [fun _ => (0, OMalloc 131064); fun _ => (0, OMalloc 131064); fun t => (0, OFree (ptr 0 t))].
Lemma l49_check : checkf g49b o0 l49 (fun t s => ownsb t (ptr 1 t) (OMalloc 131064) && faultb (run (op_run g49b 0 (OFree (ptr 1 t)))) s (UB "array index out of bounds")) = true.
Proof. vm_cast_no_check (eq_refl true). Qed.
Lemma C49_bad_free_slabs : exists (g : config) (o : os) (t : trace) (s : state) (p tid : Z) (m : string),
  static_asserts g = true /\ history g (own_store g) o t s /\ is_live t p /\ run (op_run g tid (OFree p)) s = Fail (UB m).
Proof.
  destruct (checkf_ok _ _ _ _ l49_check) as (t & s & H & C). apply andb_true_iff in C. destruct C as [C1 C2].
  exists g49b, o0, t, s, (ptr 1 t), 0, "array index out of bounds". split; [reflexivity|]. split; [exact H|]. split; [eexists; apply ownsb_ok, C1|exact (faultb_ok _ _ _ C2)].
Qed.
(** a class region that is not a multiple of the page size: the kernel grants everything and
    yet the first small allocation ends the process *)
Definition g49c : config := mkConfig true true true true 1 1 false true 1 2 2 2 33554432 4 1048577 1 true 1048576.
Lemma l49c_check : faultb (run (op_run g49c 0 (OMalloc 16))) (boot g49c o0) (Fatal "non-ENOMEM mprotect failure") = true.
Proof. vm_cast_no_check (eq_refl true). Qed.
Lemma C49_bad_region : exists (g : config) (o : os) (tid n : Z) (f : fault),
  static_asserts g = true /\ (forall k, sa_errno (sysq o k) = 0) /\ run (op_run g tid (OMalloc n)) (boot g o) = Fail f /\ kernel_abort f /\ n = 16.
Proof.
  exists g49c, o0, 0, 16, (Fatal "non-ENOMEM mprotect failure"). split; [reflexivity|]. split; [reflexivity|]. split; [exact (faultb_ok _ _ _ l49c_check)|]. split; [|reflexivity]. right. cbn. tauto.
Qed.
