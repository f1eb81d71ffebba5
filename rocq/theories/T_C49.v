(** C49: the configured lengths of the random quarantines. *)
From Coq Require Import String ZArith List Bool Lia.
From Verif Require Import M_Base M_Config M_SizeClass M_OS M_Random M_Slab M_Region M_Api M_Hist S_Random S_Heap P_Conf T_C30.
Import ListNotations.
Open Scope Z_scope.

(** an index drawn for an array of [n] entries is inside it, whatever [n] the configuration
    gives, unless it is 0 *)
Theorem C49_index_inside_partial : forall (n : Z) (s : rstate) (v : Z) (s' : rstate),
  0 < n -> rng_reachable s -> get_random_u16_uniform n s = Ok (v, s') -> 0 <= v < n.
Proof. exact C49_in_range. Qed.
Print Assumptions C49_index_inside_partial.

(** up to 65535 entries every index is the image of a 16-bit random value (the image is the
    one of [C31_u16_never_rejects]) *)
Theorem C49_whole_array_partial : forall (n i : Z), 0 <= i < n -> n <= 65535 ->
  exists x, 0 <= x < 65536 /\ x * (n mod 65536) / 65536 = i.
Proof. exact C49_whole. Qed.
Print Assumptions C49_whole_array_partial.

(** beyond that it is false of the code: an accepted configuration whose quarantine for
    16-byte blocks should have 65536 entries uses only the first one *)
Theorem C49_whole_array_refuted : exists g : config, static_asserts g = true /\ usable_config g = true /\
  slab_quarantine_random_length g 16 = 65536 /\
  forall s v s', rng_reachable s -> get_random_u16_uniform (slab_quarantine_random_length g 16) s = Ok (v, s') -> v = 0.
Proof. exact C49_bad_random. Qed.
Print Assumptions C49_whole_array_refuted.

(** an accepted configuration with which freeing a live block indexes outside the free slab
    quarantine *)
Theorem C49_free_slabs_refuted : exists (g : config) (o : os) (t : trace) (s : state) (p tid : Z) (m : string),
  static_asserts g = true /\ history g (own_store g) o t s /\ is_live t p /\ run (op_run g tid (OFree p)) s = Fail (UB m).
Proof. exact C49_bad_free_slabs. Qed.
Print Assumptions C49_free_slabs_refuted.

(** an accepted configuration whose first small allocation ends the process although the
    kernel grants every request *)
Theorem C49_region_size_refuted : exists (g : config) (o : os) (tid n : Z) (f : fault),
  static_asserts g = true /\ (forall k, sa_errno (sysq o k) = 0) /\ run (op_run g tid (OMalloc n)) (boot g o) = Fail f /\ kernel_abort f /\ n = 16.
Proof. exact C49_bad_region. Qed.
Print Assumptions C49_region_size_refuted.

(** non-vacuity: the default quarantine of 16-byte blocks has 8192 entries *)
Example C49_case : slab_quarantine_random_length default_config 16 = 8192 /\ rng_reachable ex_rng /\ exists v s', get_random_u16_uniform 8192 ex_rng = Ok (v, s').
Proof.
  split; [reflexivity|]. split; [exact (proj1 C30_case)|].
  destruct (get_random_u16_uniform 8192 ex_rng) as [[v s']|] eqn:E; vm_compute in E; [|discriminate]. eauto.
Qed.
