(** C08: free returns for NULL and live pointers only; every other pointer aborts. *)
From Coq Require Import String ZArith List Bool Lia.
From Verif Require Import M_Base M_Config M_SizeClass M_OS M_Slab M_Region M_Api M_Hist S_SizeClass S_Heap
  P_Api3 P_Api4 P_Api5 P_Api6 P_Api7 P_Demo P_Refute.
Import ListNotations.
Open Scope Z_scope.

(** whatever the program stored anywhere: a free that returns was given NULL or a live pointer *)
Theorem C08_returns_only_if_live : forall (g : config) (W : store_rule) (o : os) (t : trace) (s : state) (tid p : Z) (a : ans) (s' : state),
  usable_config g = true -> history g W o t s ->
  calls g W t s tid (OFree p) a s' -> p = 0 \/ is_live t p.
Proof. exact C08_only_live. Qed.
Print Assumptions C08_returns_only_if_live.

(** every other 64-bit value ends the process with a fatal error *)
Theorem C08_invalid_aborts : forall (g : config) (W : store_rule) (o : os) (t : trace) (s : state) (tid p : Z),
  usable_config g = true -> history g W o t s ->
  word p -> p <> 0 -> ~ is_live t p -> exists m, run (op_run g tid (OFree p)) s = Fail (Fatal m).
Proof. exact C08_aborts. Qed.
Print Assumptions C08_invalid_aborts.

(** a valid free returns, unless the kernel fails unexpectedly, if the program stores only inside its blocks *)
Theorem C08_valid_returns : forall (g : config) (o : os) (t : trace) (s : state) (tid p : Z),
  usable_config g = true -> history g (own_store g) o t s ->
  word p -> p = 0 \/ is_live t p ->
  (exists s', run (op_run g tid (OFree p)) s = Ok (AUnit, s')) \/
  (exists f, run (op_run g tid (OFree p)) s = Fail f /\ kernel_abort f).
Proof. exact C08_valid. Qed.
Print Assumptions C08_valid_returns.

(** a double free, an interior pointer and a foreign pointer *)
Example C08_case :
  history g0 (own_store g0) o0 t1 s1 /\ ~ is_live t1 25797181888 /\ ~ is_live t1 25784834816 /\ is_live t1 25784834800 /\
  run (op_run g0 0 (OFree 25797181888)) s1 = Fail (Fatal "double free (quarantine)") /\
  run (op_run g0 0 (OFree 25784834816)) s1 = Fail (Fatal "invalid unaligned free") /\
  run (op_run g0 0 (OFree 12345)) s1 = Fail (Fatal "invalid free") /\
  (exists s', calls g0 (own_store g0) t1 s1 0 (OFree 25784834800) AUnit s').
Proof.
  split; [exact demo1_history|].
  split; [intros (c & I); cbn in I; intuition congruence|]. split; [intros (c & I); cbn in I; intuition congruence|]. split; [eexists; cbn; eauto 10|].
  split; [destruct (demo1_looks (LEnd 0 (OFree 25797181888) (Fatal "double free (quarantine)")) ltac:(in_list)) as (_ & _ & _ & _ & E); exact E|].
  split; [destruct (demo1_looks (LEnd 0 (OFree 25784834816) (Fatal "invalid unaligned free")) ltac:(in_list)) as (_ & _ & _ & _ & E); exact E|].
  split; [destruct (demo1_looks (LEnd 0 (OFree 12345) (Fatal "invalid free")) ltac:(in_list)) as (_ & _ & _ & _ & E); exact E|].
  look1 (LCall 0 (OFree 25784834800) AUnit).
Qed.
