(** C30: random choices are in range. *)
From Coq Require Import String ZArith List Lia.
From Verif Require Import M_Base M_OS M_Random S_Random P_Random2.
Import ListNotations.
Open Scope Z_scope.

(** In every reachable generator state, for every entropy and every bound.  [Retry]
    is the outcome of a draw rejected more often than the (arbitrary) bound on
    retries of the model. *)
Theorem C30_u16_in_range : forall (s : rstate) (bound : Z),
  rng_reachable s -> 0 <= bound < 2 ^ 16 ->
  match get_random_u16_uniform bound s with
  | Ok (v, _) => if bound =? 0 then v = 0 else 0 <= v < bound
  | Fail f => f = Retry \/ f = Fatal "getrandom failed"
  end.
Proof. exact u16_range_thm. Qed.
Print Assumptions C30_u16_in_range.

Theorem C30_u64_in_range : forall (s : rstate) (bound : Z),
  rng_reachable s -> 0 <= bound < 2 ^ 64 ->
  match get_random_u64_uniform bound s with
  | Ok (v, _) => if bound =? 0 then v = 0 else 0 <= v < bound
  | Fail f => f = Retry \/ f = Fatal "getrandom failed"
  end.
Proof. exact u64_range_thm. Qed.
Print Assumptions C30_u64_in_range.

(** non-vacuity: a system whose getrandom is interrupted once and then delivers
    short reads; seeding, then a bounded draw *)
Definition ex_os : os :=
  mkOs (fun _ => None) (fun _ => 0) (fun _ => mkSysans 0 0) 0
       (fun i => match i with O => mkEntans 4 [] | S O => mkEntans 0 [7; 8; 9] | _ => mkEntans 0 (repeat 5 300) end) 0 10 0.
Definition ex_rng0 : rstate := mkRst ex_os rng_zero.
Definition ex_rng : rstate := match random_state_init ex_rng0 with Ok (_, s) => s | Fail _ => ex_rng0 end.
Example C30_case : rng_reachable ex_rng /\
  exists v s', get_random_u64_uniform 1000 ex_rng = Ok (v, s') /\ 0 <= v < 1000.
Proof.
  split.
  - apply (rr_init ex_rng0); [reflexivity|]. vm_compute. reflexivity.
  - destruct (get_random_u64_uniform 1000 ex_rng) as [[v s']|] eqn:E; vm_compute in E; [|discriminate].
    exists v, s'. split; [reflexivity|]. injection E as <- _. lia.
Qed.
