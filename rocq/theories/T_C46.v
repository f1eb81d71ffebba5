(** C46: fatal errors are reported completely. *)
From Coq Require Import String Ascii Arith List Lia.
From Verif Require Import M_Fatal S_Fatal P_Fatal.
Import ListNotations.

(** whatever short writes and interruptions happen: what was written is a prefix of the
    message, nothing is written after the first real error, and without one the whole
    message was written ([WDone] is the call of abort(): fatal_error has no other exit) *)
Theorem C46_complete_or_first_error : forall (k : nat -> wans) (fuel : nat) (s : string) (w : wstate),
  fatal_error k fuel s = WDone tt w ->
  (exists rest, message s = w_out w ++ rest) /\
  (forall n, n < pred (w_calls w) -> k n <> WErr false) /\
  (w_out w = message s \/ k (pred (w_calls w)) = WErr false).
Proof. exact C46_done. Qed.
Print Assumptions C46_complete_or_first_error.

(** also while it is still running *)
Theorem C46_prefix_at_all_times : forall (k : nat -> wans) (fuel : nat) (s : string) (w : wstate),
  fatal_error k fuel s = WDone tt w \/ fatal_error k fuel s = WMore w ->
  exists rest, message s = w_out w ++ rest.
Proof. exact C46_always_prefix. Qed.
Print Assumptions C46_prefix_at_all_times.

(** it reaches abort() if write(2) does not do nothing for ever *)
Theorem C46_terminates : forall (k : nat -> wans) (s : string),
  serves k -> exists fuel w, fatal_error k fuel s = WDone tt w.
Proof. exact fatal_ends. Qed.
Print Assumptions C46_terminates.

(** without that condition it is false of the code: a write that always returns 0 *)
Theorem C46_terminates_always_refuted : exists (k : nat -> wans) (s : string), forall fuel w, fatal_error k fuel s <> WDone tt w.
Proof. exact (ex_intro _ (fun _ => Wrote 0) (ex_intro _ "x"%string (fatal_zero (fun _ => Wrote 0) "x" (fun _ => eq_refl)))). Qed.
Print Assumptions C46_terminates_always_refuted.

(** non-vacuity: interrupted and short writes *)
Definition k46 (n : nat) : wans := match n with 0 => Wrote 5 | 1 => WErr true | 2 => Wrote 0 | _ => Wrote 7 end.
Example C46_case : exists w, fatal_error k46 20 "double free" = WDone tt w /\ w_calls w = 9 /\ w_out w = message "double free".
Proof. eexists. split; [reflexivity|]. split; reflexivity. Qed.
Example C46_case_serves : serves k46.
Proof. intros n. exists (n + 3). split; [lia|]. replace (n + 3) with (S (S (S n))) by lia. exact I. Qed.
