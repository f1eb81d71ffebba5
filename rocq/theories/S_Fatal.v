(** Specification of the message of a fatal error. *)
From Coq Require Import String Ascii List.
From Verif Require Import M_Fatal.
Import ListNotations.

(** the whole message *)
Definition message (s : string) : list ascii := list_ascii_of_string "fatal allocator error: " ++ list_ascii_of_string s ++ [ascii_of_nat 10].
(** write(2) reports a real error or writes something; it may be interrupted or write
    nothing now and then, but not for ever *)
Definition progress (a : wans) : Prop := match a with Wrote 0 => False | Wrote _ => True | WErr e => e = false end.
Definition serves (k : nat -> wans) : Prop := forall n, exists m, n <= m /\ progress (k m).
