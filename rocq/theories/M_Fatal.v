(** util.c: write_full and fatal_error (the non-Android branch).  Everywhere else in the
    model a fatal error is the outcome [Fatal msg]; this file models what the process still
    does then.  The kernel is an arbitrary sequence of answers to write(2). *)
From Coq Require Import String Ascii Arith List Bool.
Import ListNotations.

(** an answer of write(fd, buf, len): [Wrote k] copies the first min(k, len) bytes and
    returns that number, [WErr eintr] returns -1 with errno = EINTR or another error *)
Inductive wans : Type := Wrote (k : nat) | WErr (eintr : bool).
(** what happened so far: bytes on the descriptor, number of write calls *)
Record wstate : Type := mkW { w_out : list ascii; w_calls : nat }.
(** a run of the code: it is over or needs more steps than the fuel *)
Inductive wres (A : Type) : Type := WDone (a : A) (s : wstate) | WMore (s : wstate).
Arguments WDone {A} a s.
Arguments WMore {A} s.

(** write_full, util.c:16-30: the do-while loop writes at least once; [true] is the
    return value 0, [false] is -1 *)
Fixpoint write_full (k : nat -> wans) (fuel : nat) (buf : list ascii) (s : wstate) : wres bool :=
  match fuel with
  | O => WMore s
  | S fuel =>
      let s1 := mkW (w_out s) (S (w_calls s)) in
      match k (w_calls s) with
      | WErr true => match buf with [] => WDone true s1 | _ => write_full k fuel buf s1 end   (* continue *)
      | WErr false => WDone false s1
      | Wrote n =>
          let m := Nat.min n (length buf) in
          let s2 := mkW (w_out s ++ firstn m buf) (S (w_calls s)) in
          let rest := skipn m buf in
          match rest with [] => WDone true s2 | _ => write_full k fuel rest s2 end
      end
  end.
(** fatal_error, util.c:34-44; the process is aborted at the end *)
Definition fatal_error (k : nat -> wans) (fuel : nat) (s : string) : wres unit :=
  match write_full k fuel (list_ascii_of_string "fatal allocator error: ") (mkW [] 0) with
  | WMore w => WMore w
  | WDone false w => WDone tt w
  | WDone true w =>
      match write_full k fuel (list_ascii_of_string s) w with
      | WMore w => WMore w
      | WDone false w => WDone tt w
      | WDone true w =>
          match write_full k fuel [ascii_of_nat 10] w with
          | WMore w => WMore w
          | WDone _ w => WDone tt w
          end
      end
  end.
