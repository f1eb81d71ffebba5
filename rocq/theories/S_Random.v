(** Vocabulary for stating properties of the random number functions. *)
From Coq Require Import ZArith List Bool.
Open Scope Z_scope.

(** number of x with 0 <= x < n such that P x *)
Fixpoint count_below (P : Z -> bool) (n : nat) : Z :=
  match n with
  | O => 0
  | S m => count_below P m + (if P (Z.of_nat m) then 1 else 0)
  end.
Definition count (P : Z -> bool) (n : Z) : Z := count_below P (Z.to_nat n).

(** An unbiased bounded draw from w-bit raw values: [accept x] says the raw value x
    is used rather than redrawn, [value x] what is returned then.  Unbiased: every
    result below the bound comes from the same number of accepted raw values. *)
Definition unbiased (w bound : Z) (accept : Z -> bool) (value : Z -> Z) : Prop :=
  forall v1 v2, 0 <= v1 < bound -> 0 <= v2 < bound ->
    count (fun x => accept x && (value x =? v1)) (2 ^ w) =
    count (fun x => accept x && (value x =? v2)) (2 ^ w).

(** Iterating a generator that returns one raw value per call:
    [raw_draws g s xs s']: calling g repeatedly from s yields xs and ends in s'. *)
Inductive raw_draws {S : Type} (g : S -> option (Z * S)) : S -> list Z -> S -> Prop :=
| rd_nil : forall s, raw_draws g s nil s
| rd_cons : forall s x s1 xs s', g s = Some (x, s1) -> raw_draws g s1 xs s' -> raw_draws g s (x :: xs) s'.

(** ** Histories of generator requests *)
From Verif Require Import M_Base M_OS M_Random S_Chacha.
Import ListNotations.

(** [os_entropy q a n l b]: a request for n bytes of entropy that starts with the
    system call number a delivers the bytes l and ends before call number b; q is the
    stream of answers of getrandom.  Interrupted calls (EINTR = 4) are repeated,
    short reads are continued. *)
Inductive os_entropy (q : nat -> entans) : nat -> Z -> list Z -> nat -> Prop :=
| oe_done : forall a, os_entropy q a 0 [] a
| oe_intr : forall a n l b, en_errno (q a) = 4 -> os_entropy q (S a) n l b -> os_entropy q a n l b
| oe_some : forall a n bs l b, en_errno (q a) = 0 ->
    bs = map (fun x => x mod 256) (firstn (Z.to_nat n) (en_bytes (q a))) -> bs <> [] ->
    os_entropy q (S a) (n - Z.of_nat (length bs)) l b -> os_entropy q a n (bs ++ l) b.

(** a piece of output: [sg_len] keystream bytes from position [sg_pos] of the seed
    obtained by the system calls from number [sg_call] on *)
Record segment : Type := mkSeg {
  sg_call : nat;
  sg_key : list Z;
  sg_nonce : list Z;
  sg_pos : Z;
  sg_len : Z;
  sg_cached : bool }.    (* came through the 256-byte cache *)
Definition seg_bytes (g : segment) : list Z :=
  map (fun k => chacha8_stream (sg_key g) (sg_nonce g) (sg_pos g + Z.of_nat k)) (seq 0 (Z.to_nat (sg_len g))).
Definition seg_seeded (q : nat -> entans) (g : segment) : Prop :=
  length (sg_key g) = 32%nat /\ length (sg_nonce g) = 8%nat /\
  exists b, os_entropy q (sg_call g) 40 (sg_key g ++ sg_nonce g) b.
(** no byte in common: different seeds, or disjoint ranges of one seed *)
Definition seg_disjoint (g h : segment) : Prop :=
  sg_call g <> sg_call h \/ sg_pos g + sg_len g <= sg_pos h \/ sg_pos h + sg_len h <= sg_pos g.
(** g comes before h *)
Definition seg_before (g h : segment) : Prop :=
  (sg_call g < sg_call h)%nat \/ (sg_call g = sg_call h /\ sg_pos g + sg_len g <= sg_pos h).
(** number of bytes taken from one seed through the cache *)
Definition cached_total (c : nat) (l : list segment) : Z :=
  fold_right (fun g acc => (if andb (Nat.eqb (sg_call g) c) (sg_cached g) then sg_len g else 0) + acc) 0 l.

(** requests to the generator API (random.h) *)
Inductive request : Type := Req16 | Req64 | ReqBytes (n : Z).
(** output bytes of a request (integers little-endian) *)
Definition u_bytes (n : nat) (v : Z) : list Z := map (fun i => v / 256 ^ Z.of_nat i mod 256) (seq 0 n).
Definition do_request (r : request) : M rstate (list Z) :=
  match r with
  | Req16 => let! v := get_random_u16 in ret (u_bytes 2 v)
  | Req64 => let! v := get_random_u64 in ret (u_bytes 8 v)
  | ReqBytes n => get_random_bytes n
  end.
Fixpoint do_requests (l : list request) : M rstate (list Z) :=
  match l with
  | [] => ret []
  | r :: t => let! a := do_request r in let! b := do_requests t in ret (a ++ b)
  end.

(** generator states that occur: seeded from the system, then any calls *)
Inductive rng_reachable : rstate -> Prop :=
| rr_init : forall s0 s, Z.of_nat (length (rs_cache (r_rng s0))) = 256 ->
    random_state_init s0 = Ok (tt, s) -> rng_reachable s
| rr_req : forall s r out s', rng_reachable s ->
    match r with ReqBytes n => 0 <= n | _ => True end ->
    do_request r s = Ok (out, s') -> rng_reachable s'
| rr_u16 : forall s bound v s', rng_reachable s -> 0 <= bound < 2 ^ 16 ->
    get_random_u16_uniform bound s = Ok (v, s') -> rng_reachable s'
| rr_u64 : forall s bound v s', rng_reachable s -> 0 <= bound < 2 ^ 64 ->
    get_random_u64_uniform bound s = Ok (v, s') -> rng_reachable s'.
