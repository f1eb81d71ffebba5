(** ChaCha8 keystream generator: chacha.c, chacha.h. *)
From Coq Require Import String ZArith List Bool.
From Verif Require Import M_Base.
Import ListNotations.
Open Scope Z_scope.

(** chacha.c:16-17: ROTL32(v, n) = U32V(v << n) | (v >> (32 - n)) on u32 values *)
Definition rotl32 (v n : Z) : Z := Z.lor (w32 (Z.shiftl v n)) (Z.shiftr v (32 - n)).
(** chacha.c:36 PLUS *)
Definition plus32 (v w : Z) : Z := w32 (v + w).

(** chacha.h: struct chacha_ctx { u32 input[16]; }.  The sixteen local variables
    x0..x15 of chacha_keystream_bytes are the same list type; a read outside the
    list yields 0 (never happens: the list always has sixteen elements). *)
Definition ctx := list Z.
Definition word (x : ctx) (i : Z) : Z := match lget x i with Some v => v | None => 0 end.

(** chacha.c:39-43 QUARTERROUND(a, b, c, d); a..d are positions *)
Definition quarterround (x : ctx) (a b c d : Z) : ctx :=
  let x := lset x a (plus32 (word x a) (word x b)) in
  let x := lset x d (rotl32 (Z.lxor (word x d) (word x a)) 16) in
  let x := lset x c (plus32 (word x c) (word x d)) in
  let x := lset x b (rotl32 (Z.lxor (word x b) (word x c)) 12) in
  let x := lset x a (plus32 (word x a) (word x b)) in
  let x := lset x d (rotl32 (Z.lxor (word x d) (word x a)) 8) in
  let x := lset x c (plus32 (word x c) (word x d)) in
  let x := lset x b (rotl32 (Z.lxor (word x b) (word x c)) 7) in
  x.

(** body of the loop chacha.c:115-124 *)
Definition two_rounds (x : ctx) : ctx :=
  let x := quarterround x 0 4 8 12 in
  let x := quarterround x 1 5 9 13 in
  let x := quarterround x 2 6 10 14 in
  let x := quarterround x 3 7 11 15 in
  let x := quarterround x 0 5 10 15 in
  let x := quarterround x 1 6 11 12 in
  let x := quarterround x 2 7 8 13 in
  let x := quarterround x 3 4 9 14 in
  x.
(** chacha.c:8 *)
Definition rounds : nat := 8.
(** chacha.c:115: for (i = rounds; i > 0; i -= 2) *)
Fixpoint loop_by_two (body : ctx -> ctx) (i : nat) (x : ctx) : ctx :=
  match i with
  | S (S i') => loop_by_two body i' (body x)
  | _ => x
  end.
Definition do_rounds (i : nat) (x : ctx) : ctx := loop_by_two two_rounds i x.

(** chacha.c:19-23 *)
Definition U8TO32_LITTLE (p0 p1 p2 p3 : Z) : Z :=
  Z.lor (Z.lor (Z.lor p0 (Z.shiftl p1 8)) (Z.shiftl p2 16)) (Z.shiftl p3 24).
(** chacha.c:25-31 *)
Definition U32TO8_LITTLE (v : Z) : list Z :=
  [Z.land v 255; Z.land (Z.shiftr v 8) 255; Z.land (Z.shiftr v 16) 255; Z.land (Z.shiftr v 24) 255].

(** words of a byte string, four bytes each *)
Fixpoint words_of (l : list Z) : list Z :=
  match l with
  | p0 :: p1 :: p2 :: p3 :: t => U8TO32_LITTLE p0 p1 p2 p3 :: words_of t
  | _ => []
  end.

(** chacha.c:44: "expand 32-byte k" in ASCII *)
Definition sigma : list Z := [101;120;112;97; 110;100;32;51; 50;45;98;121; 116;101;32;107].

(** chacha.c:46-66: keysetup fills input[0..11], ivsetup input[12..15].  The two
    are always called together (random.c:30-31, 39-40) and modelled as one. *)
Definition chacha_setup (k iv : list Z) : ctx :=
  words_of sigma ++ words_of k ++ [0; 0] ++ words_of iv.

(** chacha.c:99-158: one block *)
Fixpoint plus_all (x j : ctx) : ctx :=
  match x, j with
  | a :: x', b :: j' => plus32 a b :: plus_all x' j'
  | _, _ => []
  end.
Definition chacha_block (j : ctx) : list Z :=
  flat_map U32TO8_LITTLE (plus_all (do_rounds rounds j) j).
(** chacha.c:137-141: j12 = PLUSONE(j12); if (!j12) j13 = PLUSONE(j13) *)
Definition incr_counter (j : ctx) : ctx :=
  let j := lset j 12 (plus32 (word j 12) 1) in
  if word j 12 =? 0 then lset j 13 (plus32 (word j 13) 1) else j.

(** chacha.c:68-177: produces [bytes] bytes and the new context.  The loop runs
    once per (started) block; fuel is bytes/64+1, which suffices. *)
Fixpoint keystream_loop (fuel : nat) (j : ctx) (bytes : Z) : list Z * ctx :=
  match fuel with
  | O => ([], j)
  | S f =>
      let blk := chacha_block j in
      let j := incr_counter j in
      if bytes <=? 64 then (firstn (Z.to_nat bytes) blk, j)
      else let '(out, j') := keystream_loop f j (bytes - 64) in (blk ++ out, j')
  end.
Definition chacha_keystream_bytes (x : ctx) (bytes : Z) : list Z * ctx :=
  if bytes =? 0 then ([], x)
  else keystream_loop (Z.to_nat (bytes / 64 + 1)) x bytes.
