(** Specification of the ChaCha8 keystream, written from D. J. Bernstein's
    description ("ChaCha, a variant of Salsa20"), independently of the model:
    the state is a 4x4 matrix held as four rows; a double round is a
    column round, then the same round on the diagonals, obtained by rotating the rows. *)
From Coq Require Import ZArith List.
Import ListNotations.
Open Scope Z_scope.

(** a 32-bit word rotated left by n *)
Definition rot (v n : Z) : Z := (v * 2 ^ n + v / 2 ^ (32 - n)) mod 2 ^ 32.
Definition add (v w : Z) : Z := (v + w) mod 2 ^ 32.

Definition row : Type := Z * Z * Z * Z.
Definition map2 (f : Z -> Z -> Z) (x y : row) : row :=
  let '(x0, x1, x2, x3) := x in
  let '(y0, y1, y2, y3) := y in (f x0 y0, f x1 y1, f x2 y2, f x3 y3).
Definition rotl_row (r : row) : row := let '(a, b, c, d) := r in (b, c, d, a).
Definition iter_rot (n : nat) (r : row) : row := Nat.iter n rotl_row r.
Definition matrix : Type := row * row * row * row.

(** the four quarter rounds on the columns *)
Definition column_round (m : matrix) : matrix :=
  let '(a, b, c, d) := m in
  let a := map2 add a b in
  let d := map2 (fun x y => rot (Z.lxor x y) 16) d a in
  let c := map2 add c d in
  let b := map2 (fun x y => rot (Z.lxor x y) 12) b c in
  let a := map2 add a b in
  let d := map2 (fun x y => rot (Z.lxor x y) 8) d a in
  let c := map2 add c d in
  let b := map2 (fun x y => rot (Z.lxor x y) 7) b c in
  (a, b, c, d).
Definition diagonalise (m : matrix) : matrix :=
  let '(a, b, c, d) := m in (a, iter_rot 1 b, iter_rot 2 c, iter_rot 3 d).
Definition undiagonalise (m : matrix) : matrix :=
  let '(a, b, c, d) := m in (a, iter_rot 3 b, iter_rot 2 c, iter_rot 1 d).
Definition double_round (m : matrix) : matrix :=
  undiagonalise (column_round (diagonalise (column_round m))).

(** ChaCha8: eight rounds = four double rounds, then add the input matrix *)
Definition chacha8_core (m : matrix) : matrix :=
  let '(a', b', c', d') := Nat.iter 4 double_round m in
  let '(a, b, c, d) := m in
  (map2 add a' a, map2 add b' b, map2 add c' c, map2 add d' d).

(** little-endian bytes *)
Definition le32 (b : list Z) : Z :=
  fold_right (fun x acc => x + 256 * acc) 0 b.
Definition bytes_of_word (w : Z) : list Z :=
  [w mod 256; w / 256 mod 256; w / 65536 mod 256; w / 16777216 mod 256].
Definition bytes_of_row (r : row) : list Z :=
  let '(a, b, c, d) := r in
  bytes_of_word a ++ bytes_of_word b ++ bytes_of_word c ++ bytes_of_word d.
(** the i-th aligned 4-byte word of a byte string *)
Definition word_at (s : list Z) (i : nat) : Z := le32 (firstn 4 (skipn (4 * i) s)).

(** the text "expand 32-byte k" *)
Definition constants : list Z :=
  [101; 120; 112; 97; 110; 100; 32; 51; 50; 45; 98; 121; 116; 101; 32; 107].

(** block number [n] of the stream of a 32-byte key and an 8-byte nonce; the
    64-bit block number sits in words 12 and 13. *)
Definition chacha8_block (key nonce : list Z) (n : Z) : list Z :=
  let '(a, b, c, d) := chacha8_core
    ((word_at constants 0, word_at constants 1, word_at constants 2, word_at constants 3),
     (word_at key 0, word_at key 1, word_at key 2, word_at key 3),
     (word_at key 4, word_at key 5, word_at key 6, word_at key 7),
     (n mod 2 ^ 32, n / 2 ^ 32 mod 2 ^ 32, word_at nonce 0, word_at nonce 1)) in
  bytes_of_row a ++ bytes_of_row b ++ bytes_of_row c ++ bytes_of_row d.

(** byte [i] (counted from 0) of the keystream; block numbers wrap at 2^64 *)
Definition chacha8_stream (key nonce : list Z) (i : Z) : Z :=
  nth (Z.to_nat (i mod 64)) (chacha8_block key nonce (i / 64 mod 2 ^ 64)) 0.
