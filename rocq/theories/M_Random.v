(** random.c: buffered ChaCha8 generator with reseeding. *)
From Coq Require Import String ZArith List Bool.
From Verif Require Import M_Base M_OS M_Chacha.
Import ListNotations.
Open Scope Z_scope.

(** random.h:7-8 *)
Definition RANDOM_CACHE_SIZE : Z := 256.
Definition RANDOM_RESEED_SIZE : Z := 256 * 1024.
(** chacha.h: CHACHA_KEY_SIZE 32, CHACHA_IV_SIZE 8 *)
Definition CHACHA_KEY_SIZE : Z := 32.
Definition CHACHA_IV_SIZE : Z := 8.

(** random.h:10-15 *)
Record random_state : Type := mkRng {
  rs_index : Z;
  rs_reseed : Z;
  rs_ctx : ctx;
  rs_cache : list Z
}.

(** a zeroed struct random_state (fresh pages) *)
Definition rng_zero : random_state := mkRng 0 0 (repeat 0 16) (repeat 0 256).

(** state of the generator functions: the generator and the system *)
Record rstate : Type := mkRst { r_os : os; r_rng : random_state }.
Definition set_r_os (o : os) (s : rstate) : rstate := mkRst o (r_rng s).
Definition set_r_rng (r : random_state) (s : rstate) : rstate := mkRst (r_os s) r.
Definition r_sys {A} (m : M os A) : M rstate A := zoom r_os set_r_os m.

(** random.c:10-25.  [fuel] bounds the number of getrandom calls (EINTR can
    repeat for ever); running out is the outcome [Retry]. *)
Fixpoint seed_loop (fuel : nat) (size : Z) (buf : list Z) : M os (list Z) :=
  if size =? 0 then ret buf else
  match fuel with
  | O => fail Retry
  | S f =>
      let! r := sys_getrandom size in
      let '(e, bytes) := r in
      if negb (e =? 0) then
        if e =? EINTR then seed_loop f size buf
        else fatal "getrandom failed"
      else if zlen bytes =? 0 then fatal "getrandom failed"
      else seed_loop f (size - zlen bytes) (buf ++ bytes)
  end.
Definition get_random_seed (size : Z) : M os (list Z) :=
  let! o := get in seed_loop (fuel o) size [].

(** key and IV set up from 40 bytes, index = RANDOM_CACHE_SIZE, reseed = 0;
    random.c:30-33 and 39-42; the cache keeps its old contents *)
Definition rng_from_seed (rnd : list Z) (old : random_state) : random_state :=
  mkRng RANDOM_CACHE_SIZE 0
    (chacha_setup (firstn 32 rnd) (skipn 32 rnd)) (rs_cache old).

(** random.c:27-34 *)
Definition random_state_init : M rstate unit :=
  let! rnd := r_sys (get_random_seed (CHACHA_KEY_SIZE + CHACHA_IV_SIZE)) in
  modify (fun s => set_r_rng (rng_from_seed rnd (r_rng s)) s).

(** random.c:45-52 *)
Definition refill : M rstate unit :=
  let! st := gets r_rng in
  (if RANDOM_RESEED_SIZE <=? rs_reseed st then random_state_init else ret tt);;
  let! st := gets r_rng in
  let '(cache, c) := chacha_keystream_bytes (rs_ctx st) RANDOM_CACHE_SIZE in
  modify (set_r_rng (mkRng 0 (w32 (rs_reseed st + RANDOM_CACHE_SIZE)) c cache)).

(** memcpy(dst, state->cache + index, n): out of bounds is UB *)
Definition cache_read (st : random_state) (n : Z) : M rstate (list Z) :=
  if (0 <=? rs_index st) && (rs_index st + n <=? zlen (rs_cache st))
  then ret (firstn (Z.to_nat n) (skipn (Z.to_nat (rs_index st)) (rs_cache st)))
  else fail (UB "random cache index out of bounds").

(** random.c:54-74.  The while loop copies at least one byte per round. *)
Fixpoint random_bytes_loop (fuel : nat) (size : Z) (buf : list Z) : M rstate (list Z) :=
  if size =? 0 then ret buf else
  match fuel with
  | O => fail Hang
  | S f =>
      let! st := gets r_rng in
      (if rs_index st =? RANDOM_CACHE_SIZE then refill else ret tt);;
      let! st := gets r_rng in
      let remaining := w64 (RANDOM_CACHE_SIZE - rs_index st) in
      let copy_size := Z.min size remaining in
      let! b := cache_read st copy_size in
      modify (set_r_rng (mkRng (w32 (rs_index st + copy_size)) (rs_reseed st) (rs_ctx st) (rs_cache st)));;
      random_bytes_loop f (size - copy_size) (buf ++ b)
  end.
Definition get_random_bytes (size : Z) : M rstate (list Z) :=
  if RANDOM_CACHE_SIZE / 2 <? size then
    let! st := gets r_rng in
    let '(out, c) := chacha_keystream_bytes (rs_ctx st) size in
    modify (set_r_rng (mkRng (rs_index st) (rs_reseed st) c (rs_cache st)));;
    ret out
  else random_bytes_loop (Z.to_nat size) size [].

(** random.c:36-43: seeds a new generator from [source]; result: the new generator *)
Definition random_state_init_from_random_state (old : random_state) : M rstate random_state :=
  let! rnd := get_random_bytes (CHACHA_KEY_SIZE + CHACHA_IV_SIZE) in
  ret (rng_from_seed rnd old).

(** random.c:76-85 and 103-112, for sizeof(value) = n bytes *)
Definition get_random_int (n : Z) : M rstate Z :=
  let! st := gets r_rng in
  let remaining := w32 (RANDOM_CACHE_SIZE - rs_index st) in
  (if remaining <? n then refill else ret tt);;
  let! st := gets r_rng in
  let! b := cache_read st n in
  modify (set_r_rng (mkRng (w32 (rs_index st + n)) (rs_reseed st) (rs_ctx st) (rs_cache st)));;
  ret (le_of_bytes b).
Definition get_random_u16 : M rstate Z := get_random_int 2.
Definition get_random_u64 : M rstate Z := get_random_int 8.

(** random.c:88-101.  u16 bound is promoted to int: -bound % bound is 0 for a
    positive bound, and a division by zero for bound 0 - but that line is only
    reached if leftover < bound.  int arithmetic: no overflow. *)
Fixpoint u16_reject_loop (fuel : nat) (bound threshold : Z) (multiresult : Z) : M rstate Z :=
  if w16 multiresult <? threshold then
    match fuel with
    | O => fail Retry
    | S f =>
        let! random := get_random_u16 in
        u16_reject_loop f bound threshold (w32 (random * bound))
    end
  else ret multiresult.
(** the u16 value of the int expression -bound % bound (C remainder: sign of the
    dividend) *)
Definition u16_threshold (bound : Z) : Z := w16 (Z.rem (- bound) bound).
Definition get_random_u16_uniform (bound : Z) : M rstate Z :=
  let bound := w16 bound in
  let! random := get_random_u16 in
  let multiresult := w32 (random * bound) in
  let leftover := w16 multiresult in
  let! multiresult :=
    (if leftover <? bound then
       let! s := get in
       u16_reject_loop (fuel (r_os s)) bound (u16_threshold bound) multiresult
     else ret multiresult) in
  ret (w16 (Z.shiftr multiresult 16)).

(** random.c:115-128.  u64 arithmetic: -bound % bound = (2^64 - bound) mod bound;
    the product is a u128 *)
Fixpoint u64_reject_loop (fuel : nat) (bound threshold : Z) (multiresult : Z) : M rstate Z :=
  if w64 multiresult <? threshold then
    match fuel with
    | O => fail Retry
    | S f =>
        let! random := get_random_u64 in
        u64_reject_loop f bound threshold (random * bound)
    end
  else ret multiresult.
Definition u64_threshold (bound : Z) : Z := w64 (- bound) mod bound.
Definition get_random_u64_uniform (bound : Z) : M rstate Z :=
  let! random := get_random_u64 in
  let multiresult := random * bound in
  let leftover := w64 multiresult in
  let! multiresult :=
    (if leftover <? bound then
       let! s := get in
       u64_reject_loop (fuel (r_os s)) bound (u64_threshold bound) multiresult
     else ret multiresult) in
  ret (w64 (Z.shiftr multiresult 64)).
