(** third_party/libdivide.h: the unsigned 32- and 64-bit dividers used by
    h_malloc.c (libdivide_u32_gen/do, libdivide_u64_gen/do, branchfull).
    The C file contains two textual copies that differ only in the width and the
    shift mask; the model is one definition parameterised by the width W. *)
From Coq Require Import String ZArith List Bool.
From Verif Require Import M_Base.
Import ListNotations.
Open Scope Z_scope.

(** libdivide.h: struct libdivide_u32_t / libdivide_u64_t *)
Record divider : Type := mkDivider { d_magic : Z; d_more : Z }.

(** libdivide.h:217-220: LIBDIVIDE_ADD_MARKER, LIBDIVIDE_32/64_SHIFT_MASK *)
Definition LIBDIVIDE_ADD_MARKER : Z := 64.
Definition shift_mask (W : Z) : Z := W - 1.

Definition wW (W x : Z) : Z := x mod 2 ^ W.

(** libdivide.h:303-307, 317-322: high half of the double-width product *)
Definition mullhi (W x y : Z) : Z := wW W (Z.shiftr (x * y) W).

(** libdivide.h:455-467 (divl / plain 64-bit division) and 471-481 (divq): the
    quotient and remainder of (hi * 2^W + lo) / v.  Precondition (hardware
    traps otherwise): hi < v. *)
Definition div_2W_W (W hi lo v : Z) : Z * Z :=
  let n := hi * 2 ^ W + lo in
  (wW W (n / v), wW W (n - wW W (n / v) * v)).

(** libdivide.h:850-903 and 1008-1063 with branchfree = 0.  [None] stands for
    LIBDIVIDE_ERROR("divider must be != 0"). *)
Definition libdivide_gen (W d : Z) : option divider :=
  if d =? 0 then None
  else
    let floor_log_2_d := Z.log2 d in
    if Z.land d (wW W (d - 1)) =? 0 then Some (mkDivider 0 (w8 floor_log_2_d))
    else
      let '(proposed_m, rem) := div_2W_W W (wW W (Z.shiftl 1 floor_log_2_d)) 0 d in
      let e := wW W (d - rem) in
      if e <? wW W (Z.shiftl 1 floor_log_2_d) then
        Some (mkDivider (wW W (1 + proposed_m)) (w8 floor_log_2_d))
      else
        let pm := wW W (proposed_m + proposed_m) in
        let twice_rem := wW W (rem + rem) in
        let pm := if (d <=? twice_rem) || (twice_rem <? rem) then wW W (pm + 1) else pm in
        Some (mkDivider (wW W (1 + pm)) (w8 (Z.lor floor_log_2_d LIBDIVIDE_ADD_MARKER))).

(** libdivide.h:915-930 and 1075-1090 *)
Definition libdivide_do (W numer : Z) (denom : divider) : Z :=
  let more := d_more denom in
  if d_magic denom =? 0 then Z.shiftr numer more
  else
    let q := mullhi W (d_magic denom) numer in
    if negb (Z.land more LIBDIVIDE_ADD_MARKER =? 0) then
      let t := wW W (Z.shiftr (wW W (numer - q)) 1 + q) in
      Z.shiftr t (Z.land more (shift_mask W))
    else Z.shiftr q more.

Definition libdivide_u32_gen := libdivide_gen 32.
Definition libdivide_u32_do := libdivide_do 32.
Definition libdivide_u64_gen := libdivide_gen 64.
Definition libdivide_u64_do := libdivide_do 64.

(** libdivide.h:482-564: the software 128/64 division used where the divq
    instruction is not available.  Returns (quotient, remainder). *)
Definition soft_128_div_64 (numhi numlo den : Z) : Z * Z :=
  let b := 2 ^ 32 in
  if den <=? numhi then (2 ^ 64 - 1, 2 ^ 64 - 1)
  else
    let shift := 63 - Z.log2 den in   (* count_leading_zeros64 *)
    let den := w64 (Z.shiftl den shift) in
    (* (numlo >> (-shift & 63)) & (-(int64_t)shift >> 63): 0 when shift = 0 *)
    let numhi := Z.lor (w64 (Z.shiftl numhi shift))
                       (Z.land (Z.shiftr numlo (Z.land (- shift) 63))
                               (if 0 <? shift then 2 ^ 64 - 1 else 0)) in
    let numlo := w64 (Z.shiftl numlo shift) in
    let num1 := w32 (Z.shiftr numlo 32) in
    let num0 := w32 (Z.land numlo (2 ^ 32 - 1)) in
    let den1 := w32 (Z.shiftr den 32) in
    let den0 := w32 (Z.land den (2 ^ 32 - 1)) in
    let step numhi num :=
      let qhat := numhi / den1 in
      let rhat := numhi mod den1 in
      let c1 := w64 (qhat * den0) in
      let c2 := w64 (rhat * b + num) in
      let qhat := if c2 <? c1 then w64 (qhat - (if den <? w64 (c1 - c2) then 2 else 1)) else qhat in
      let q := w32 qhat in
      (q, w64 (numhi * b + num - q * den)) in
    let '(q1, rem) := step numhi num1 in
    let '(q0, rem0) := step rem num0 in
    (Z.lor (w64 (Z.shiftl q1 32)) q0, Z.shiftr rem0 shift).
