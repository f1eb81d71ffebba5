(** Specification: address space in use, and how large a guard may be. *)
From Coq Require Import ZArith.
From Verif Require Import M_Base M_Config M_OS M_Slab M_Api.
Open Scope Z_scope.

(** the page of address [x] is mapped, accessible or not *)
Definition mapped (s : state) (x : Z) : Prop := pages (st_os s) (x / 4096) <> None.
(** the most bytes one guard of a block of [n] bytes may take: one page, or the part of the block's pages that
    GUARD_SIZE_DIVISOR allows *)
Definition guard_limit (g : config) (n : Z) : Z := 4096 * Z.max 1 (n / 4096 / GUARD_SIZE_DIVISOR g).
