(** Specification vocabulary for arenas: the part of the area of small blocks that belongs to
    an arena, and the arena of a thread. *)
From Coq Require Import ZArith List Bool.
From Verif Require Import M_Base M_Config M_SizeClass M_OS M_Slab M_Region M_Api M_Hist S_Heap.
Import ListNotations.
Open Scope Z_scope.

(** the area of small blocks is cut into arenas of equal length, and each of them into one
    part for each size class: the room for the class and as much again for guards *)
Definition part_at (g : config) (s : state) (x : Z) : Z := (x - st_start s) / (2 * CLASS_REGION_SIZE g).
Definition arena_at (g : config) (s : state) (x : Z) : Z := (x - st_start s) / (2 * CLASS_REGION_SIZE g * N_SIZE_CLASSES g).
(** the arena of a thread: with more than one arena its thread-local index (N_ARENA: none
    yet) *)
Definition thread_arena (g : config) (s : state) (tid : Z) : Z := if N_ARENA g =? 1 then 0 else st_arena s tid.
