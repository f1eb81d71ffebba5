(** Specification: well-formed documents (the part of XML that malloc_info needs), and the document that describes the
    statistics. *)
From Coq Require Import String Ascii ZArith List Bool DecimalString.
From Verif Require Import M_Base M_Config M_SizeClass M_Stats.
Import ListNotations.
Open Scope Z_scope.

(** a value: a literal word, or a number of [w] bits *)
Inductive value : Type := Word (v : string) | Num (w n : Z).
(** an element with its name, attributes and content, or character data *)
Inductive node : Type := Elem (name : string) (attributes : list (string * value)) (body : list node) | Data (v : value).

Fixpoint every (f : ascii -> bool) (s : string) : bool := match s with EmptyString => true | String c t => f c && every f t end.
(** characters that need no escape: not one of less-than, greater-than, ampersand, quote and apostrophe *)
Definition plain_char (c : ascii) : bool := negb (existsb (fun n => Nat.eqb (nat_of_ascii c) n) [60; 62; 38; 34; 39]%nat).
Definition letter (c : ascii) : bool :=
  let n := nat_of_ascii c in (Nat.leb 97 n && Nat.leb n 122) || (Nat.leb 65 n && Nat.leb n 90) || Nat.eqb n 95.
(** names are made of letters and underscores *)
Definition is_name (s : string) : bool := match s with EmptyString => false | _ => every letter s end.
(** how a value is written: the standard library's reader of decimal numbers gives back the number; no superfluous
    zeros in front *)
Inductive spells : value -> string -> Prop :=
| spells_word v : every plain_char v = true -> spells (Word v) v
| spells_num w n v d : NilZero.uint_of_string v = Some d -> Decimal.unorm d = d -> Z.of_N (N.of_uint d) = n mod 2 ^ w -> spells (Num w n) v.
Definition quoted (v : string) : string := String (ascii_of_nat 34) (v ++ String (ascii_of_nat 34) "").
Inductive attributes_spell : list (string * value) -> string -> Prop :=
| attr_none : attributes_spell [] ""
| attr_one k v t vs ts : is_name k = true -> spells v vs -> attributes_spell t ts -> attributes_spell ((k, v) :: t) (" " ++ k ++ "=" ++ quoted vs ++ ts).
(** the text is a node, a sequence of nodes: every start tag has its end tag, properly nested, no attribute twice *)
Inductive written : node -> string -> Prop :=
| written_data v s : spells v s -> written (Data v) s
| written_elem name ats body a b : is_name name = true -> NoDup (map fst ats) -> attributes_spell ats a -> all_written body b ->
    written (Elem name ats body) ("<" ++ name ++ a ++ ">" ++ b ++ "</" ++ name ++ ">")
with all_written : list node -> string -> Prop :=
| all_none : all_written [] ""
| all_one x s l ls : written x s -> all_written l ls -> all_written (x :: l) (s ++ ls).

(** the document for given statistics *)
Definition counter (name : string) (n : Z) : node := Elem name [] [Data (Num 64 n)].
Definition bin_node (b : bin) : node :=
  Elem "bin" [("nr"%string, Num 32 (b_nr b)); ("size"%string, Num 32 (b_size b))]
    [counter "nmalloc" (b_nmalloc b); counter "ndalloc" (b_ndalloc b); counter "slab_allocated" (b_slabs b); counter "allocated" (b_allocated b)].
Definition heap_node (nr : Z) (body : list node) : node := Elem "heap" [("nr"%string, Num 32 nr)] body.
Definition malloc_node (body : list node) : node := Elem "malloc" [("version"%string, Word "hardened_malloc-1")] body.
Definition document (heaps : list (Z * list bin)) (narenas large : Z) : node :=
  malloc_node (map (fun h => heap_node (fst h) (map bin_node (snd h))) heaps ++ [heap_node narenas [counter "allocated_large" large]]).
