(** Specification vocabulary for the large-block table (C23): a history of table
    operations, how the code runs it, and what a finite map answers. *)
From Coq Require Import String ZArith List Bool.
From Verif Require Import M_Base M_Config M_OS M_Random M_Region.
Import ListNotations.
Open Scope Z_scope.

Inductive top : Type :=
| TInsert (p size guard : Z)
| TRemove (p : Z)
| TLookup (p : Z)
| TResize (p size : Z).
Inductive tans : Type :=
| ADone                       (* the operation was carried out *)
| ARefused                    (* insertion failed *)
| AFound (size guard : Z)     (* lookup, or the entry removed/resized *)
| AMissing.

(** the code: callers look an entry up before deleting or resizing it *)
Definition t_step (g : config) (op : top) : M rastate tans :=
  match op with
  | TInsert p size guard =>
      let! failed := regions_insert g p size guard in ret (if failed : bool then ARefused else ADone)
  | TLookup p =>
      let! oi := regions_find p in
      let! r := gets rs_ra in
      ret (match oi with Some i => AFound (rg_size (ra_cells r i)) (rg_guard (ra_cells r i)) | None => AMissing end)
  | TRemove p =>
      let! oi := regions_find p in
      let! r := gets rs_ra in
      match oi with
      | Some i => regions_delete i;; ret (AFound (rg_size (ra_cells r i)) (rg_guard (ra_cells r i)))
      | None => ret AMissing
      end
  | TResize p size =>
      let! oi := regions_find p in
      let! r := gets rs_ra in
      match oi with
      | Some i => regions_set_size i size;; ret (AFound (rg_size (ra_cells r i)) (rg_guard (ra_cells r i)))
      | None => ret AMissing
      end
  end.
Fixpoint t_exec (g : config) (ops : list top) : M rastate (list tans) :=
  match ops with
  | [] => ret []
  | op :: rest => let! a := t_step g op in let! l := t_exec g rest in ret (a :: l)
  end.

(** the finite map: the entries by address *)
Definition fmap : Type := Z -> option (Z * Z).
Definition fset (m : fmap) (p : Z) (v : option (Z * Z)) : fmap := fun q => if q =? p then v else m q.
Definition answer_of (v : option (Z * Z)) : tans := match v with Some (s, g) => AFound s g | None => AMissing end.
(** the answer a finite map would give (only an insertion may be refused) *)
Definition right_answer (m : fmap) (op : top) (a : tans) : Prop :=
  match op with
  | TInsert _ _ _ => a = ADone \/ a = ARefused
  | TLookup p | TRemove p | TResize p _ => a = answer_of (m p)
  end.
(** the map after the operation *)
Definition map_after (m : fmap) (op : top) (a : tans) : fmap :=
  match op, a with
  | TInsert p size guard, ADone => fset m p (Some (size, guard))
  | TRemove p, AFound _ _ => fset m p None
  | TResize p size, AFound _ guard => fset m p (Some (size, guard))
  | _, _ => m
  end.
Fixpoint map_end (m : fmap) (ops : list top) (l : list tans) : fmap :=
  match ops, l with
  | op :: ops, a :: l => map_end (map_after m op a) ops l
  | _, _ => m
  end.
(** the callers only insert addresses that are not NULL and not present *)
Definition allowed (m : fmap) (op : top) : Prop :=
  match op with TInsert p _ _ => p <> 0 /\ m p = None | _ => True end.
Fixpoint legal (m : fmap) (ops : list top) (l : list tans) : Prop :=
  match ops, l with
  | op :: ops, a :: l => allowed m op /\ legal (map_after m op a) ops l
  | _, _ => True
  end.
(** every answer of the history is right *)
Fixpoint right_answers (m : fmap) (ops : list top) (l : list tans) : Prop :=
  match ops, l with
  | [], [] => True
  | op :: ops, a :: l => right_answer m op a /\ right_answers (map_after m op a) ops l
  | _, _ => False
  end.
Definition fempty : fmap := fun _ => None.
(** memory system calls that fail with anything but ENOMEM abort the process *)
Definition os_abort (f : fault) : Prop :=
  exists msg, f = Fatal msg /\
    In msg ["non-ENOMEM MAP_FIXED mmap failure"; "non-ENOMEM mprotect failure"]%string.
