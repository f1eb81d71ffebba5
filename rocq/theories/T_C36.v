(** C36: memory tags differ from those of the neighbours and from the previous one. *)
From Coq Require Import ZArith List Bool Lia.
From Verif Require Import M_Base M_Mte S_Mte P_Mte.
Import ListNotations.
Open Scope Z_scope.

(** in every history of a slab, an allocation of any slot succeeds with a pointer to the
    same address whose tag is not the reserved one, not the slot's last one and not the last
    one of a neighbour *)
Theorem C36_new_tag : forall (l : list tevent) (t : tags) (irg : Z -> Z) (slot p : Z),
  tagged l t -> irg_ok irg -> 0 <= slot < 256 -> 0 <= p < 2 ^ 56 ->
  exists q t', tag_and_clear_slab_slot irg slot p t = Ok (q, t') /\ untag_pointer q = p /\ 1 <= get_pointer_tag q <= 15 /\
    get_pointer_tag q <> last_tag l slot /\ get_pointer_tag q <> last_tag l (slot - 1) /\ get_pointer_tag q <> last_tag l (slot + 1).
Proof. exact C36_alloc. Qed.
Print Assumptions C36_new_tag.

(** the memory of an allocated slot has the tag of its pointer, the memory of every other
    slot has tag 0: allocating or freeing one slot changes no other *)
Theorem C36_memory_tags : forall (l : list tevent) (t : tags) (i : Z),
  tagged l t -> 0 <= i < 256 -> tg_mem t i = if in_use l i then last_tag l i else 0.
Proof. exact C36_mem. Qed.
Print Assumptions C36_memory_tags.

(** neighbouring allocated slots have different memory tags *)
Theorem C36_neighbours_differ : forall (l : list tevent) (t : tags) (i : Z),
  tagged l t -> in_use l i = true -> in_use l (i + 1) = true -> tg_mem t i <> tg_mem t (i + 1).
Proof. exact C36_neighbours. Qed.
Print Assumptions C36_neighbours_differ.

(** a pointer with tag [v] to a slot does not match the memory while the slot is free and
    after it was reused once *)
Theorem C36_stale_pointer : forall (l2 : list tevent) (i v : Z) (l1 : list tevent) (t : tags),
  tagged (l2 ++ TAlloc i v :: l1) t ->
  (in_use (l2 ++ TAlloc i v :: l1) i = false \/ reallocated l2 i = 1%nat) -> (reallocated l2 i <= 1)%nat -> tg_mem t i <> v.
Proof. exact C36_stale. Qed.
Print Assumptions C36_stale_pointer.

(** the packed array: setting one 4-bit value changes no other *)
Theorem C36_packed_array : forall (arr : Z -> Z) (i j v : Z), (forall k, 0 <= arr k < 256) -> 0 <= v < 16 ->
  u4_arr_get (u4_arr_set arr i v) j = if j =? i then v else u4_arr_get arr j.
Proof. exact u4_set_get. Qed.
Print Assumptions C36_packed_array.

(** non-vacuity: a hardware that takes the first tag that is not excluded *)
Definition irg36 (m : Z) : Z := match find (fun t => negb (Z.testbit m t)) [15; 14; 13; 12; 11; 10; 9; 8; 7; 6; 5; 4; 3; 2; 1; 0] with Some t => t | None => 0 end.
Example C36_irg : irg_ok irg36.
Proof.
  intros m. unfold irg36. destruct (find _ _) as [t|] eqn:E.
  - apply find_some in E as (I & B). apply negb_true_iff in B. split; [|auto]. cbn [In] in I. lia.
  - split; [lia|]. intros (t & R & B). apply find_none with (x := t) in E; [rewrite B in E; discriminate|]. cbn [In]. lia.
Qed.
Definition step36 (slot p : Z) (t : tags) : tags := match tag_and_clear_slab_slot irg36 slot p t with Ok (_, t') => t' | Fail _ => t end.
Definition t36 : tags := step36 7 4096 (tag_free_slot 7 4096 (step36 8 4112 (step36 7 4096 tags_zero))).
Definition l36 : list tevent := [TAlloc 7 13; TFree 7; TAlloc 8 14; TAlloc 7 15].
Lemma step36_tagged l t slot p v : tagged l t -> 0 <= slot < 256 -> 0 <= p < 2 ^ 56 ->
  match tag_and_clear_slab_slot irg36 slot p t with Ok (q, _) => get_pointer_tag q | Fail _ => 16 end = v -> v <> 16 -> tagged (TAlloc slot v :: l) (step36 slot p t).
Proof. intros H Hs Hp E N. unfold step36. destruct (tag_and_clear_slab_slot _ _ _ _) as [[q t']|] eqn:X; [|congruence]. subst v. eapply tagged_alloc; eauto using C36_irg. Qed.
Example C36_case : tagged l36 t36 /\ in_use l36 7 = true /\ in_use l36 8 = true /\ tg_mem t36 7 = 13 /\ tg_mem t36 8 = 14 /\ reallocated [TAlloc 7 13; TFree 7; TAlloc 8 14] 7 = 1%nat.
Proof.
  split; [|repeat (split; [vm_compute; reflexivity|]); reflexivity]. unfold l36, t36.
  apply step36_tagged; [|lia|lia|vm_compute; reflexivity|lia]. apply tagged_free; [|lia|lia].
  apply step36_tagged; [|lia|lia|vm_compute; reflexivity|lia]. apply step36_tagged; [apply tagged_new|lia|lia|vm_compute; reflexivity|lia].
Qed.
