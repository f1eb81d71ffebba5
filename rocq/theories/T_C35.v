(** C35: slot selection finds a free slot, and can pick any of them. *)
From Coq Require Import String ZArith List Lia.
From Verif Require Import M_Base M_Config M_OS M_Libdivide M_Chacha M_Random M_Slab S_Slab S_Random P_Bitmap2.
Import ListNotations.
Open Scope Z_scope.

(** Whatever the bitmap and the random bytes: if some slot is free, the search ends
    with a free slot inside the slab and changes no slab.  ([Retry]/getrandom
    failure: the random generator did not deliver, see C30.) *)
Theorem C35_finds_free_slot : forall (g : config) (slots i : Z) (s : cstate),
  rng_reachable (mkRst (cs_os s) (c_rng (cs_c s))) ->
  0 <= i < c_mallocated (cs_c s) -> 1 <= slots <= 256 ->
  let bm := sb_bitmap (c_slabs (cs_c s) i) in
  bitmap bm -> (exists j, 0 <= j < slots /\ occupied bm j = false) ->
  match get_free_slot g slots i s with
  | Ok (slot, s') => 0 <= slot < slots /\ occupied bm slot = false /\ c_slabs (cs_c s') = c_slabs (cs_c s)
  | Fail f => f = Retry \/ f = Fatal "getrandom failed"
  end.
Proof. exact C35_finds. Qed.
Print Assumptions C35_finds_free_slot.

(** With slot randomization every free slot is the choice for some random bytes. *)
Theorem C35_every_free_slot_possible : forall (g : config) (slots i : Z) (s : cstate) (slot : Z),
  SLOT_RANDOMIZE g = true ->
  0 <= i < c_mallocated (cs_c s) -> 1 <= slots <= 256 ->
  let bm := sb_bitmap (c_slabs (cs_c s) i) in
  bitmap bm -> 0 <= slot < slots -> occupied bm slot = false ->
  rs_index (c_rng (cs_c s)) = 0 ->
  exists b0 b1, 0 <= b0 < 256 /\ 0 <= b1 < 256 /\
    forall rest, length rest = 254%nat ->
    let rng := c_rng (cs_c s) in
    let s1 := mkCst (cs_os s) (set_c_rng (mkRng 0 (rs_reseed rng) (rs_ctx rng) (b0 :: b1 :: rest)) (cs_c s)) in
    exists s', get_free_slot g slots i s1 = Ok (slot, s').
Proof. exact C35_all. Qed.
Print Assumptions C35_every_free_slot_possible.

(** non-vacuity: 85 slots (class of 48 bytes), all occupied except 3 and 84 *)
Definition ex_os : os :=
  mkOs (fun _ => None) (fun _ => 0) (fun _ => mkSysans 0 0) 0 (fun _ => mkEntans 0 (repeat 5 300)) 0 10 0.
Definition ex_rng0 : rstate := mkRst ex_os rng_zero.
Definition ex_rng : rstate := match random_state_init ex_rng0 with Ok (_, s) => s | Fail _ => ex_rng0 end.
Definition ex_bm : list Z := [2 ^ 64 - 1 - 8; 2 ^ 20 - 1; 0; 0].
Definition ex_class : size_class :=
  mkClass 0 0 (mkDivider 0 0) (mkDivider 0 0) [] [] 0 (Some 2) None 0 None None [] 0 0 0 0 (r_rng ex_rng) 5 3 0
    (fupd (fun _ => slab_zero) 2 (mkSlab ex_bm None None 0 83 [0; 0; 0; 0])).
Definition ex_s : cstate := mkCst (r_os ex_rng) ex_class.
Example C35_case :
  rng_reachable (mkRst (cs_os ex_s) (c_rng (cs_c ex_s))) /\ bitmap ex_bm /\
  (forall j, In j [3; 84] -> occupied ex_bm j = false) /\ occupied ex_bm 83 = true /\
  (exists s', get_free_slot default_config 85 2 ex_s = Ok (84, s')) /\
  (exists s', get_free_slot light_config 85 2 ex_s = Ok (3, s')).
Proof.
  split; [|split; [|split; [|split; [|split]]]].
  - apply (rr_init ex_rng0); [reflexivity|]. vm_compute. reflexivity.
  - split; [reflexivity|]. repeat constructor; unfold ex_bm; lia.
  - intros j [<-|[<-|[]]]; reflexivity.
  - reflexivity.
  - destruct (get_free_slot default_config 85 2 ex_s) as [[v s']|] eqn:E; vm_compute in E; [|discriminate].
    exists s'. injection E as <- _. reflexivity.
  - destruct (get_free_slot light_config 85 2 ex_s) as [[v s']|] eqn:E; vm_compute in E; [|discriminate].
    exists s'. injection E as <- _. reflexivity.
Qed.
