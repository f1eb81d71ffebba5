(** Concrete histories behind the [_refuted] theorems. *)
From Coq Require Import String ZArith List Bool Lia.
From Verif Require Import M_Base M_Config M_SizeClass M_OS M_Random M_Slab M_Region M_Api M_Hist S_SizeClass S_Heap P_SizeClass P_SizeClass2 P_Api2 P_Api5 P_Demo.
Import ListNotations.
Open Scope string_scope.
Open Scope list_scope.
Open Scope Z_scope.

Definition checkf (g : config) (o : os) (l : script) (f : trace -> state -> bool) : bool :=
  match exec g true l [] (boot g o) with Some (t, s) => f t s | None => false end.
Lemma checkf_ok g o l f : checkf g o l f = true -> exists t s, history g (own_store g) o t s /\ f t s = true.
Proof.
  unfold checkf. destruct (exec g true l [] (boot g o)) as [[t s]|] eqn:E; [|discriminate]. intros H. exists t, s. split; [|exact H]. eapply exec_own; eauto; constructor.
Qed.
Definition ownsb (t : trace) (p : Z) (c : op) : bool := if in_dec (fun x y => match Z.eq_dec (fst x) (fst y), op_dec (snd x) (snd y) with
  | left A, left B => left (match x as x0, y as y0 return fst x0 = fst y0 -> snd x0 = snd y0 -> x0 = y0 with (a, b), (c, d) => fun A B => f_equal2 pair A B end A B)
  | right A, _ => right (fun E => A (f_equal fst E)) | _, right B => right (fun E => B (f_equal snd E)) end) (p, c) (live t) then true else false.
Lemma ownsb_ok t p c : ownsb t p c = true -> In (p, c) (live t).
Proof. unfold ownsb. destruct (in_dec _ _ _); [auto|discriminate]. Qed.
Definition faultb (m : M state ans) (s : state) (f : fault) : bool := match m s with Ok _ => false | Fail e => if fault_dec e f then true else false end.
Lemma faultb_ok m s f : faultb m s f = true -> m s = Fail f.
Proof. unfold faultb. destruct (m s); [discriminate|]. destruct (fault_dec _ _) as [->|]; [reflexivity|discriminate]. Qed.

(** realloc of a live block with a large alignment and a small size *)
Definition l16 : script := [fun _ => (0, OMemalign 8192 16)].
Lemma l16_check : checkf g0 o0 l16 (fun t s => ownsb t (ptr 0 t) (OMemalign 8192 16) && faultb (run (op_run g0 0 (ORealloc (ptr 0 t) 100))) s (UB "size class index out of bounds")) = true.
Proof. vm_cast_no_check (eq_refl true). Qed.
Lemma C16_bad : exists (g : config) (o : os) (t : trace) (s : state) (p : Z) (c : op) (tid n : Z) (m : string),
  usable_config g = true /\ history g (own_store g) o t s /\ In (p, c) (live t) /\ run (op_run g tid (ORealloc p n)) s = Fail (UB m).
Proof.
  destruct (checkf_ok _ _ _ _ l16_check) as (t & s & H & C). apply andb_true_iff in C. destruct C as [C1 C2].
  exists g0, o0, t, s, (ptr 0 t), (OMemalign 8192 16), 0, 100, "size class index out of bounds". repeat split; [exact H|apply ownsb_ok, C1|exact (faultb_ok _ _ _ C2)].
Qed.

(** the table of large blocks is full *)
Definition l25 : script := repeat (fun _ => (0, OMalloc 135000)) 97.
Lemma l25_check : checkf g0 o0 l25 (fun t s => (errno (st_os s) =? 0) && negb (ra_leftover (st_ra s)) && match run (op_run g0 0 (OMalloc 135000)) s with Ok (ANull, s') => errno (st_os s') =? 0 | _ => false end) = true.
Proof. vm_cast_no_check (eq_refl true). Qed.
Lemma C25_bad : exists (g : config) (o : os) (t : trace) (s : state) (tid n : Z) (s' : state),
  usable_config g = true /\ history g (own_store g) o t s /\ calls g (own_store g) t s tid (OMalloc n) ANull s' /\ errno (st_os s) = 0 /\ errno (st_os s') = 0.
Proof.
  destruct (checkf_ok _ _ _ _ l25_check) as (t & s & H & C). rewrite !andb_true_iff, negb_true_iff in C. destruct C as [[C0 C1] C2].
  destruct (run (op_run g0 0 (OMalloc 135000)) s) as [[[] s']|] eqn:E; try discriminate. exists g0, o0, t, s, 0, 135000, s'.
  split; [reflexivity|]. split; [exact H|]. split; [|lia]. unfold calls, table_cleared. split; [exact C1|]. split; [cbn; unfold word; lia|]. split; [exact I|]. split; [exact I|exact E].
Qed.

(** zero-size blocks: malloc_object_size *)
Definition l18 : script := repeat (fun _ => (0, OMalloc 0)) 257.
Lemma l18_check : checkf g0 o0 l18 (fun t s => ownsb t (ptr 256 t) (OMalloc 0) && faultb (run (op_run g0 0 (OObjectSize (ptr 256 t)))) s (UB "slab bitmap index out of bounds")) = true.
Proof. vm_cast_no_check (eq_refl true). Qed.
Lemma C18_bad : exists (g : config) (o : os) (t : trace) (s : state) (p tid : Z) (m : string),
  usable_config g = true /\ history g (own_store g) o t s /\ In (p, OMalloc 0) (live t) /\ run (op_run g tid (OObjectSize p)) s = Fail (UB m).
Proof.
  destruct (checkf_ok _ _ _ _ l18_check) as (t & s & H & C). apply andb_true_iff in C. destruct C as [C1 C2].
  exists g0, o0, t, s, (ptr 256 t), 0, "slab bitmap index out of bounds". repeat split; [exact H|apply ownsb_ok, C1|exact (faultb_ok _ _ _ C2)].
Qed.

(** free_sized with the size the block was allocated with; free_sized with a size the
    scheme does not know; realloc of a freed block *)
Lemma C19_aligned_bad : exists (g : config) (o : os) (t : trace) (s : state) (p al n tid : Z) (f : fault),
  usable_config g = true /\ history g (own_store g) o t s /\ In (p, OAlignedAlloc al n) (live t) /\ run (op_run g tid (OFreeSized p n)) s = Fail f /\ size_mismatch f.
Proof.
  exists g0, o0, t1, s1, 25795574016, 64, 200, 0, (Fatal "sized deallocation mismatch (small)").
  split; [reflexivity|]. split; [exact demo1_history|]. split; [cbn; tauto|]. split; [|left; reflexivity].
  pose proof (demo1_looks (LEnd 0 (OFreeSized 25795574016 200) (Fatal "sized deallocation mismatch (small)")) ltac:(in_list)) as (_ & _ & _ & _ & E). exact E.
Qed.
Definition l19 : script := [fun _ => (0, OMalloc 0); fun _ => (0, OMalloc 300); fun t => (0, OFree (ptr 1 t))].
Lemma l19_check : checkf g0 o0 l19 (fun t s => ownsb t (ptr 0 t) (OMalloc 0) && match run (op_run g0 0 (OFreeSized (ptr 0 t) (7 * 2 ^ 61 + 1))) s with Ok (AUnit, _) => true | _ => false end &&
  negb (ptr 1 t =? 0) && negb (existsb (fun b => fst b =? ptr 1 t) (live t)) && match run (op_run g0 0 (ORealloc (ptr 1 t) 300)) s with Ok (APtr q, _) => q =? ptr 1 t | _ => false end) = true.
Proof. vm_cast_no_check (eq_refl true). Qed.
Lemma C19_zero_bad : exists (g : config) (o : os) (t : trace) (s : state) (p n tid : Z) (s' : state),
  usable_config g = true /\ history g (own_store g) o t s /\ In (p, OMalloc 0) (live t) /\ word n /\ run (op_run g tid (OFreeSized p n)) s = Ok (AUnit, s') /\ ~ same_size g 0 n.
Proof.
  destruct (checkf_ok _ _ _ _ l19_check) as (t & s & H & C). rewrite !andb_true_iff in C. destruct C as [[[[C1 C2] _] _] _].
  destruct (run (op_run g0 0 (OFreeSized (ptr 0 t) (7 * 2 ^ 61 + 1))) s) as [[[] s']|] eqn:E; try discriminate.
  exists g0, o0, t, s, (ptr 0 t), (7 * 2 ^ 61 + 1), 0, s'. split; [reflexivity|]. split; [exact H|]. split; [apply ownsb_ok, C1|]. split; [unfold word; lia|]. split; [exact E|].
  intros (r & R0 & R1). unfold rounds_to in R0, R1. change (padded g0 0) with 0 in R0. change (padded g0 (7 * 2 ^ 61 + 1)) with (7 * 2 ^ 61 + 1) in R1.
  change (0 <=? max_slab_size_class g0) with true in R0. change (7 * 2 ^ 61 + 1 <=? max_slab_size_class g0) with false in R1. cbv iota in R0, R1.
  assert (r <= max_slab_size_class g0) as L.
  { destruct R0 as (_ & _ & M). assert (slab_class (max_slab_size_class g0) 0) as Z0 by (apply table_spec; left; reflexivity). specialize (M 0 Z0 ltac:(lia)). change (max_slab_size_class g0) with 16384. lia. }
  destruct R1 as (_ & G & _). change (max_slab_size_class g0) with 16384 in L. lia.
Qed.
Lemma C48_bad : exists (g : config) (o : os) (t : trace) (s : state) (p n tid : Z) (s' : state),
  usable_config g = true /\ history g (own_store g) o t s /\ p <> 0 /\ ~ is_live t p /\ run (op_run g tid (ORealloc p n)) s = Ok (APtr p, s').
Proof.
  destruct (checkf_ok _ _ _ _ l19_check) as (t & s & H & C). rewrite !andb_true_iff, !negb_true_iff in C. destruct C as [[[_ C1] C2] C3].
  destruct (run (op_run g0 0 (ORealloc (ptr 1 t) 300)) s) as [[[] s']|] eqn:E; try discriminate.
  exists g0, o0, t, s, (ptr 1 t), 300, 0, s'. repeat split; [exact H|lia| |replace p with (ptr 1 t) in E by lia; exact E].
  intros (c & I). assert (existsb (fun b => fst b =? ptr 1 t) (live t) = true) as Q by (apply existsb_exists; exists (ptr 1 t, c); split; [exact I|cbn; lia]). congruence.
Qed.
