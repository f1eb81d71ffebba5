(** Programs for the examples about address space. *)
From Coq Require Import String ZArith List Bool Lia.
From Verif Require Import M_Base M_Config M_SizeClass M_OS M_Random M_Slab M_Region M_Api M_Hist S_Heap S_Class S_Quar P_Api2 P_Demo P_Refute P_Demo6.
Import ListNotations.
Open Scope Z_scope.

(** the kernel refuses to unmap a freed block that is too large for the quarantine *)
Definition demo50 : script := [fun _ => (0, OMalloc 100); fun _ => (0, OMalloc 40000000); fun _ => (1, OMalloc 150000)].
Definition l50 (t : trace) (s : state) : bool :=
  let p := ptr 1 t in
  ownsb t p (OMalloc 40000000) && match run (h_malloc_usable_size g0 p) s with Ok (m, _) => 33554432 <=? m | Fail _ => false end &&
  negb ((st_start s <=? p) && (p <? st_end s)) && negb (ra_leftover (st_ra s)) && (0 <=? p) && (p <? 2 ^ 64) &&
  match run (op_run g0 0 (OFree p)) s with Ok (AUnit, s') => pageb s' p PRW | _ => false end.
Lemma l50_check : checkf g0 o24 demo50 l50 = true.
Proof. vm_cast_no_check (eq_refl true). Qed.
Lemma C50_bad : exists (g : config) (o : os) (t : trace) (s : state) (p : Z) (b : op) (n tid : Z) (s1 : state),
  usable_config g = true /\ history g (own_store g) o t s /\ In (p, b) (live t) /\ ~ in_small_area s p /\ usable_size g s p n /\ REGION_QUARANTINE_SKIP_THRESHOLD g <= n /\
  calls g (own_store g) t s tid (OFree p) AUnit s1 /\ accessible s1 p.
Proof.
  destruct (checkf_ok _ _ _ _ l50_check) as (t & s & H & C). unfold l50 in C. cbv zeta in C. set (p := ptr 1 t) in *. rewrite !andb_true_iff, !negb_true_iff in C. destruct C as [[[[[[C1 C2] C3] C4] C5] C6] C7].
  destruct (run (op_run g0 0 (OFree p)) s) as [[a s']|] eqn:E; [|discriminate]. destruct a; try discriminate.
  destruct (run (h_malloc_usable_size g0 p) s) as [[m s2]|] eqn:E2; [|discriminate]. exists g0, o24, t, s, p, (OMalloc 40000000), m, 0, s'.
  split; [reflexivity|]. split; [exact H|]. pose proof (ownsb_ok _ _ _ C1) as L. split; [exact L|]. split; [unfold in_small_area; lia|].
  split; [exists s2; exact E2|]. change (REGION_QUARANTINE_SKIP_THRESHOLD g0) with 33554432. split; [lia|]. split; [|exact (pageb_ok _ _ _ C7)].
  split; [exact C4|]. split; [cbn; unfold word; lia|]. split; [cbn; exact I|]. split; [exact I|exact E].
Qed.

Lemma demo50_init : check g0 o0 true demo8 t8 [LOther is_init] = true.
Proof. vm_cast_no_check (eq_refl true). Qed.
Lemma s8_init : is_init s8 = true.
Proof. exact (proj2 (check_ok _ _ _ _ _ _ demo50_init) (LOther is_init) (or_introl eq_refl)). Qed.
Lemma t8_t10 : continues g0 (own_store g0) t8 s8 t10 s10.
Proof. exact (check_cont g0 o0 true demo8 _ _ _ _ _ demo8_check demo10_check). Qed.
Lemma demo50_held : check g0 o0 true demo10 t10 [LNone 42949701632] = true.
Proof. vm_cast_no_check (eq_refl true). Qed.
Lemma s10_held : inaccessible s10 42949701632.
Proof. exact (proj2 (check_ok _ _ _ _ _ _ demo50_held) (LNone 42949701632) (or_introl eq_refl)). Qed.
