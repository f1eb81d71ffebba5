(** Programs for the examples about the quarantine of large blocks. *)
From Coq Require Import String ZArith List Bool Lia.
From Verif Require Import M_Base M_Config M_SizeClass M_OS M_Random M_Slab M_Region M_Api M_Hist S_Heap S_Class S_Quar P_Api2 P_Demo P_Refute.
Import ListNotations.
Open Scope Z_scope.

Definition demo8 : script := [fun _ => (0, OMalloc 100); fun _ => (0, OMalloc 200000); fun _ => (1, OMalloc 150000)].
Definition demo9 : script := demo8 ++ [fun t => (0, OFree (ptr 1 t))].
Definition demo10 : script := demo9 ++ [fun t => (1, OFree (ptr 2 t)); fun t => (1, OMalloc 200000); fun t => (0, OFree (ptr 5 t))].
Definition t8 : trace := [mkEv 1 (OMalloc 150000) (APtr 51539619840); mkEv 0 (OMalloc 200000) (APtr 42949701632); mkEv 0 (OMalloc 100) (APtr 25784834800)].
Definition t9 : trace := mkEv 0 (OFree 42949701632) AUnit :: t8.
Definition t10 : trace := [mkEv 0 (OFree 68719591424) AUnit; mkEv 1 (OMalloc 200000) (APtr 68719591424); mkEv 1 (OFree 51539619840) AUnit] ++ t9.
Definition s8 : state := final g0 o0 true demo8.
Definition s9 : state := final g0 o0 true demo9.
Definition s10 : state := final g0 o0 true demo10.
Definition never_refusedb (s : state) : bool := forallb (fun i => negb (sa_errno (sysq (st_os s) i) =? ENOMEM)) (seq 0 (sysn (st_os s))).
Lemma never_refusedb_ok s : never_refusedb s = true -> never_refused s.
Proof. unfold never_refusedb. rewrite forallb_forall. intros H i Hi E. specialize (H i). rewrite E, Z.eqb_refl in H. discriminate H. apply in_seq. lia. Qed.
Definition looks8 : list look := [LUsable 42949701632 229376; LOther (fun s => negb ((st_start s <=? 42949701632) && (42949701632 <? st_end s))); LRW 42949701632].
Definition looks10 : list look := [LOther never_refusedb].
Lemma demo8_check : check g0 o0 true demo8 t8 looks8 = true.
Proof. vm_cast_no_check (eq_refl true). Qed.
Lemma demo9_check : check g0 o0 true demo9 t9 [] = true.
Proof. vm_cast_no_check (eq_refl true). Qed.
Lemma demo10_check : check g0 o0 true demo10 t10 looks10 = true.
Proof. vm_cast_no_check (eq_refl true). Qed.
Lemma demo8_history : history g0 (own_store g0) o0 t8 s8.
Proof. exact (proj1 (check_ok _ _ _ _ _ _ demo8_check)). Qed.
Lemma demo8_looks k : In k looks8 -> looks g0 true t8 s8 k.
Proof. exact (proj2 (check_ok _ _ _ _ _ _ demo8_check) k). Qed.
Lemma demo10_looks k : In k looks10 -> looks g0 true t10 s10 k.
Proof. exact (proj2 (check_ok _ _ _ _ _ _ demo10_check) k). Qed.
Lemma cont_one g W t s e s' : continues g W t s (e :: t) s' -> calls g W t s (e_tid e) (e_op e) (e_ans e) s'.
Proof.
  intros H. inversion H as [E|t1 s1 tid c a s2 H1 H2 E]; subst.
  - exfalso. match goal with X : t = _ :: t |- _ => apply (f_equal (@length _)) in X; cbn in X; lia | X : _ :: t = t |- _ => apply (f_equal (@length _)) in X; cbn in X; lia end.
  - inversion H1 as [E1|t3 s3 tid' c' a' s4 H3 H4 E1]; subst; [exact H2|]. exfalso. assert (forall t' s', continues g W (mkEv tid' c' a' :: t3) s t' s' -> (length t3 < length t')%nat) as L by (induction 1; cbn in *; lia). apply L in H3. lia.
Qed.
Lemma demo9_free : calls g0 (own_store g0) t8 s8 0 (OFree 42949701632) AUnit s9.
Proof. exact (cont_one _ _ _ _ _ _ (check_cont g0 o0 true demo8 _ _ _ _ _ demo8_check demo9_check)). Qed.
(** calls that may quarantine, at most *)
Definition maybe (e : event) : bool := match e_op e with OFree _ | OFreeSized _ _ | ORealloc _ _ => true | _ => false end.
Definition maybes (t : trace) : nat := length (filter maybe t).
Lemma cont_at_most g W t s t' s' : continues g W t s t' s' -> exists k, at_most g W t s k t' s' /\ (k + maybes t = maybes t')%nat.
Proof.
  induction 1 as [|t1 s1 tid c a s2 H (k & A & E) K]; [exists 0%nat; split; [constructor|reflexivity]|]. unfold maybes in *. cbn [filter]. destruct (maybe (mkEv tid c a)) eqn:M; cbn [length].
  - exists (S k). split; [econstructor 3; eauto|lia].
  - exists k. split; [econstructor 2; eauto|lia]. destruct c; cbn in M; try discriminate; exact (fun f => f).
Qed.
Lemma demo10_at_most : at_most g0 (own_store g0) t9 s9 2 t10 s10.
Proof.
  pose proof (check_cont g0 o0 true demo9 _ _ _ _ _ demo9_check demo10_check) as C. destruct (cont_at_most _ _ _ _ _ _ C) as (k & A & E). change (maybes t9) with 1%nat in E. change (maybes t10) with 3%nat in E. replace 2%nat with k by lia. exact A.
Qed.

(** a kernel that refuses the mapping a free asks for *)
Definition o24 : os := mkOs (pages o0) (mem o0) (fun n => if Nat.eqb n 13 then mkSysans ENOMEM 0 else sysq o0 n) 0 (entq o0) 0 8 0.
Definition l24 (t : trace) (s : state) : bool :=
  ownsb t 42949701632 (OMalloc 200000) && match run (h_malloc_usable_size g0 42949701632) s with Ok (m, _) => m =? 229376 | Fail _ => false end &&
  negb ((st_start s <=? 42949701632) && (42949701632 <? st_end s)) && negb (ra_leftover (st_ra s)) &&
  match run (op_run g0 0 (OFree 42949701632)) s with Ok (AUnit, s') => pageb s' 42949701632 PRW | _ => false end.
Lemma l24_check : checkf g0 o24 demo8 l24 = true.
Proof. vm_cast_no_check (eq_refl true). Qed.
Lemma C24_bad : exists (g : config) (o : os) (t : trace) (s : state) (p : Z) (b : op) (n tid : Z) (s1 : state),
  usable_config g = true /\ history g (own_store g) o t s /\ In (p, b) (live t) /\ ~ in_small_area s p /\ usable_size g s p n /\ n < REGION_QUARANTINE_SKIP_THRESHOLD g /\ 0 < quarantine_length g /\
  calls g (own_store g) t s tid (OFree p) AUnit s1 /\ accessible s1 p.
Proof.
  destruct (checkf_ok _ _ _ _ l24_check) as (t & s & H & C). unfold l24 in C. rewrite !andb_true_iff, !negb_true_iff in C. destruct C as [[[[C1 C2] C3] C4] C5].
  destruct (run (op_run g0 0 (OFree 42949701632)) s) as [[a s']|] eqn:E; [|discriminate]. destruct a; try discriminate. exists g0, o24, t, s, 42949701632, (OMalloc 200000), 229376, 0, s'.
  split; [reflexivity|]. split; [exact H|]. pose proof (ownsb_ok _ _ _ C1) as L. split; [exact L|]. split; [unfold in_small_area; lia|].
  split. { unfold usable_size. destruct (run (h_malloc_usable_size g0 42949701632) s) as [[m s2]|]; [|discriminate]. exists s2. f_equal. f_equal. lia. }
  split; [reflexivity|]. split; [reflexivity|]. split; [|exact (pageb_ok _ _ _ C5)]. split; [exact C4|]. split; [cbn; unfold word; lia|]. split; [cbn; exact I|]. split; [exact I|exact E].
Qed.
