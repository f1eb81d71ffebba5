(** The operations a size class goes through: each call is a sequence of class operations. *)
From Coq Require Import String ZArith List Bool Lia ZifyBool Permutation.
From Verif Require Import M_Base M_Config M_SizeClass M_Libdivide M_OS M_Random M_Slab M_Region M_Api M_Hist
  P_Base P_Count P_SizeClass P_Libdivide P_Random P_Bitmap P_Bitmap2 P_OS P_Links P_Slab1 P_Slab2 P_Slab3 P_Slab4 P_Slab5 P_Slab6 P_Slab7 P_Slab8 P_Slab9 P_Slab10 P_Slab11.
Import ListNotations.
Open Scope Z_scope.
Ltac Zify.zify_post_hook ::= idtac.

(** the kernel's answers are consumed in order *)
Definition later (o o' : os) : Prop := sysq o' = sysq o /\ (sysn o <= sysn o')%nat.
Lemma later_refl o : later o o. Proof. split; [auto|lia]. Qed.
Lemma later_trans o1 o2 o3 : later o1 o2 -> later o2 o3 -> later o1 o3. Proof. intros [A B] [C D]. split; [congruence|lia]. Qed.
Lemma later_in D o o' : os_in D o o' -> later o o'. Proof. intros []. split; auto. Qed.
Lemma refused_mono o o1 o2 o' : later o o1 -> later o1 o2 -> later o2 o' -> refused o1 o2 -> refused o o'.
Proof. intros [A1 B1] [A2 B2] [A3 B3] (t & Ht & E). exists t. split; [lia|]. congruence. Qed.

Definition fresh_class (g : config) (c : size_class) : Prop := exists st inf d1 d2 rng,
  c = mkClass st inf d1 d2 (repeat 0 (Z.to_nat (quarantine_random_dim g))) (repeat 0 (Z.to_nat (quarantine_queue_dim g))) 0
        None None 0 None None (repeat None (Z.to_nat (FREE_SLABS_QUARANTINE_RANDOM_LENGTH g))) 0 0 0 0 rng 0 0 0 (fun _ => slab_zero).

(** what the program sees of an operation: slot handed out, slot given back *)
Inductive clab : Type := LA (p : Z) | LF (p : Z).
Definition trim_spec (g : config) (k : Z) (o : os) (c : size_class) (E F : list Z) (o' : os) (c' : size_class) : Prop :=
  exists E1 E' F', E = E1 ++ E' /\ cinvL g k o' c' E' F' /\ trim_post g k o c F o' c' F' E1 /\ (E' = [] \/ refused o o').
Inductive cpath (g : config) (k : Z) : os -> size_class -> list clab -> os -> size_class -> Prop :=
| cp_refl o c : cpath g k o c [] o c
| cp_init o o' c' : later o o' -> fresh_class g c' -> cpath g k o class_zero [] o' c'
| cp_time o c ls o1 c1 o2 : cpath g k o c ls o1 c1 -> later o1 o2 -> cpath g k o c ls o2 c1
| cp_alloc o c ls o1 c1 E F p o2 c2 : cpath g k o c ls o1 c1 -> cinvL g k o1 c1 E F -> alloc_spec g k o1 c1 E F (Some p) (mkCst o2 c2) -> cpath g k o c (ls ++ [LA p]) o2 c2
| cp_none o c ls o1 c1 E F o2 c2 : cpath g k o c ls o1 c1 -> cinvL g k o1 c1 E F -> alloc_spec g k o1 c1 E F None (mkCst o2 c2) -> cpath g k o c ls o2 c2
| cp_free o c ls o1 c1 E F p e o2 c2 : cpath g k o c ls o1 c1 -> cinvL g k o1 c1 E F -> dealloc_spec g k o1 c1 E F p e (mkCst o2 c2) -> cpath g k o c (ls ++ [LF p]) o2 c2
| cp_trim o c ls o1 c1 E F o2 c2 : cpath g k o c ls o1 c1 -> cinvL g k o1 c1 E F -> trim_spec g k o1 c1 E F o2 c2 -> cpath g k o c ls o2 c2.
Lemma alloc_later g k o c E F r s' : alloc_spec g k o c E F r s' -> later o (cs_os s') /\ c_start (cs_c s') = c_start c.
Proof. intros (o' & c' & E' & F' & -> & _ & O & CS & _). split; [eapply later_in; eauto|apply CS]. Qed.
Lemma dealloc_later g k o c E F p e s' : dealloc_spec g k o c E F p e s' -> later o (cs_os s') /\ c_start (cs_c s') = c_start c.
Proof. intros (o' & c' & E' & F' & i & j & -> & _ & [] & _). split; [eapply later_in; eauto|apply dp_same]. Qed.
Lemma trim_later g k o c E F o' c' : trim_spec g k o c E F o' c' -> later o o' /\ c_start c' = c_start c.
Proof. intros (E1 & E' & F' & _ & _ & [] & _). split; [eapply later_in; eauto|apply tp_same]. Qed.
Lemma cpath_later g k o c ls o' c' : cpath g k o c ls o' c' -> later o o'.
Proof.
  induction 1; auto using later_refl; try (eapply later_trans; [eassumption|]); auto.
  - apply (alloc_later _ _ _ _ _ _ _ _ H1).
  - apply (alloc_later _ _ _ _ _ _ _ _ H1).
  - apply (dealloc_later _ _ _ _ _ _ _ _ _ H1).
  - apply (trim_later _ _ _ _ _ _ _ _ H1).
Qed.
Lemma cpath_start g k o c ls o' c' : cpath g k o c ls o' c' -> c_start c <> 0 -> c_start c' = c_start c.
Proof.
  induction 1; intros N; auto.
  - elim N. reflexivity.
  - rewrite <- IHcpath by auto. apply (alloc_later _ _ _ _ _ _ _ _ H1).
  - rewrite <- IHcpath by auto. apply (alloc_later _ _ _ _ _ _ _ _ H1).
  - rewrite <- IHcpath by auto. apply (dealloc_later _ _ _ _ _ _ _ _ _ H1).
  - rewrite <- IHcpath by auto. apply (trim_later _ _ _ _ _ _ _ _ H1).
Qed.
Lemma cinvL_nz g k o c E F : cinvL g k o c E F -> c_start c <> 0.
Proof. intros (P & I & _). pose proof (ge_start _ _ _ (ci_geom _ _ _ _ _ _ _ _ _ I)). lia. Qed.
Lemma cpath_zero g k o c ls o' c' : cpath g k o c ls o' c' -> c_start c' = 0 -> (c = class_zero \/ c = c') /\ ls = [].
Proof.
  induction 1; intros Z0; auto.
  - destruct H1 as (x & y & E' & F' & Q & I' & _). injection Q as -> ->. elim (cinvL_nz _ _ _ _ _ _ I'). exact Z0.
  - destruct H1 as (x & y & E' & F' & Q & I' & _). injection Q as -> ->. elim (cinvL_nz _ _ _ _ _ _ I'). exact Z0.
  - destruct H1 as (x & y & E' & F' & i & j & Q & I' & _). injection Q as -> ->. elim (cinvL_nz _ _ _ _ _ _ I'). exact Z0.
  - destruct H1 as (E1 & E' & F' & _ & I' & _). elim (cinvL_nz _ _ _ _ _ _ I'). exact Z0.
Qed.
Lemma cpath_app g k o c l1 o1 c1 l2 o2 c2 : cpath g k o c l1 o1 c1 -> cpath g k o1 c1 l2 o2 c2 -> cpath g k o c (l1 ++ l2) o2 c2.
Proof.
  intros H1 H2. induction H2; rewrite ?app_nil_r, ?app_assoc; auto.
  - assert (L1 := cpath_later _ _ _ _ _ _ _ H1). destruct (cpath_zero _ _ _ _ _ _ _ H1 eq_refl) as [[-> | ->] ->]; (apply cp_init; [eapply later_trans; eassumption|assumption]).
  - eapply cp_time; eauto.
  - eapply cp_alloc; eauto.
  - eapply cp_none; eauto.
  - eapply cp_free; eauto.
  - eapply cp_trim; eauto.
Qed.
Lemma cpath_stay g k o c o' : later o o' -> cpath g k o c [] o' c.
Proof. intros H. eapply cp_time; [apply cp_refl|auto]. Qed.

(** ** the part of a call that concerns one class *)
Definition inb (g : config) (c : size_class) (p : Z) : bool := (c_start c <=? p) && (p <? c_start c + CLASS_REGION_SIZE g).
Definition same_ptr (a b : option Z) : bool := match a, b with Some x, Some y => x =? y | _, _ => false end.
Definition lift_ptr (g : config) (c : size_class) (x other : option Z) (f : Z -> clab) : list clab :=
  match x with Some p => if inb g c p && negb (same_ptr x other) then [f p] else [] | None => [] end.
Definition addp (add : option (Z * Z)) : option Z := match add with Some (p, _) => Some p | None => None end.
Definition moves (g : config) (c : size_class) (rm : option Z) (add : option (Z * Z)) : list clab :=
  lift_ptr g c (addp add) rm LA ++ lift_ptr g c rm (addp add) LF.
Lemma inb_ext g c c' p : c_start c' = c_start c -> inb g c' p = inb g c p. Proof. intros E. unfold inb. rewrite E. reflexivity. Qed.
Lemma moves_ext g c c' rm add : c_start c' = c_start c -> moves g c' rm add = moves g c rm add.
Proof. intros E. unfold moves, lift_ptr. destruct (addp add), rm; rewrite ?(inb_ext g c c' _ E); reflexivity. Qed.
Lemma moves_none g c : moves g c None None = []. Proof. reflexivity. Qed.
Lemma moves_out g c rm add : (forall p, rm = Some p -> inb g c p = false) -> (forall p n, add = Some (p, n) -> inb g c p = false) -> moves g c rm add = [].
Proof. intros H1 H2. unfold moves, lift_ptr. destruct add as [[p n]|], rm as [q|]; cbn [addp]; rewrite ?(H1 _ eq_refl), ?(H2 _ _ eq_refl); reflexivity. Qed.
Lemma moves_add g c p n : moves g c None (Some (p, n)) = if inb g c p then [LA p] else [].
Proof. unfold moves, lift_ptr. cbn. rewrite andb_true_r, app_nil_r. reflexivity. Qed.
Lemma moves_rm g c p : moves g c (Some p) None = if inb g c p then [LF p] else [].
Proof. unfold moves, lift_ptr. cbn. rewrite andb_true_r. reflexivity. Qed.
Lemma moves_both g c old q n : q <> old -> moves g c None (Some (q, n)) ++ moves g c (Some old) None = moves g c (Some old) (Some (q, n)).
Proof. intros N. rewrite moves_add, moves_rm. unfold moves, lift_ptr. cbn. replace (q =? old) with false by lia. replace (old =? q) with false by lia. rewrite !andb_true_r. reflexivity. Qed.
Lemma moves_same g c p n : moves g c (Some p) (Some (p, n)) = [].
Proof. unfold moves, lift_ptr. cbn. rewrite Z.eqb_refl, !andb_false_r. reflexivity. Qed.

(** ** the result of trimming one class *)
Definition trim_cls (g : config) (k : Z) (o : os) (c : size_class) (b : bool) (o' : os) (c' : size_class) : Prop :=
  exists E F E1 E' F', cinvL g k o c E F /\ E = E1 ++ E' /\ b = negb (match E1 with [] => true | _ => false end) /\
    cinvL g k o' c' E' F' /\ trim_post g k o c F o' c' F' E1 /\ (E' = [] \/ refused o o').

(** ** the lists of a class are determined by the class *)
Lemma sll_fun nx l : forall l', sll nx l -> sll nx l' -> hd_error l = hd_error l' -> l = l'.
Proof.
  induction l as [|i t IH]; intros [|i' t']; cbn; try discriminate; auto. intros [A B] [A' B'] [= ->]. f_equal. apply IH; auto. congruence.
Qed.
Lemma lists_fun g k o c E F o' E' F' : cinvL g k o c E F -> cinvL g k o' c E' F' -> E' = E /\ F' = F.
Proof.
  intros (P & I & _) (P' & I' & _). destruct (ci_link _ _ _ _ _ _ _ _ _ I), (ci_link _ _ _ _ _ _ _ _ _ I'). split.
  - eapply sll_fun; eauto; congruence.
  - eapply sll_fun; eauto; congruence.
Qed.
