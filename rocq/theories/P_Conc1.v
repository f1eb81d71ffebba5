(** Interleaved calls: what each running call holds, the invariant that all threads
    maintain together, and the rules for programs under interference. *)
From Coq Require Import String ZArith List Bool Lia ZifyBool Permutation.
From Verif Require Import M_Base M_Config M_SizeClass M_Libdivide M_OS M_Random M_Slab M_Region M_Api M_Hist S_Heap
  P_Base P_Count P_SizeClass P_Libdivide P_Random P_Bitmap P_Bitmap2 P_OS P_Links P_Slab1 P_Slab2 P_Slab3 P_Slab4 P_Slab9 P_Slab10 P_Slab11 P_Path
  P_Region P_Region2 P_Heap1 P_Heap2 P_Heap3 P_Heap4 P_Heap5 P_Heap6 P_Heap7 P_Init P_Heap8.
Import ListNotations.
Open Scope Z_scope.
Ltac Zify.zify_post_hook ::= idtac.

(** ** what a thread holds: [TI] the allocator is initialized with these bounds, [TP] this
    thread has drawn an arena but not checked for initialization, [TF] pages in its hands,
    [TO] an entry of the table whose pages are in its hands, [TS], [TL] small and large
    blocks, [TG], [TD] a pointer it has just been given or has just given up *)
Inductive tok : Type := TI (a e : Z) | TP (t : Z) | TF (f : fl) | TO (r : region) | TS (p n : Z) | TL (r : region) | TG (p : Z) | TD (p : Z).
Definition flights : list tok -> list fl := flat_map (fun t => match t with TF f => [f] | _ => [] end).
Definition opens : list tok -> list region := flat_map (fun t => match t with TO r => [r] | _ => [] end).
Definition blks : list tok -> list (Z * Z) := flat_map (fun t => match t with TS p n => [(p, n)] | TL r => [(rg_p r, rg_size r)] | _ => [] end).
Definition ptrs (T : list tok) : list Z := map fst (blks T).
Fixpoint net (T : list tok) (p : Z) : Z :=
  match T with
  | [] => 0
  | t :: T => (match t with TG q => if q =? p then 1 else 0 | TD q => if q =? p then -1 else 0 | _ => 0 end) + net T p
  end.
Definition is_bt (t : tok) : bool := match t with TS _ _ | TL _ | TG _ | TD _ => true | _ => false end.
Definition bts : list tok -> list tok := filter is_bt.
Lemma flights_app a b : flights (a ++ b) = flights a ++ flights b. Proof. apply flat_map_app. Qed.
Lemma opens_app a b : opens (a ++ b) = opens a ++ opens b. Proof. apply flat_map_app. Qed.
Lemma blks_app a b : blks (a ++ b) = blks a ++ blks b. Proof. apply flat_map_app. Qed.
Lemma ptrs_app a b : ptrs (a ++ b) = ptrs a ++ ptrs b. Proof. unfold ptrs. rewrite blks_app. apply map_app. Qed.
Lemma net_app a b p : net (a ++ b) p = net a p + net b p. Proof. induction a; cbn; lia. Qed.
Lemma blks_bts T : blks (bts T) = blks T. Proof. induction T as [|[] T IH]; cbn; rewrite ?IH; auto. Qed.
Lemma ptrs_bts T : ptrs (bts T) = ptrs T. Proof. unfold ptrs. now rewrite blks_bts. Qed.
Lemma net_bts T p : net (bts T) p = net T p. Proof. induction T as [|[] T IH]; cbn; rewrite ?IH; auto. Qed.
Lemma in_bts t T : is_bt t = true -> (In t (bts T) <-> In t T). Proof. intros H. unfold bts. rewrite filter_In. tauto. Qed.
Lemma net_perm T T' p : Permutation T T' -> net T p = net T' p. Proof. induction 1; cbn; lia. Qed.
Lemma flights_perm T T' : Permutation T T' -> Permutation (flights T) (flights T'). Proof. apply Permutation_flat_map. Qed.
Lemma opens_perm T T' : Permutation T T' -> Permutation (opens T) (opens T'). Proof. apply Permutation_flat_map. Qed.
Lemma blks_perm T T' : Permutation T T' -> Permutation (blks T) (blks T'). Proof. apply Permutation_flat_map. Qed.
Lemma ptrs_perm T T' : Permutation T T' -> Permutation (ptrs T) (ptrs T'). Proof. intros H. apply Permutation_map, blks_perm, H. Qed.
Lemma in_flights f T : In f (flights T) <-> In (TF f) T.
Proof. unfold flights. rewrite in_flat_map. split; [intros ([] & H1 & H2); cbn in H2; try tauto; destruct H2 as [->|[]]; auto|intros H; exists (TF f); cbn; auto]. Qed.
Lemma in_opens f T : In f (opens T) <-> In (TO f) T.
Proof. unfold opens. rewrite in_flat_map. split; [intros ([] & H1 & H2); cbn in H2; try tauto; destruct H2 as [->|[]]; auto|intros H; exists (TO f); cbn; auto]. Qed.
Lemma in_blks b T : In b (blks T) <-> exists t, In t T /\ In b (blks [t]).
Proof. unfold blks at 1. rewrite in_flat_map. split; intros (t & H1 & H2); exists t; (split; [auto|]); unfold blks in *; cbn in *; rewrite ?app_nil_r in *; auto. Qed.

(** pages only change hands *)
Lemma ginv_fl g s LL X X' : ginv g s LL X -> (rl_strict LL = true -> forall q, cover (map fl_in X) q <= cover (map fl_in X') q) -> (forall f, In f X' -> In f X) -> (forall q, cover (map fl_in X') q <= cover (map fl_in X) q) -> ginv g s LL X'.
Proof.
  intros I Hs Hin Hc. replace s with (set_st_ra (st_ra s) s) by (destruct s; reflexivity). pose proof I as []. eapply ginv_relabel; [exact I|..]; auto.
  - intros q. rewrite !cover_app. specialize (Hc q). lia.
  - intros SL _. split; [auto|]. split; [auto|]. intros q. rewrite !cover_app. specialize (Hs SL q). lia.
Qed.
Lemma ginv_fl_perm g s LL X X' : ginv g s LL X -> Permutation X X' -> ginv g s LL X'.
Proof.
  intros I P. eapply ginv_fl; [exact I| | |].
  - intros _ q. rewrite (cover_perm _ (map fl_in X') q); [lia|]. apply Permutation_map, P.
  - intros f Hf. eapply Permutation_in; [apply Permutation_sym; exact P|exact Hf].
  - intros q. rewrite (cover_perm _ (map fl_in X) q); [lia|]. apply Permutation_map, Permutation_sym, P.
Qed.
Lemma ginv_regs g s LL LL' X : ginv g s LL X -> (rl_strict LL' = true -> rl_strict LL = true /\ rl_base LL' = rl_base LL) -> rl_own LL' = rl_own LL -> Permutation (rl_open LL) (rl_open LL') -> ginv g s LL' X.
Proof.
  intros I Es Eo P. assert (Permutation (rl_all LL) (rl_all LL')) as PA by (unfold rl_all; rewrite Eo; apply Permutation_app_head, P).
  replace s with (set_st_ra (st_ra s) s) by (destruct s; reflexivity). pose proof I as []. eapply ginv_relabel; [exact I|..]; auto.
  - eapply ra_ok_ext; [|exact gi_ra]. intros p. apply lmap_perm; auto.
  - eapply Permutation_NoDup; [apply Permutation_map, PA|auto].
  - intros r. rewrite Eo. auto.
  - intros q. rewrite Eo. lia.
  - intros Hs. apply gi_cold; auto. apply Es, Hs.
  - intros Hs _. destruct (Es Hs) as [E1 E2]. rewrite E1, E2, Eo. split; [auto|]. split; [auto|]. intros q. lia.
Qed.

(** the two kinds of programs: [true] their frees are correct and every block has an
    owner; [false] any frees, pointers are only counted *)
(** the kind of a call: [m_sz] marks the calls that free or only look, [m_ob] is what is known
    about the kernel: that it never refuses *)
Record mode : Type := mkMode { m_sz : bool; m_ob : Prop }.
Definition obliged (o : os) : Prop := forall n, sa_errno (sysq o n) <> ENOMEM.
Definition okst (sz : mode) (s : state) : Prop := table_cleared s /\ (m_ob sz -> obliged (st_os s)).
Section M.
Context (g : config) (md : bool) (sz : mode).
Definition tok_ok (s : state) (LL : regs) (t : tok) : Prop :=
  match t with
  | TS p n => in_slab_region p s = true /\ block g s LL p n
  | TL r => In r (rl_own LL)
  | _ => True
  end.
Definition ghost (bal : Z -> Z) (s : state) (LL : regs) (T : list tok) : Prop :=
  if md then clean g s /\ (forall t, In t T -> tok_ok s LL t) /\ NoDup (ptrs T)
  else forall p, ((exists n, block g s LL p n) -> bal p + net T p = 1) /\ ((forall n, ~ block g s LL p n) -> bal p + net T p = 0).
Record up (bal : Z -> Z) (s : state) (LL : regs) (T : list tok) : Prop := {
  up_inv : ginv g s LL (flights T);
  up_open : Permutation (rl_open LL) (opens T);
  up_sized : sized LL;
  up_ctr : 0 <= st_ctr s;
  up_arena : forall t, 0 <= st_arena s t;
  up_init : forall a e, In (TI a e) T -> st_start s = a /\ st_end s = e;
  up_ghost : ghost bal s LL T;
  up_loose : rl_strict LL = false }.
Record down (bal : Z -> Z) (s : state) (T : list tok) : Prop := {
  dn_u : usable_config g = true;
  dn_end : st_end s = 0;
  dn_cls : forall a k, st_cls s a k = class_zero;
  dn_ctr : 0 <= st_ctr s;
  dn_arena : forall t, 0 <= st_arena s t;
  dn_pick : forall t, st_arena s t < N_ARENA g -> In (TP t) T;
  dn_toks : forall t, In t T -> exists i, t = TP i;
  dn_bal : md = false -> forall p, bal p = 0 }.
Definition J (bal : Z -> Z) (s : state) (T : list tok) : Prop := (exists LL, up bal s LL T) \/ down bal s T.
Lemma ghost_perm bal s LL T T' : Permutation T T' -> ghost bal s LL T -> ghost bal s LL T'.
Proof.
  intros P. unfold ghost. destruct md.
  - intros (A & B & C). split; [auto|]. split; [intros t Ht; apply B; eapply Permutation_in; [apply Permutation_sym, P|auto]|]. eapply Permutation_NoDup; [apply ptrs_perm, P|auto].
  - intros H p. rewrite <- (net_perm _ _ p P). apply H.
Qed.
Lemma up_perm bal s LL T T' : Permutation T T' -> up bal s LL T -> up bal s LL T'.
Proof.
  intros P [A B C D E F G]. constructor; auto.
  - eapply ginv_fl_perm; [exact A|apply flights_perm, P].
  - eapply Permutation_trans; [exact B|apply opens_perm, P].
  - intros a e H. apply F. eapply Permutation_in; [apply Permutation_sym, P|auto].
  - eapply ghost_perm; eauto.
Qed.
Lemma J_perm bal s T T' : Permutation T T' -> J bal s T -> J bal s T'.
Proof.
  intros P [(LL & U)|[]]; [left; exists LL; eapply up_perm; eauto|]. right. constructor; auto.
  - intros t H. eapply Permutation_in; [exact P|auto].
  - intros t H. apply dn_toks0. eapply Permutation_in; [apply Permutation_sym, P|auto].
Qed.
Lemma up_is_init bal s LL T : up bal s LL T -> is_init s = true.
Proof. intros [I _ _ _ _ _ _ _]. unfold is_init. pose proof (gi_pl _ _ _ _ I) as [_ (B & _) En _]. rewrite En. pose proof (class_lo_in g s 0 0 (gi_u _ _ _ _ I)) as H.
  pose proof (gfacts_of g (gi_u _ _ _ _ I)) as []. unfold class_in in H. specialize (H ltac:(lia)). unfold REAL_CLASS_REGION_SIZE in H. lia. Qed.
(** knowledge of the bounds can be gained and dropped *)
Lemma up_learn bal s LL T : up bal s LL T -> up bal s LL (TI (st_start s) (st_end s) :: T).
Proof.
  intros [A B C D E F G]. constructor; auto.
  - intros a e [[= <- <-]|H]; auto.
  - revert G. unfold ghost. destruct md; [|auto]. intros (G1 & G2 & G3). split; [auto|]. split; [|auto]. intros t [<-|H]; [exact Logic.I|auto].
Qed.

(** ** what a step must do to the tokens of its thread *)
Definition gch (s' : state) (LL' : regs) (rm : option Z) (add : option (Z * Z)) (rmT addT : list tok) : Prop :=
  if md then
    (rm = None /\ rmT = [] \/ exists t p n, rmT = [t] /\ is_bt t = true /\ blks [t] = [(p, n)] /\ rm = Some p) /\
    (add = None /\ addT = [] \/ exists t p n, addT = [t] /\ is_bt t = true /\ blks [t] = [(p, n)] /\ add = Some (p, n) /\ tok_ok s' LL' t)
  else rmT = [] /\ addT = (match rm with Some p => [TD p] | None => [] end) ++ (match add with Some (p, _) => [TG p] | None => [] end).
Definition keepb (rest : list tok) (s s' : state) : Prop :=
  md = true -> forall p n x, In (p, n) (blks rest) -> p <= x < p + n -> mem (st_os s') x = mem (st_os s) x.
Definition calm (rest : list tok) (s s' : state) : Prop := forall f x, In f (flights rest) -> fl_in f (page_of x) = true -> mem (st_os s') x = mem (st_os s) x.
(** the blocks and the pages of others keep their contents *)
Definition keep (rest : list tok) (s s' : state) : Prop := keepb rest s s' /\ calm rest s s'.
Lemma keep_refl rest s : keep rest s s. Proof. split; [intros _ p n x _ _|intros f x _ _]; reflexivity. Qed.
Lemma keep_incl rest rest' s s' : (forall t, In t rest' -> In t rest) -> keep rest s s' -> keep rest' s s'.
Proof.
  intros H [K C]. split.
  - intros E p n x Hp Hx. apply (K E p n x); [|exact Hx]. apply in_blks in Hp. apply in_blks. destruct Hp as (t & Ht & Hp). eauto.
  - intros f x Hf. apply C. apply in_flights. apply H, in_flights, Hf.
Qed.
Lemma tok_block s LL t p n : tok_ok s LL t -> In (p, n) (blks [t]) -> block g s LL p n.
Proof. destruct t; cbn; try tauto; intros H [[= <- <-]|[]]; [apply H|]. right. destruct r as [p n gd]. exists gd. exact H. Qed.
Lemma perm_in_l {A} (x : A) l l' : Permutation l l' -> In x l' -> In x l. Proof. intros P. apply Permutation_in, Permutation_sym, P. Qed.
Lemma ghost_step bal s LL s' LL' rm add r r' rest rmT addT R : ghost bal s LL (r ++ rest) -> hstep g s LL s' LL' rm add ->
  st_start s' = st_start s -> st_end s' = st_end s ->
  (forall x, In x (rl_own LL) -> rm <> Some (rg_p x) -> In x (rl_own LL')) ->
  (forall p, rm = Some p -> exists n, block g s LL p n) ->
  gch s' LL' rm add rmT addT -> Permutation (bts r) (rmT ++ R) -> Permutation (bts r') (addT ++ R) ->
  ghost bal s' LL' (r' ++ rest) /\ keepb rest s s'.
Proof.
  intros G H E1 E2 HO HR HG P P'. unfold ghost, gch, keepb in *. destruct md.
  - destruct G as (G1 & G2 & G3). destruct HG as [Hrm Hadd].
    assert (forall t, In t R -> In t (r ++ rest)) as InR.
    { intros t Ht. apply in_or_app. left. assert (In t (bts r)) by (eapply perm_in_l; [exact P|apply in_or_app; auto]). unfold bts in *. apply filter_In in H0. tauto. }
    assert (NoDup (ptrs rmT ++ ptrs R ++ ptrs rest)) as ND.
    { eapply Permutation_NoDup; [|exact G3]. rewrite ptrs_app, app_assoc, <- (ptrs_app rmT), <- (ptrs_bts r). apply Permutation_app_tail, ptrs_perm, P. }
    assert (forall t p n, In t (R ++ rest) -> In (p, n) (blks [t]) -> rm <> Some p) as NRM.
    { intros t p n Ht Hb E. destruct Hrm as [[Hn _]|(t0 & p0 & n0 & -> & _ & B0 & E0)]; [congruence|]. assert (p0 = p) by congruence. subst p0.
      assert (ptrs [t0] = [p]) as Ep by (unfold ptrs; now rewrite B0). rewrite Ep in ND. inversion ND as [|? ? N1 N2]; subst. apply N1. rewrite <- ptrs_app. unfold ptrs. apply in_map_iff. exists (p, n). split; [auto|]. apply in_blks. eauto. }
    assert (forall t, In t (R ++ rest) -> In t (r ++ rest)) as In0 by (intros t Ht; apply in_app_iff in Ht; destruct Ht; [auto|apply in_or_app; auto]).
    assert (forall t, In t (R ++ rest) -> tok_ok s' LL' t) as OK.
    { intros t Ht. pose proof (G2 t (In0 t Ht)) as K. destruct t; cbn in *; auto.
      - destruct K as [K1 K2]. unfold in_slab_region in *. rewrite E1, E2. split; [auto|]. apply (hs_blk _ _ _ _ _ _ _ H). left. split; [auto|]. apply (NRM (TS p n) p n Ht). cbn. auto.
      - apply HO; [auto|]. apply (NRM (TL r0) _ (rg_size r0) Ht). cbn. auto. }
    split; [split; [apply (hs_clean _ _ _ _ _ _ _ H G1)|split]|].
    + intros t Ht. apply in_app_iff in Ht. destruct Ht as [Ht|Ht]; [|apply OK, in_or_app; auto].
      destruct (is_bt t) eqn:Bt; [|destruct t; try discriminate; exact Logic.I]. apply in_bts in Ht; [|auto]. apply (Permutation_in t P') in Ht. apply in_app_iff in Ht. destruct Ht as [Ht|Ht]; [|apply OK, in_or_app; auto].
      destruct Hadd as [[_ ->]|(t0 & p0 & n0 & -> & _ & _ & _ & K)]; [destruct Ht|]. destruct Ht as [<-|[]]. exact K.
    + assert (Permutation (ptrs (r' ++ rest)) (ptrs addT ++ ptrs R ++ ptrs rest)) as PP.
      { rewrite ptrs_app, app_assoc, <- (ptrs_app addT), <- (ptrs_bts r'). apply Permutation_app_tail, ptrs_perm, P'. }
      eapply Permutation_NoDup; [apply Permutation_sym, PP|]. apply NoDup_app_inv in ND. destruct ND as (_ & ND & _).
      destruct Hadd as [[_ ->]|(t0 & p0 & n0 & -> & _ & B0 & Ea & K)]; [exact ND|]. assert (ptrs [t0] = [p0]) as Ep by (unfold ptrs; now rewrite B0). rewrite Ep. constructor; [|exact ND].
      intros Hp. rewrite <- ptrs_app in Hp. unfold ptrs in Hp. apply in_map_iff in Hp. destruct Hp as ((p1 & n1) & Ep1 & Hp). cbn in Ep1. subst p1. apply in_blks in Hp. destruct Hp as (t & Ht & Hb).
      apply (NRM t p0 n1 Ht Hb). apply (hs_new _ _ _ _ _ _ _ H p0 n0 n1 Ea). eapply tok_block; [apply G2, In0, Ht|exact Hb].
    + intros _ p n x Hb Hx. apply in_blks in Hb. destruct Hb as (t & Ht & Hb). eapply (hs_mem _ _ _ _ _ _ _ H); [eapply tok_block; [apply G2, in_or_app; right; exact Ht|exact Hb]| |exact Hx].
      apply (NRM t p n); [apply in_or_app; auto|auto].
  - split; [|discriminate]. destruct HG as [-> ->]. intros p. specialize (G p). rewrite net_app, <- (net_bts r'), (net_perm _ _ p P'), !net_app.
    rewrite net_app, <- (net_bts r), (net_perm _ _ p P) in G. cbn [app] in G. destruct G as [G1 G2].
    assert (net (match rm with Some p => [TD p] | None => [] end) p = if match rm with Some q => q =? p | None => false end then -1 else 0) as -> by (destruct rm as [q|]; cbn; [destruct (q =? p)|]; lia).
    assert (net (match add with Some (p, _) => [TG p] | None => [] end) p = if match add with Some (q, _) => q =? p | None => false end then 1 else 0) as -> by (destruct add as [[q n]|]; cbn; [destruct (q =? p)|]; lia).
    assert (forall n, block g s' LL' p n <-> (block g s LL p n /\ rm <> Some p) \/ add = Some (p, n)) as HB by (intros n; apply (hs_blk _ _ _ _ _ _ _ H)).
    assert (rm = Some p \/ rm <> Some p) as [Er|Er] by (destruct rm as [q|]; [destruct (Z.eq_dec q p); [left|right]; congruence|right; discriminate]).
    + destruct (HR p Er) as (m & Hm). specialize (G1 (ex_intro _ m Hm)). subst rm. rewrite Z.eqb_refl. destruct add as [[q n]|].
      * destruct (Z.eqb_spec q p) as [->|N]; split; intros K; try lia.
        -- elim (K n). apply HB. auto.
        -- destruct K as (k & K). apply HB in K. destruct K as [[_ K]|K]; congruence.
      * split; intros K; [|lia]. destruct K as (k & K). apply HB in K. destruct K as [[_ K]|K]; congruence.
    + replace (match rm with Some q => q =? p | None => false end) with false by (destruct rm as [q|]; [|auto]; symmetry; apply Z.eqb_neq; congruence).
      destruct add as [[q n]|].
      * destruct (Z.eqb_spec q p) as [->|N].
        -- assert (forall k, ~ block g s LL p k) as NB by (intros k K; apply Er; eapply (hs_new _ _ _ _ _ _ _ H); eauto). specialize (G2 NB). split; intros K; [lia|]. elim (K n). apply HB. auto.
        -- split; intros K; [cut (exists n0, block g s LL p n0); [intros W; specialize (G1 W); lia|]|cut (forall n0, ~ block g s LL p n0); [intros W; specialize (G2 W); lia|]].
           ++ destruct K as (k & K). apply HB in K. destruct K as [[K _]|K]; [eauto|congruence].
           ++ intros k Hk. apply (K k), HB. auto.
      * split; intros K; [cut (exists n0, block g s LL p n0); [intros W; specialize (G1 W); lia|]|cut (forall n0, ~ block g s LL p n0); [intros W; specialize (G2 W); lia|]].
        ++ destruct K as (k & K). apply HB in K. destruct K as [[K _]|K]; [eauto|congruence].
        ++ intros k Hk. apply (K k), HB. auto.
Qed.

(** ** programs under interference *)
Definition efault (f : fault) : Prop := sys_fault f \/ rng_fault f \/ init_fault f \/ (m_sz sz = true /\ size_mismatch f) \/ (md = false /\ exists m, f = Fatal m).
(** each entry without its own pages has pages of the same thread at its address *)
Definition covd (T : list tok) : Prop := forall r, In (TO r) T -> md = true /\ exists f, In (TF f) T /\ fl_in f (page_of (rg_p r)) = true.
(** [sz] marks the calls that free or only look: they never hold a block they allocated *)
Definition mine (tid : Z) (r : list tok) : Prop := covd r /\ (forall t, In (TP t) r -> t = tid) /\ (forall p, In (TG p) r -> m_sz sz = false).
Definition others (tid : Z) (r : list tok) : Prop := covd r /\ ~ In (TP tid) r.
Fixpoint csafe {A} (tid : Z) (p : prog state A) (r : list tok) (Q : A -> list tok -> Prop) : Prop :=
  match p with
  | Ret a => Q a r
  | Act m k => forall s rest bal, okst sz s -> J bal s (r ++ rest) -> others tid rest ->
      wp m s (fun b s' => exists r', J bal s' (r' ++ rest) /\ keep rest s s' /\ mine tid r' /\ csafe tid (k b) r' Q) efault
  end.
Lemma covd_app a b : covd a -> covd b -> covd (a ++ b).
Proof. intros A B r H. apply in_app_iff in H. destruct H as [H|H]; [destruct (A r H) as (E & f & F1 & F2)|destruct (B r H) as (E & f & F1 & F2)]; (split; [auto|]); exists f; rewrite in_app_iff; auto. Qed.
Lemma csafe_mono {A} tid (p : prog state A) : forall r (Q Q' : A -> list tok -> Prop), csafe tid p r Q -> (forall a r', Q a r' -> Q' a r') -> csafe tid p r Q'.
Proof.
  induction p as [a|B m k IH]; cbn; intros r Q Q' H HQ; [auto|]. intros s rest bal T U O. eapply wp_mono; [apply (H s rest bal T U O)| |auto].
  intros b s' (r' & K1 & K2 & K3 & K4). exists r'. split; [auto|]. split; [auto|]. split; [auto|]. eapply IH; eauto.
Qed.
Lemma csafe_bind {A B} tid (p : prog state A) (f : A -> prog state B) : forall r (Q : A -> list tok -> Prop) (Q' : B -> list tok -> Prop),
  csafe tid p r Q -> (forall a r', Q a r' -> csafe tid (f a) r' Q') -> csafe tid (pbind p f) r Q'.
Proof.
  induction p as [a|C m k IH]; cbn; intros r Q Q' H HQ; [auto|]. intros s rest bal T U O. eapply wp_mono; [apply (H s rest bal T U O)| |auto].
  intros b s' (r' & K1 & K2 & K3 & K4). exists r'. split; [auto|]. split; [auto|]. split; [auto|]. eapply IH; eauto.
Qed.
(** other things the thread holds stay *)
Lemma csafe_frame {A} tid (F : list tok) (p : prog state A) : covd F -> ~ In (TP tid) F -> (forall t, ~ In (TP t) F) -> (forall p, ~ In (TG p) F) -> forall r (Q : A -> list tok -> Prop),
  csafe tid p r Q -> csafe tid p (r ++ F) (fun a r' => exists r0, r' = r0 ++ F /\ Q a r0).
Proof.
  intros HF NF NP NG. induction p as [a|C m k IH]; cbn; intros r Q H; [eauto|]. intros s rest bal T U O. rewrite <- app_assoc in U.
  eapply wp_mono; [apply (H s (F ++ rest) bal T U)| |auto].
  - destruct O as [O1 O2]. split; [apply covd_app; auto|]. rewrite in_app_iff. tauto.
  - intros b s' (r' & K1 & K2 & K3 & K4). exists (r' ++ F). rewrite <- app_assoc. split; [auto|]. split; [|split; [|apply IH, K4]].
    + eapply keep_incl; [|exact K2]. intros t Ht. apply in_or_app. auto.
    + destruct K3 as (M1 & M2 & M3). split; [apply covd_app; auto|]. split; [intros t Ht; apply in_app_iff in Ht; destruct Ht as [Ht|Ht]; [auto|elim (NP t Ht)]|]. intros p Ht. apply in_app_iff in Ht. destruct Ht as [Ht|Ht]; [eauto|elim (NG p Ht)].
Qed.
Lemma csafe_perm {A} tid (p : prog state A) r r' (Q : A -> list tok -> Prop) : Permutation r r' -> (forall a x y, Permutation x y -> Q a x -> Q a y) -> csafe tid p r Q -> csafe tid p r' Q.
Proof.
  intros P HQ. destruct p as [a|C m k]; cbn; [intros H; eapply HQ; eauto|]. intros H s rest bal T U O. apply (H s rest bal T); [|auto].
  eapply J_perm; [|exact U]. apply Permutation_app_tail, Permutation_sym, P.
Qed.
(** parts of the state *)
Lemma csafe_zoom_bind {S A B} tid (gt : state -> S) (st : S -> state -> state) (p : prog S A) (f : A -> prog S B) : forall r (Q : B -> list tok -> Prop),
  csafe tid (pbind (pzoom gt st p) (fun a => pzoom gt st (f a))) r Q -> csafe tid (pzoom gt st (pbind p f)) r Q.
Proof.
  induction p as [a|C m k IH]; cbn; intros r Q H; [auto|]. intros s rest bal T U O. eapply wp_mono; [apply (H s rest bal T U O)| |auto].
  intros b s' (r' & K1 & K2 & K3 & K4). exists r'. split; [auto|]. split; [auto|]. split; [auto|]. apply IH, K4.
Qed.
Lemma csafe_psys {A} tid (p : prog os A) : forall r (Q : A -> list tok -> Prop), csafe tid (p_os p) r Q -> csafe tid (p_ra (ra_psys p)) r Q.
Proof.
  induction p as [a|C m k IH]; cbn; intros r Q H; [auto|]. intros s rest bal T U O. specialize (H s rest bal T U O). revert H. unfold wp, zoom, ra_sys. cbn [ra_get rs_os]. 
  destruct (m (st_os s)) as [[b o]|f]; [|auto]. replace (ra_put (set_rs_os o (ra_get s)) s) with (set_st_os o s) by (destruct s; reflexivity).
  intros (r' & K1 & K2 & K3 & K4). exists r'. split; [auto|]. split; [auto|]. split; [auto|]. apply IH, K4.
Qed.
(** one action *)
Lemma csafe_act {A} tid (m : M state A) r (Q : A -> list tok -> Prop) :
  (forall s rest bal, okst sz s -> J bal s (r ++ rest) -> others tid rest ->
     wp m s (fun b s' => exists r', J bal s' (r' ++ rest) /\ keep rest s s' /\ mine tid r' /\ Q b r') efault) -> csafe tid (act m) r Q.
Proof. intros H. exact H. Qed.
Lemma csafe_up {A} tid (m : M state A) r a e (Q : A -> list tok -> Prop) : In (TI a e) r ->
  (forall s rest bal LL, okst sz s -> up bal s LL (r ++ rest) -> others tid rest -> st_start s = a -> st_end s = e ->
     wp m s (fun b s' => exists r', (exists LL', up bal s' LL' (r' ++ rest)) /\ keep rest s s' /\ mine tid r' /\ Q b r') efault) -> csafe tid (act m) r Q.
Proof.
  intros Hi H. apply csafe_act. intros s rest bal T [(LL & U)|D] O.
  - destruct (up_init _ _ _ _ U a e ltac:(apply in_or_app; auto)) as [E1 E2]. eapply wp_mono; [apply (H s rest bal LL T U O E1 E2)| |auto]. intros b s' (r' & K1 & K2). exists r'. split; [left; exact K1|exact K2].
  - destruct (dn_toks _ _ _ D (TI a e) ltac:(apply in_or_app; auto)) as (i & [=]).
Qed.
(** the general step of the invariant *)
Lemma up_step bal s LL s' LL' rm add r r' rest rmT addT R : up bal s LL (r ++ rest) -> hstep g s LL s' LL' rm add -> same_place s s' -> rl_strict LL' = rl_strict LL ->
  ginv g s' LL' (flights r' ++ flights rest) -> Permutation (rl_open LL') (opens r' ++ opens rest) -> sized LL' ->
  (forall a e, In (TI a e) r' -> st_start s = a /\ st_end s = e) ->
  (forall x, In x (rl_own LL) -> rm <> Some (rg_p x) -> In x (rl_own LL')) ->
  (forall p, rm = Some p -> exists n, block g s LL p n) ->
  gch s' LL' rm add rmT addT -> Permutation (bts r) (rmT ++ R) -> Permutation (bts r') (addT ++ R) -> calm rest s s' ->
  up bal s' LL' (r' ++ rest) /\ keep rest s s'.
Proof.
  intros [A B C D E F G GS] H SP SE I P S TI HO HR HG P1 P2 CM. destruct SP as [s1 s2 s3 s4 s5].
  destruct (ghost_step bal s LL s' LL' rm add r r' rest rmT addT R G H s2 s3 HO HR HG P1 P2) as [G' K']. split; [|exact (conj K' CM)]. constructor; auto.
  - rewrite flights_app. exact I.
  - rewrite opens_app. exact P.
  - rewrite s4. exact D.
  - intros t. rewrite s5. apply E.
  - intros a e Ht. apply in_app_iff in Ht. rewrite s2, s3. destruct Ht as [Ht|Ht]; [auto|]. apply F, in_or_app. auto.
  - congruence.
Qed.
End M.
