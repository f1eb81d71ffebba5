(** Size class: frame lemmas, primitive steps, phases of an allocation. *)
From Coq Require Import String ZArith List Bool Lia ZifyBool.
From Verif Require Import M_Base M_Config M_SizeClass M_Libdivide M_OS M_Random M_Slab
  P_Base P_Count P_SizeClass P_Libdivide P_Random P_Bitmap P_Bitmap2 P_OS P_Links P_Slab1.
Import ListNotations.
Open Scope Z_scope.
Ltac Zify.zify_post_hook ::= idtac.

(** ** frame lemmas *)
Lemma geom_ext g k c c' : c_start c' = c_start c -> c_info c' = c_info c -> c_size_div c' = c_size_div c ->
  c_slab_div c' = c_slab_div c -> geom g k c -> geom g k c'.
Proof. intros E1 E2 E3 E4 []. constructor; rewrite ?E1, ?E2, ?E3, ?E4; auto. Qed.
Lemma meta_ext g k c c' : c_mallocated c' = c_mallocated c -> c_mcount c' = c_mcount c -> c_munguarded c' = c_munguarded c ->
  meta_ok g k c -> meta_ok g k c'.
Proof. intros E1 E2 E3 []. constructor; rewrite ?E1, ?E2, ?E3; auto. Qed.
Lemma sptr_ext g k c c' i j : c_start c' = c_start c -> sptr g k c' i j = sptr g k c i j.
Proof. unfold sptr, slabp. intros ->. reflexivity. Qed.
Lemma quar_ext g k c c' L : c_start c' = c_start c -> c_qrandom c' = c_qrandom c -> c_qqueue c' = c_qqueue c -> c_qqidx c' = c_qqidx c ->
  (forall i j, quar c' i j = quar c i j) -> quar_ok g k c L -> quar_ok g k c' L.
Proof.
  intros E1 E2 E3 E4 E5 []. constructor; rewrite ?E2, ?E3, ?E4; auto.
  intros p. rewrite qu_in. split; intros (i & j & H1 & H2 & H3); exists i, j; specialize (E5 i j);
    pose proof (sptr_ext g k c c' i j E1); (split; [auto|split; congruence]).
Qed.
Lemma pages_ext g k o c o' c' (A A' : Z -> Prop) : c_start c' = c_start c -> c_info c' = c_info c -> (forall q, pages o' q = pages o q) ->
  (forall x, mem o' x = mem o x \/ (mem o' x = 0) \/ pages o (page_of x) <> Some PNone) ->
  (forall i, A' i <-> A i) -> pages_ok g k o c A -> pages_ok g k o' c' A'.
Proof.
  intros E1 E1' E2 E3 EA [].
  assert (forall i q, in_slab g k c' i q <-> in_slab g k c i q) as S by (unfold in_slab, slabp; rewrite E1; tauto).
  assert (forall q, in_class g c' q <-> in_class g c q) as C by (unfold in_class; rewrite E1; tauto).
  constructor.
  - intros i q Ha Hq. rewrite E2. apply S in Hq. apply EA in Ha. eauto.
  - intros q Hq H. rewrite E2. apply pg_none; [now apply C|]. intros i Ha Hi. apply EA in Ha. apply S in Hi. eapply H; eauto.
  - intros x Hx Hn. rewrite E2 in Hn. apply C in Hx. destruct (E3 x) as [->|[->|Hp]]; auto. contradiction.
  - rewrite E1'. intros q. rewrite E2. auto.
Qed.
Lemma linked_ext c c' P E F : c_partial c' = c_partial c -> c_empty c' = c_empty c -> c_fhead c' = c_fhead c -> c_ftail c' = c_ftail c ->
  c_fq c' = c_fq c -> (forall i, nxt c' i = nxt c i) -> (forall i, prv c' i = prv c i) -> linked c P E F -> linked c' P E F.
Proof.
  intros E1 E2 E3 E4 E5 E6 E7 []. constructor; rewrite ?E1, ?E2, ?E3, ?E4, ?E5; auto.
  - eapply dll_ext; [|eassumption]. auto.
  - eapply sll_ext; [|eassumption]. auto.
  - eapply sll_ext; [|eassumption]. auto.
  - intros i Hi. rewrite E6. auto.
Qed.
Lemma is_slab_ext g c c' i : c_mcount c' = c_mcount c -> is_slab g c' i <-> is_slab g c i.
Proof. unfold is_slab. intros ->. tauto. Qed.
Lemma matched_ext g k c c' P E F X : c_mcount c' = c_mcount c -> c_fq c' = c_fq c -> (forall i, cntof c' i = cntof c i) ->
  (forall i, nxt c' i = nxt c i) -> (forall i, prv c' i = prv c i) -> matched g k c P E F X -> matched g k c' P E F X.
Proof.
  intros E1 E2 E3 E4 E5 []. constructor.
  - intros i Hi. rewrite E3. auto.
  - intros i Hi. rewrite E2, E3, (is_slab_ext g c c' i E1). auto.
  - intros i. rewrite E3, (is_slab_ext g c c' i E1). auto.
  - intros i. rewrite E1, E4, E5. auto.
  - intros i Hi. rewrite E2, (is_slab_ext g c c' i E1). auto.
Qed.
(** a change of the system state only *)
Lemma cinvX_os g k o o' c P E F X L : (forall q, pages o' q = pages o q) ->
  (forall x, mem o' x = mem o x \/ (mem o' x = 0) \/ pages o (page_of x) <> Some PNone) ->
  cinvX g k o c P E F X L -> cinvX g k o' c P E F X L.
Proof. intros E1 E2 []. constructor; auto. eapply pages_ext; [reflexivity|reflexivity|exact E1|exact E2| |eassumption]. tauto. Qed.

(** ** primitive steps *)
Lemma md_wp i (s : cstate) (Q : slab -> cstate -> Prop) (E : fault -> Prop) :
  0 <= i < c_mallocated (cs_c s) -> Q (c_slabs (cs_c s) i) s -> wp (md i) s Q E.
Proof.
  intros H HQ. unfold md. apply wp_bind, wp_gets.
  replace ((0 <=? i) && (i <? c_mallocated (cs_c s))) with true by lia. now apply wp_ret.
Qed.
Definition smap (i : Z) (f : slab -> slab) (c : size_class) : size_class :=
  set_c_slabs (fupd (c_slabs c) i (f (c_slabs c i))) c.
Lemma upd_md_wp i f (s : cstate) (Q : unit -> cstate -> Prop) (E : fault -> Prop) :
  0 <= i < c_mallocated (cs_c s) -> Q tt (mkCst (cs_os s) (smap i f (cs_c s))) -> wp (upd_md i f) s Q E.
Proof.
  intros H HQ. unfold upd_md. apply wp_bind, md_wp; [auto|]. unfold set_md. apply wp_bind, wp_gets.
  replace ((0 <=? i) && (i <? c_mallocated (cs_c s))) with true by lia. unfold upd_c. apply wp_modify. exact HQ.
Qed.
Lemma upd_c_wp f (s : cstate) (Q : unit -> cstate -> Prop) (E : fault -> Prop) :
  Q tt (mkCst (cs_os s) (f (cs_c s))) -> wp (upd_c f) s Q E.
Proof. intros H. unfold upd_c. apply wp_modify. exact H. Qed.
Lemma c_sys_wp {A} (m : M os A) s Q E :
  wp m (cs_os s) (fun a o' => Q a (mkCst o' (cs_c s))) E -> wp (c_sys m) s Q E.
Proof. intros H. unfold c_sys. apply wp_zoom. exact H. Qed.
Lemma c_rand_wp {A} (m : M rstate A) s Q E :
  wp m (mkRst (cs_os s) (c_rng (cs_c s))) (fun a r => Q a (mkCst (r_os r) (set_c_rng (r_rng r) (cs_c s)))) E -> wp (c_rand m) s Q E.
Proof. intros H. unfold c_rand. apply wp_zoom. exact H. Qed.

Lemma smap_slabs i f c j : c_slabs (smap i f c) j = if j =? i then f (c_slabs c i) else c_slabs c j.
Proof. reflexivity. Qed.
Lemma smap_proj {A} (pr : slab -> A) i f c j : (forall m, pr (f m) = pr m) -> pr (c_slabs (smap i f c) j) = pr (c_slabs c j).
Proof. intros H. rewrite smap_slabs. destruct (Z.eqb_spec j i); subst; auto. Qed.

Lemma os_in_rel D o o' : os_rel o o' -> os_in D o o'.
Proof. intros []. constructor; intros; try congruence; try lia. Qed.
Lemma slab_ok_0 g k c i : (forall i, slab_ok (get_slots g k) (c_slabs c i)) -> 0 <= cntof c i.
Proof. intros H. unfold cntof. rewrite (so_cnt _ _ (H i)). apply zcount_nonneg. Qed.

(** a draw from the generator of the class *)
Lemma cinvX_rng g k o o' c r P E F X L : os_rel o o' -> rng_ok r -> cinvX g k o c P E F X L -> cinvX g k o' (set_c_rng r c) P E F X L.
Proof.
  intros O R []. constructor; auto.
  - eapply geom_ext; [..|exact ci_geom]; reflexivity.
  - eapply meta_ext; [..|exact ci_meta]; reflexivity.
  - eapply linked_ext; [..|exact ci_link]; reflexivity.
  - eapply matched_ext; [..|exact ci_match]; reflexivity.
  - eapply quar_ext; [..|exact ci_quar]; reflexivity.
  - eapply pages_ext; [..|exact ci_pages]; [reflexivity|reflexivity|..]; try tauto; destruct O; [intros; now rewrite or_pages|].
    intros x. left. now rewrite or_mem.
Qed.

Section Phases.
Context (g : config) (k : Z).
Local Notation n := (get_slots g k).
Local Notation sz := (slot_size g k).
Local Notation b := (slab_size_of g k).

Lemma slab_range o c P E F X L i : cinvX g k o c P E F X L -> is_slab g c i -> 0 <= i < c_mallocated c /\ i < get_metadata_max g b.
Proof.
  intros [] [Hi Hg]. destruct ci_meta. pose proof (uc_gi _ (ucfg_of g (ge_u _ _ _ ci_geom))) as Ug.
  assert (0 <= i < c_mallocated c) as R; [|lia].
  destruct (Z.eq_dec i (c_mallocated c)) as [->|]; [|lia].
  destruct me_cnt as [_ [M|[M U]]]; [lia|]. exfalso. apply Hg.
  rewrite U, M in me_mod. set (G := GUARD_SLABS_INTERVAL g) in *.
  pose proof (Z.div_mod (c_mallocated c + 1) (G + 1) ltac:(lia)) as D. rewrite me_mod in D.
  symmetry. apply (Z.mod_unique _ _ ((c_mallocated c + 1) / (G + 1) - 1)); lia.
Qed.

Lemma fresh_slab o c P E F X L i : cinvX g k o c P E F X L -> cntof c i = 0 -> forall j, 0 <= j < 256 -> used c i j = false /\ quar c i j = false.
Proof.
  intros I H j Hj. destruct (ci_slabs _ _ _ _ _ _ _ _ _ I i). unfold cntof in H. rewrite so_cnt in H.
  assert (used c i j = false) as U.
  { unfold used. destruct (Z.lt_ge_cases j n); [|apply so_hi; lia].
    apply (proj1 (zcount_zero _ _ _) H). lia. }
  split; [exact U|]. unfold quar. destruct (bm_get (sb_qbitmap (c_slabs c i)) j) eqn:Q; [|auto].
  apply so_q in Q; [|auto]. unfold used in U. congruence.
Qed.

(** take a slot of the slab in hand *)
Lemma cinvX_take o c P E F L i j : cinvX g k o c P E F (Some i) L -> 0 <= j < n -> used c i j = false ->
  let c' := smap i (fun m => set_sb_count (w16 (sb_count m + 1)) (set_sb_bitmap (bm_set (sb_bitmap m) j) m)) c in
  cinvX g k o c' P E F (Some i) L /\ cntof c' i = cntof c i + 1 /\
  (forall i' j', 0 <= j' < 256 -> used c' i' j' = used c i' j' || ((i' =? i) && (j' =? j))) /\ (forall i' j', quar c' i' j' = quar c i' j').
Proof.
  intros I Hj Hu c'. destruct I. pose proof (class_facts_all g k (ge_k _ _ _ ci_geom)) as CF. destruct CF.
  assert (cntof c i + 1 <= n) as Hc.
  { unfold cntof. rewrite (so_cnt _ _ (ci_slabs i)).
    pose proof (zcount_le (bm_get (sb_bitmap (c_slabs c i))) 0 n ltac:(lia)).
    destruct (Z.eq_dec (zcount (bm_get (sb_bitmap (c_slabs c i))) 0 n) n) as [Ef|]; [|lia].
    pose proof (proj1 (zcount_full (bm_get (sb_bitmap (c_slabs c i))) 0 n ltac:(lia)) ltac:(lia) j ltac:(lia)) as X. unfold used in Hu. congruence. }
  pose proof (slab_ok_0 g k c i ci_slabs) as Hc0.
  assert (cntof c' i = cntof c i + 1) as Ec.
  { unfold cntof, c'. rewrite smap_slabs, Z.eqb_refl. cbn. unfold cntof in Hc, Hc0. apply w16_small. change (2 ^ 16) with 65536. lia. }
  assert (forall x, x <> i -> cntof c' x = cntof c x) as Eo.
  { intros x Hx. unfold cntof, c'. rewrite smap_slabs. destruct (Z.eqb_spec x i); [contradiction|auto]. }
  assert (forall i' j', 0 <= j' < 256 -> used c' i' j' = used c i' j' || ((i' =? i) && (j' =? j))) as Eu.
  { intros i' j' Hj'. unfold used, c'. rewrite smap_slabs. destruct (Z.eqb_spec i' i) as [->|]; cbn.
    - destruct (ci_slabs i). rewrite bm_get_set by (auto; lia). destruct (Z.eqb_spec j' j); [now rewrite orb_true_r|]. now rewrite orb_false_r.
    - now rewrite orb_false_r. }
  assert (forall i' j', quar c' i' j' = quar c i' j') as Eq.
  { intros. unfold quar, c'. f_equal. apply (smap_proj sb_qbitmap). reflexivity. }
  assert (forall x, nxt c' x = nxt c x) as En by (intros; apply (smap_proj sb_next); reflexivity).
  assert (forall x, prv c' x = prv c x) as Ep by (intros; apply (smap_proj sb_prev); reflexivity).
  split; [|auto]. constructor; auto.
  - eapply geom_ext; [..|exact ci_geom]; reflexivity.
  - eapply meta_ext; [..|exact ci_meta]; reflexivity.
  - intros x. unfold c'. rewrite smap_slabs. destruct (Z.eqb_spec x i) as [->|]; [|auto].
    destruct (ci_slabs i). constructor; cbn; auto.
    + apply bm_set_ok; [auto|lia].
    + unfold cntof in *. rewrite w16_small by (change (2 ^ 16) with 65536; lia). rewrite so_cnt.
      rewrite (zcount_upd (bm_get (sb_bitmap (c_slabs c i))) (bm_get (bm_set (sb_bitmap (c_slabs c i)) j)) 0 n j); [|lia|].
      * rewrite bm_get_set by (auto; lia). rewrite Z.eqb_refl. unfold used in Hu. rewrite Hu. cbn. lia.
      * intros y Hy Hn. rewrite bm_get_set by (auto; lia). destruct (Z.eqb_spec y j); [contradiction|cbn; auto].
    + intros y Hy. rewrite bm_get_set by (auto; lia). destruct (Z.eqb_spec y j); [lia|cbn; auto].
    + intros y Hy Hq. rewrite bm_get_set by (auto; lia). destruct (Z.eqb_spec y j); cbn; auto.
  - eapply linked_ext; [..|exact ci_link]; auto.
  - destruct ci_match. constructor; auto.
    + intros x Hx. rewrite Eo by congruence. auto.
    + intros x Hx. rewrite Eo by congruence. rewrite (is_slab_ext g c c' x eq_refl). exact (ma_0 x Hx).
    + intros x Hx. rewrite (is_slab_ext g c c' x eq_refl). destruct (Z.eq_dec x i) as [->|Hn]; [apply (ma_X i); auto|].
      rewrite Eo in Hx by auto. auto.
    + intros x Hx. rewrite En, Ep. auto.
  - eapply quar_ext; [..|exact ci_quar]; auto.
  - eapply pages_ext; [..|exact ci_pages]; auto. intros x. unfold active. destruct (Z.eq_dec x i) as [->|Hn]; [tauto|]. rewrite Eo by auto. tauto.
Qed.

(** put the slab in hand down where its count says it belongs *)
Lemma cinvX_settle o c P E F L i : cinvX g k o c P E F (Some i) L -> 0 < cntof c i -> (In i P <-> cntof c i < n) -> cinvX g k o c P E F None L.
Proof.
  intros [] Hc HP. constructor; auto.
  - destruct ci_match. constructor; auto; try discriminate.
    + intros x _. destruct (Z.eq_dec x i) as [->|]; [|apply ma_P; congruence]. rewrite HP. lia.
    + intros x _. destruct (Z.eq_dec x i) as [->|]; [|apply ma_0; congruence]. pose proof (ma_X i eq_refl). split; [tauto|]. lia.
  - eapply pages_ext; [..|exact ci_pages]; auto. intros x. unfold active. split; [intuition congruence|].
    intros [H|[H|H]]; auto. injection H as <-. auto.
Qed.
Lemma cinvX_hold o c P E F L i : cinvX g k o c P E F None L -> 0 < cntof c i -> cinvX g k o c P E F (Some i) L.
Proof.
  intros [] Hc. constructor; auto.
  - destruct ci_match. constructor; auto.
    + intros x _. apply ma_P. discriminate.
    + intros x _. apply ma_0. discriminate.
    + intros x Hx. injection Hx as <-. split; [auto|]. intros Hi. apply ma_0 in Hi; [lia|discriminate].
  - eapply pages_ext; [..|exact ci_pages]; auto. intros x. unfold active. split; [|intuition congruence].
    intros [H|[H|H]]; auto. injection H as <-. auto.
Qed.
End Phases.
