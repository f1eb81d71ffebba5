(** Size class: how a slab comes into the hand of an allocation. *)
From Coq Require Import String ZArith List Bool Lia ZifyBool.
From Verif Require Import M_Base M_Config M_SizeClass M_Libdivide M_OS M_Random M_Slab
  P_Base P_Count P_SizeClass P_Libdivide P_Random P_Bitmap P_Bitmap2 P_OS P_Links P_Slab1 P_Slab2.
Import ListNotations.
Open Scope Z_scope.
Ltac Zify.zify_post_hook ::= idtac.

(** the parts of a class that an operation leaves alone unless said otherwise *)
Record csame (g : config) (k : Z) (c c' : size_class) : Prop := {
  cs_start : c_start c' = c_start c;
  cs_info : c_info c' = c_info c;
  cs_qr : c_qrandom c' = c_qrandom c;
  cs_qq : c_qqueue c' = c_qqueue c;
  cs_qi : c_qqidx c' = c_qqidx c;
  cs_fq : c_fq c' = c_fq c;
  cs_quar : forall i j, quar c' i j = quar c i j;
  cs_can : forall i, 0 < cntof c i -> can c' i = can c i;
  cs_cnt : forall i, cntof c i <= cntof c' i
}.
Definition sstats (c c' : size_class) : Prop :=
  c_nmalloc c' = c_nmalloc c /\ c_ndalloc c' = c_ndalloc c /\ c_allocated c' = c_allocated c /\ c_slab_allocated c' = c_slab_allocated c.
Lemma csame_refl g k c : csame g k c c. Proof. constructor; auto. intros. lia. Qed.
Lemma csame_trans g k c1 c2 c3 : csame g k c1 c2 -> csame g k c2 c3 -> csame g k c1 c3.
Proof.
  intros [] []. constructor; intros; try congruence.
  - rewrite cs_can1, cs_can0; auto. specialize (cs_cnt0 i). lia.
  - specialize (cs_cnt0 i). specialize (cs_cnt1 i). lia.
Qed.
Lemma sstats_trans c1 c2 c3 : sstats c1 c2 -> sstats c2 c3 -> sstats c1 c3.
Proof. unfold sstats. intuition congruence. Qed.

Definition reset_links (i : Z) (c : size_class) : size_class := smap i (fun m => set_sb_prev None (set_sb_next None m)) c.
Lemma reset_nxt i c x : nxt (reset_links i c) x = if x =? i then None else nxt c x.
Proof. unfold nxt, reset_links. rewrite smap_slabs. destruct (Z.eqb_spec x i); reflexivity. Qed.
Lemma reset_prv i c x : prv (reset_links i c) x = if x =? i then None else prv c x.
Proof. unfold prv, reset_links. rewrite smap_slabs. destruct (Z.eqb_spec x i); reflexivity. Qed.

(** the ways a slab comes into the hand of an allocation, as state changes *)
Definition to_partial (g : config) (k i : Z) (c : size_class) : size_class :=
  set_c_partial (if 1 <? get_slots g k then Some i else None) c.
Definition pop_empty (g : config) (k i : Z) (c : size_class) : size_class :=
  to_partial g k i (reset_links i
    (set_c_empty_total (w64 (c_empty_total c - slab_size_of g k)) (set_c_empty (nxt c i) c))).
Definition pop_free (g : config) (k i : Z) (c : size_class) : size_class :=
  to_partial g k i (reset_links i
    (match nxt c i with None => set_c_ftail None | Some _ => fun c => c end (set_c_fhead (nxt c i) c))).
Definition drop_full (i : Z) (c : size_class) : size_class :=
  let c1 := set_c_partial (nxt c i) c in
  match nxt c i with Some h => smap h (set_sb_prev None) c1 | None => c1 end.

(** compute a view of an explicit class state, by cases on the slab index *)
Ltac vw := intros; repeat match goal with c' := _ : size_class |- _ => unfold c' end;
  unfold nxt, prv, cntof, quar, used, can, is_slab, pop_empty, pop_free, drop_full, to_partial, reset_links, smap; cbn; unfold fupd;
  repeat match goal with |- context [?x =? ?y] => destruct (Z.eqb_spec x y) end; subst; cbn; try reflexivity; try congruence; try lia.
Ltac fr := first
  [ eapply geom_ext; [..|eassumption]; reflexivity
  | eapply meta_ext; [..|eassumption]; reflexivity
  | eapply quar_ext; [..|eassumption]; (reflexivity || assumption)
  | assumption ].

Section P3.
Context (g : config) (k : Z).
Local Notation n := (get_slots g k).
Local Notation sz := (slot_size g k).
Local Notation b := (slab_size_of g k).

(** slab i gets memory: outside the zero-size class its pages become accessible *)
Lemma pages_add o o' c (A : Z -> Prop) i : pages_ok g k o c A -> 0 <= k ->
  (k = 0 -> forall q, in_slab g k c i q -> pages o q = Some PNone) ->
  (if k =? 0 then pages o' = pages o else forall q, pages o' q = if in_pages (slabp g k c i) b q then Some PRW else pages o q) ->
  (forall x, mem o' x = mem o x) -> pages_ok g k o' c (fun x => A x \/ x = i).
Proof.
  intros [Pa Pn Pz Pm] Hk Hz Hp Hm. revert Hp Pa. destruct (k =? 0) eqn:EK; intros Hp Pa.
  - apply Z.eqb_eq in EK. specialize (Hz EK). constructor.
    + intros x q [Ha| ->] Hq; rewrite Hp, EK; cbn; eauto.
    + intros q Hq H. rewrite Hp. apply Pn; auto.
    + intros x Hx. rewrite Hm, Hp. auto.
    + rewrite Hp. auto.
  - constructor.
    + intros x q Ha Hq. rewrite Hp, EK. destruct (in_pages (slabp g k c i) b q) eqn:Ei; [auto|].
      destruct Ha as [Ha| ->]; [eauto|]. unfold in_slab in Hq. congruence.
    + intros q Hq H. rewrite Hp. destruct (in_pages (slabp g k c i) b q) eqn:Ei; [|apply Pn; auto].
      elim (H i); auto.
    + intros x Hx. rewrite Hm, Hp. destruct (in_pages _ _ _); [discriminate|auto].
    + intros q Hq. rewrite Hp. destruct (in_pages (slabp g k c i) b q); [discriminate|auto].
Qed.

Lemma cinvX_pop_empty o c E F L i : cinvX g k o c [] (i :: E) F None L ->
  cinvX g k o (pop_empty g k i c) (if 1 <? n then [i] else []) E F (Some i) L /\ csame g k c (pop_empty g k i c) /\ sstats c (pop_empty g k i c) /\
  (forall i' j', used (pop_empty g k i c) i' j' = used c i' j') /\ cntof (pop_empty g k i c) i = 0 /\ nact g (pop_empty g k i c) F = nact g c F.
Proof.
  intros I. pose proof I as [G Me Sl Li Ma Qu Pg Et Rn Fq]. set (c' := pop_empty g k i c).
  pose proof (class_facts_all g k (ge_k _ _ _ G)) as CF.
  assert (forall x, nxt c' x = if x =? i then None else nxt c x) as En by vw.
  assert (forall x, prv c' x = if x =? i then None else prv c x) as Ep by vw.
  assert (forall x, cntof c' x = cntof c x) as Ec by vw.
  assert (forall x y, quar c' x y = quar c x y) as Eq by vw.
  assert (forall x y, used c' x y = used c x y) as Eu by vw.
  destruct Ma. assert (is_slab g c i /\ cntof c i = 0) as [Is C0] by (apply ma_0; [discriminate|now left]).
  destruct Li. cbn [app] in lk_nd. inversion lk_nd as [|? ? Ni Nd]; subst.
  assert (forall x, In x (E ++ F ++ somes (c_fq c)) -> x <> i) as Ne by (intros x Hx ->; contradiction).
  split; [|split; [|split; [repeat split|split; [auto|split; [rewrite Ec; auto|reflexivity]]]]].
  2:{ constructor; auto; [vw|intros x; rewrite Ec; lia]. }
  constructor; auto; try fr.
  - intros x. unfold c', pop_empty, to_partial, reset_links. cbn. unfold fupd. destruct (x =? i); [|auto].
    destruct (Sl i). constructor; auto.
  - constructor; auto.
    + change (c_partial c') with (if 1 <? n then Some i else None). destruct (1 <? n); reflexivity.
    + destruct (1 <? n); cbn; [|auto]. rewrite En, Ep, Z.eqb_refl. auto.
    + destruct (1 <? n); repeat constructor; auto.
    + change (c_empty c') with (nxt c i). apply lk_Es.
    + eapply sll_ext; [|apply lk_Es]. intros x Hx. rewrite En. destruct (Z.eqb_spec x i); [|auto]. elim (Ne x); auto. apply in_or_app; auto.
    + eapply sll_ext; [|exact lk_Fs]. intros x Hx. rewrite En. destruct (Z.eqb_spec x i); [|auto]. elim (Ne x); auto. apply in_or_app; right; apply in_or_app; auto.
    + intros x Hx. rewrite En. destruct (x =? i); auto.
    + intros x Hx. destruct (1 <? n); [|destruct Hx]. destruct Hx as [<-|[]]. auto.
  - constructor.
    + intros x Hx. rewrite Ec. rewrite <- ma_P by discriminate. destruct (1 <? n); cbn; intuition congruence.
    + intros x Hx. rewrite Ec, (is_slab_ext g c c' x eq_refl). rewrite <- ma_0 by discriminate. cbn. intuition congruence.
    + intros x. rewrite Ec, (is_slab_ext g c c' x eq_refl). auto.
    + intros x Hx. rewrite En, Ep. destruct (x =? i); auto.
    + intros x Hx. injection Hx as <-. rewrite (is_slab_ext g c c' _ eq_refl). auto.
  - eapply pages_ext; [..|exact Pg]; auto. intros x. unfold active. rewrite Ec. cbn. intuition congruence.
  - change (c_empty_total c') with (w64 (c_empty_total c - b)). rewrite Et, zlen_cons. pose proof (zlen_nonneg E).
    destruct CF. assert (zlen (i :: E) <= get_metadata_max g b) as B.
    { apply NoDup_bound.
      - change (i :: E ++ F ++ somes (c_fq c)) with ((i :: E) ++ F ++ somes (c_fq c)) in lk_nd. apply NoDup_app_inv in lk_nd. tauto.
      - pose proof (meta_max_bounds g k c G). lia.
      - intros x Hx. pose proof (slab_range g k o c _ _ _ _ _ x I) as R.
        assert (is_slab g c x) as Sx by (apply ma_0; [discriminate|]; rewrite in_app_iff; auto). specialize (R Sx). lia. }
    rewrite zlen_cons in B. pose proof (meta_max_bounds g k c G) as Mb.
    change (2 ^ 28) with 268435456 in Mb. rewrite w64_small; [lia|]. change (2 ^ 64) with 18446744073709551616. nia.
Qed.

(** a new canary value for a slab without live slots *)
Lemma cinvX_canary o c P E F X L i v : cinvX g k o c P E F X L -> 0 <= v < 2 ^ 64 -> v mod 256 = 0 -> cntof c i = 0 ->
  let c' := smap i (set_sb_canary v) c in
  cinvX g k o c' P E F X L /\ csame g k c c' /\ sstats c c' /\ (forall i' j', used c' i' j' = used c i' j') /\ can c' i = v /\
  (forall x, cntof c' x = cntof c x) /\ nact g c' F = nact g c F.
Proof.
  intros I Hv Hm H0 c'. pose proof I as [G Me Sl Li Ma Qu Pg Et Rn Fq].
  assert (forall x, nxt c' x = nxt c x) as En by vw.
  assert (forall x, prv c' x = prv c x) as Ep by vw.
  assert (forall x, cntof c' x = cntof c x) as Ec by vw.
  assert (forall x y, quar c' x y = quar c x y) as Eq by vw.
  assert (forall x y, used c' x y = used c x y) as Eu by vw.
  split; [|split; [|split; [repeat split|split; [auto|split; [vw|split; [auto|reflexivity]]]]]].
  2:{ constructor; auto; [intros x Hx; destruct (Z.eq_dec x i) as [->|]; [lia|vw]|intros x; rewrite Ec; lia]. }
  constructor; auto; try fr.
  - intros x. unfold c'. rewrite smap_slabs. destruct (x =? i); [|auto]. destruct (Sl i). constructor; auto.
  - eapply linked_ext; [..|exact Li]; auto.
  - eapply matched_ext; [..|exact Ma]; auto.
  - eapply pages_ext; [..|exact Pg]; auto. intros x. unfold active. rewrite Ec. tauto.
Qed.

Lemma cinvX_pop_free o o' c F L i : cinvX g k o c [] [] (i :: F) None L ->
  (if k =? 0 then pages o' = pages o else forall q, pages o' q = if in_pages (slabp g k c i) b q then Some PRW else pages o q) ->
  (forall x, mem o' x = mem o x) ->
  let c' := pop_free g k i c in
  cinvX g k o' c' (if 1 <? n then [i] else []) [] F (Some i) L /\ csame g k c c' /\ sstats c c' /\
  (forall i' j', used c' i' j' = used c i' j') /\ cntof c' i = 0 /\ nact g c' F = nact g c (i :: F) + 1.
Proof.
  intros I Hp Hm c'. pose proof I as [G Me Sl Li Ma Qu Pg Et Rn Fq].
  assert (c_empty c' = c_empty c /\ c_fhead c' = nxt c i /\ c_ftail c' = (match nxt c i with None => None | Some _ => c_ftail c end) /\ c_fq c' = c_fq c
     /\ c_start c' = c_start c /\ c_info c' = c_info c /\ c_size_div c' = c_size_div c /\ c_slab_div c' = c_slab_div c /\ c_qrandom c' = c_qrandom c
     /\ c_qqueue c' = c_qqueue c /\ c_qqidx c' = c_qqidx c /\ c_mallocated c' = c_mallocated c /\ c_mcount c' = c_mcount c /\ c_munguarded c' = c_munguarded c
     /\ c_rng c' = c_rng c /\ c_empty_total c' = c_empty_total c /\ c_nmalloc c' = c_nmalloc c /\ c_ndalloc c' = c_ndalloc c /\ c_allocated c' = c_allocated c /\ c_slab_allocated c' = c_slab_allocated c) as EQ.
  { unfold c', pop_free, to_partial, reset_links, smap. cbn. destruct (nxt c i); repeat split. }
  destruct EQ as (R3 & R4 & R5 & R6 & R7 & R8 & R9 & R10 & R11 & R12 & R13 & R14 & R15 & R16 & R17 & R18 & R19 & R20 & R21 & R22).
  assert (forall x, c_slabs c' x = if x =? i then set_sb_prev None (set_sb_next None (c_slabs c i)) else c_slabs c x) as ES.
  { intros x. unfold c', pop_free, to_partial, reset_links, smap. cbn. unfold fupd. destruct (nxt c i); reflexivity. }
  assert (c_partial c' = if 1 <? n then Some i else None) as EP by reflexivity.
  clearbody c'.
  assert (forall x, nxt c' x = if x =? i then None else nxt c x) as En by (intros x; unfold nxt; rewrite ES; destruct (x =? i); reflexivity).
  assert (forall x, prv c' x = if x =? i then None else prv c x) as Ep by (intros x; unfold prv; rewrite ES; destruct (x =? i); reflexivity).
  assert (forall x, cntof c' x = cntof c x) as Ec by (intros x; unfold cntof; rewrite ES; destruct (Z.eqb_spec x i); subst; reflexivity).
  assert (forall x y, quar c' x y = quar c x y) as Eq by (intros x y; unfold quar; rewrite ES; destruct (Z.eqb_spec x i); subst; reflexivity).
  assert (forall x y, used c' x y = used c x y) as Eu by (intros x y; unfold used; rewrite ES; destruct (Z.eqb_spec x i); subst; reflexivity).
  destruct Ma. assert (is_slab g c i /\ cntof c i = 0) as [Is C0] by (apply ma_0; [discriminate|now left]).
  destruct Li. cbn [app] in lk_nd. inversion lk_nd as [|? ? Ni Nd]; subst.
  assert (forall x, In x (F ++ somes (c_fq c)) -> x <> i) as Ne by (intros x Hx ->; contradiction).
  destruct lk_Fs as [Fs1 Fs2].
  split; [|split; [|split; [repeat split; congruence|split; [auto|split; [rewrite Ec; auto|unfold nact, nslabs; rewrite R15, R6, zlen_cons; lia]]]]].
  2:{ constructor; try congruence; auto; [intros x _; unfold can; rewrite ES; destruct (Z.eqb_spec x i); subst; reflexivity|intros x; rewrite Ec; lia]. }
  constructor; auto.
  - eapply geom_ext; [..|exact G]; congruence.
  - eapply meta_ext; [..|exact Me]; congruence.
  - intros x. rewrite ES. destruct (x =? i); [|auto]. destruct (Sl i). constructor; auto.
  - constructor; auto.
    + rewrite EP. destruct (1 <? n); reflexivity.
    + destruct (1 <? n); cbn; [|auto]. rewrite En, Ep, Z.eqb_refl. auto.
    + destruct (1 <? n); repeat constructor; auto.
    + congruence.
    + congruence.
    + rewrite R5, Fs1. destruct F as [|f F']; [reflexivity|]. cbn [hd_error]. rewrite lk_Ft. rewrite lastz_cons. destruct (lastz (f :: F')) eqn:EL; [reflexivity|]. apply lastz_None in EL. discriminate.
    + eapply sll_ext; [|exact Fs2]. intros x Hx. rewrite En. destruct (Z.eqb_spec x i); [|auto]. elim (Ne x); auto. apply in_or_app; auto.
    + rewrite R6. intros x Hx. rewrite En. destruct (x =? i); auto.
    + rewrite R6. exact Nd.
    + rewrite R6. intros x Hx. destruct (1 <? n); [|destruct Hx]. destruct Hx as [<-|[]]. auto.
  - constructor; rewrite ?R6.
    + intros x Hx. rewrite Ec. rewrite <- ma_P by discriminate. destruct (1 <? n); cbn; intuition congruence.
    + intros x Hx. rewrite Ec, (is_slab_ext g c c' x) by congruence. rewrite <- ma_0 by discriminate. cbn. intuition congruence.
    + intros x. rewrite Ec, (is_slab_ext g c c' x) by congruence. auto.
    + intros x Hx. rewrite R15 in Hx. rewrite En, Ep. destruct (x =? i); auto.
    + intros x Hx. injection Hx as <-. rewrite (is_slab_ext g c c') by congruence. auto.
  - eapply quar_ext; [..|exact Qu]; congruence.
  - assert (pages_ok g k o' c (fun x => active c [] None x \/ x = i)) as Pg'.
    { eapply pages_add; [exact Pg|destruct G; lia| |exact Hp|exact Hm]. intros E0 q Hq. apply (pg_none _ _ _ _ _ Pg).
      - eapply slab_class; [exact G| |exact Hq]. pose proof (slab_range g k o c _ _ _ _ _ i I Is). lia.
      - intros x Ha Hx. assert (x = i) by (eapply slabs_apart; [exact G|..]; eassumption). subst x.
        destruct Ha as [Ha|[[]|Ha]]; [lia|discriminate]. }
    eapply pages_ext; [..|exact Pg']; try congruence; auto. intros x. unfold active. rewrite Ec. cbn. intuition congruence.
  - congruence.
  - congruence.
  - congruence.
Qed.

(** the head of the partial list got full *)
Lemma cinvX_drop_full o c P E F X L i : cinvX g k o c (i :: P) E F X L -> (X = None \/ X = Some i) ->
  let c' := drop_full i c in
  cinvX g k o c' P E F (Some i) L /\ csame g k c c' /\ sstats c c' /\ (forall i' j', used c' i' j' = used c i' j') /\
  (forall x, cntof c' x = cntof c x) /\ ~ In i P /\ nact g c' F = nact g c F.
Proof.
  intros I HX c'. pose proof I as [G Me Sl Li Ma Qu Pg Et Rn Fq].
  destruct Li. inversion lk_Pnd as [|? ? Ni Nd]; subst. destruct lk_dll as (D1 & D2 & D3).
  assert (c' = match hd_error P with Some h => smap h (set_sb_prev None) (set_c_partial (nxt c i) c) | None => set_c_partial (nxt c i) c end) as E0.
  { unfold c', drop_full. rewrite D2. reflexivity. }
  assert (forall x, nxt c' x = nxt c x) as En by (rewrite E0; destruct (hd_error P); vw).
  assert (forall x, prv c' x = match hd_error P with Some h => if x =? h then None else prv c x | None => prv c x end) as Ep.
  { rewrite E0. intros x. destruct (hd_error P); vw. }
  assert (forall x, cntof c' x = cntof c x) as Ec by (rewrite E0; destruct (hd_error P); vw).
  assert (forall x y, quar c' x y = quar c x y) as Eq by (rewrite E0; destruct (hd_error P); vw).
  assert (forall x y, used c' x y = used c x y) as Eu by (rewrite E0; destruct (hd_error P); vw).
  assert (c_partial c' = nxt c i /\ c_empty c' = c_empty c /\ c_fhead c' = c_fhead c /\ c_ftail c' = c_ftail c /\ c_fq c' = c_fq c
     /\ c_start c' = c_start c /\ c_info c' = c_info c /\ c_size_div c' = c_size_div c /\ c_slab_div c' = c_slab_div c /\ c_qrandom c' = c_qrandom c
     /\ c_qqueue c' = c_qqueue c /\ c_qqidx c' = c_qqidx c /\ c_mallocated c' = c_mallocated c /\ c_mcount c' = c_mcount c /\ c_munguarded c' = c_munguarded c
     /\ c_rng c' = c_rng c /\ c_empty_total c' = c_empty_total c /\ c_nmalloc c' = c_nmalloc c /\ c_ndalloc c' = c_ndalloc c /\ c_allocated c' = c_allocated c
     /\ c_slab_allocated c' = c_slab_allocated c) as EQ.
  { rewrite E0. destruct (hd_error P); repeat split. }
  destruct EQ as (R2 & R3 & R4 & R5 & R6 & R7 & R8 & R9 & R10 & R11 & R12 & R13 & R14 & R15 & R16 & R17 & R18 & R19 & R20 & R21 & R22).
  assert (forall x, sb_bitmap (c_slabs c' x) = sb_bitmap (c_slabs c x) /\ sb_qbitmap (c_slabs c' x) = sb_qbitmap (c_slabs c x) /\ sb_count (c_slabs c' x) = sb_count (c_slabs c x)
     /\ sb_canary (c_slabs c' x) = sb_canary (c_slabs c x)) as ES.
  { rewrite E0. intros x. destruct (hd_error P); [|auto]. rewrite smap_slabs. destruct (Z.eqb_spec x z); subst; auto. }
  clearbody c'. clear E0.
  destruct Ma.
  assert (is_slab g c i /\ ~ In i (E ++ F ++ somes (c_fq c)) /\ (X = None -> 0 < cntof c i)) as (Is & NE & C1).
  { destruct HX as [->| ->].
    - assert (0 < cntof c i < n) by (apply ma_P; [discriminate|now left]). split; [apply ma_s; lia|]. split; [apply lk_dj; now left|lia].
    - destruct (ma_X i eq_refl). split; [auto|]. split; [auto|discriminate]. }
  assert (forall x, X <> Some x \/ x = i) as HXx.
  { intros x. destruct HX as [->| ->]; [left; discriminate|]. destruct (Z.eq_dec x i); [auto|left; congruence]. }
  split; [|split; [|split; [repeat split; congruence|split; [auto|split; [auto|split; [auto|unfold nact, nslabs; rewrite R15, R6; auto]]]]]].
  2:{ constructor; auto; [intros x _; unfold can; apply ES|intros x; rewrite Ec; lia]. }
  constructor; auto; try congruence.
  - eapply geom_ext; [..|exact G]; congruence.
  - eapply meta_ext; [..|exact Me]; congruence.
  - intros x. destruct (ES x) as (E1 & E2 & E3 & E4). destruct (Sl x). constructor; rewrite ?E1, ?E2, ?E3, ?E4; auto.
  - constructor; rewrite ?R3, ?R4, ?R5, ?R6; auto.
    + congruence.
    + destruct P as [|h P']; [exact Logic.I|]. cbn [hd_error dll] in *. destruct D3 as (D4 & D5 & D6).
      rewrite Ep, En, Z.eqb_refl. split; [auto|]. split; [auto|]. inversion Nd as [|? ? Nh Nd']; subst.
      eapply dll_ext; [|exact D6]. intros x Hx. rewrite En, Ep. split; [auto|]. destruct (Z.eqb_spec x h); [subst; contradiction|auto].
    + eapply sll_ext; [|exact lk_Es]. auto.
    + eapply sll_ext; [|exact lk_Fs]. auto.
    + intros x Hx. rewrite En. auto.
    + intros x Hx. apply lk_dj. now right.
  - constructor; rewrite ?R6.
    + intros x Hx. rewrite Ec. destruct (HXx x) as [Hx'| ->]; [|congruence]. rewrite <- ma_P by auto. cbn. intuition congruence.
    + intros x Hx. rewrite Ec, (is_slab_ext g c c' x) by congruence. destruct (HXx x) as [Hx'| ->]; [|congruence]. auto.
    + intros x. rewrite Ec, (is_slab_ext g c c' x) by congruence. auto.
    + rewrite R15. intros x Hx. rewrite En, Ep. destruct (ma_new x Hx) as [N1 N2]. rewrite N1, N2. split; [auto|].
      destruct (hd_error P); [destruct (x =? z)|]; auto.
    + intros x Hx. injection Hx as <-. rewrite (is_slab_ext g c c') by congruence. auto.
  - eapply quar_ext; [..|exact Qu]; congruence.
  - eapply pages_ext; [..|exact Pg]; try congruence; auto. intros x. unfold active. rewrite Ec. destruct HX as [->| ->]; [|tauto].
    split; [|intuition congruence]. intros [?|[?|Hx]]; auto. injection Hx as <-. auto.
Qed.
End P3.
