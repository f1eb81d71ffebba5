(** Size class: releasing a slot, list maintenance. *)
From Coq Require Import String ZArith List Bool Lia ZifyBool Permutation.
From Verif Require Import M_Base M_Config M_SizeClass M_Libdivide M_OS M_Random M_Slab
  P_Base P_Count P_SizeClass P_Libdivide P_Random P_Bitmap P_Bitmap2 P_OS P_Links P_Slab1 P_Slab2 P_Slab3 P_Slab4 P_Slab5 P_Slab6.
Import ListNotations.
Open Scope Z_scope.
Ltac Zify.zify_post_hook ::= idtac.

Record rsame (c c' : size_class) : Prop := {
  rs_d : dsame c c';
  rs_qr : c_qrandom c' = c_qrandom c;
  rs_qq : c_qqueue c' = c_qqueue c;
  rs_qi : c_qqidx c' = c_qqidx c;
  rs_quar : forall i j, quar c' i j = quar c i j
}.
Lemma rsame_refl c : rsame c c. Proof. constructor; auto. apply dsame_refl. Qed.
Lemma rsame_trans c1 c2 c3 : rsame c1 c2 -> rsame c2 c3 -> rsame c1 c3.
Proof. intros [] []. constructor; intros; try congruence. eapply dsame_trans; eassumption. Qed.

Definition push_full (i : Z) (c : size_class) : size_class :=
  set_c_partial (Some i)
    (match c_partial c with Some h => smap h (set_sb_prev (Some i)) | None => fun c => c end
      (smap i (fun m => set_sb_prev None (set_sb_next (c_partial c) m)) c)).
Definition unlink (i : Z) (c : size_class) : size_class :=
  smap i (set_sb_prev None)
    (match nxt c i with Some nx => smap nx (set_sb_prev (prv c i)) | None => fun c => c end
      (match prv c i with Some pv => smap pv (set_sb_next (nxt c i)) | None => set_c_partial (nxt c i) end c)).
Definition to_empty (g : config) (k i : Z) (c : size_class) : size_class :=
  set_c_empty_total (w64 (c_empty_total c + slab_size_of g k)) (set_c_empty (Some i) (smap i (set_sb_next (c_empty c)) c)).
Definition enq (t i : Z) (sub : option Z) (r : random_state) (c : size_class) : size_class :=
  let c1 := set_c_fq (lset (c_fq c) t (Some i)) (set_c_rng r (smap i (set_sb_next None) c)) in
  match sub with
  | None => c1
  | Some s => set_c_ftail (Some s) (match c_ftail c with Some tl => smap tl (set_sb_next (Some s)) | None => set_c_fhead (Some s) end c1)
  end.
Definition enq_rel (i : Z) (c c' : size_class) (F F' : list Z) : Prop :=
  exists t sub, lget (c_fq c) t = Some sub /\ c_fq c' = lset (c_fq c) t (Some i) /\ F' = F ++ qlist sub.

Ltac vx := intros; repeat match goal with c' := _ : size_class |- _ => unfold c' end;
  unfold nxt, prv, cntof, quar, used, can, is_slab, push_full, unlink, to_empty, enq, smap; cbn; unfold fupd;
  repeat match goal with |- context [match ?x with Some _ => _ | None => _ end] => destruct x end; cbn;
  repeat match goal with |- context [?x =? ?y] => destruct (Z.eqb_spec x y) end; subst; cbn; try reflexivity; try congruence; try lia.

Section P7.
Context (g : config) (k : Z).
Local Notation n := (get_slots g k).
Local Notation sz := (slot_size g k).
Local Notation b := (slab_size_of g k).

Lemma hd_in (l : list Z) h : hd_error l = Some h -> In h l. Proof. apply hd_error_In. Qed.
Lemma cinvX_push o c P E F i L : cinvX g k o c P E F (Some i) L -> ~ In i P ->
  let c' := push_full i c in
  cinvX g k o c' (i :: P) E F (Some i) L /\ rsame c c' /\ sstats c c' /\ (forall x y, used c' x y = used c x y) /\ (forall x, cntof c' x = cntof c x) /\
  nact g c' F = nact g c F /\ c_fq c' = c_fq c /\ c_empty_total c' = c_empty_total c.
Proof.
  intros I Ni c'. pose proof I as [G Me Sl Li Ma Qu Pg Et Rn Fq]. pose proof Li as []. pose proof Ma as [].
  assert (forall x, cntof c' x = cntof c x) as Ec by vx.
  assert (forall x y, quar c' x y = quar c x y) as Eq by vx.
  assert (forall x y, used c' x y = used c x y) as Eu by vx.
  assert (forall x, can c' x = can c x) as En' by vx.
  assert (c_empty c' = c_empty c /\ c_fhead c' = c_fhead c /\ c_ftail c' = c_ftail c /\ c_fq c' = c_fq c
     /\ c_start c' = c_start c /\ c_info c' = c_info c /\ c_size_div c' = c_size_div c /\ c_slab_div c' = c_slab_div c /\ c_qrandom c' = c_qrandom c
     /\ c_qqueue c' = c_qqueue c /\ c_qqidx c' = c_qqidx c /\ c_mallocated c' = c_mallocated c /\ c_mcount c' = c_mcount c /\ c_munguarded c' = c_munguarded c
     /\ c_rng c' = c_rng c /\ c_empty_total c' = c_empty_total c /\ c_nmalloc c' = c_nmalloc c /\ c_ndalloc c' = c_ndalloc c /\ c_allocated c' = c_allocated c
     /\ c_slab_allocated c' = c_slab_allocated c) as EQ.
  { unfold c', push_full. destruct (c_partial c); repeat split. }
  destruct EQ as (R3 & R4 & R5 & R6 & R7 & R8 & R9 & R10 & R11 & R12 & R13 & R14 & R15 & R16 & R17 & R18 & R19 & R20 & R21 & R22).
  assert (forall x, nxt c' x = fupd (nxt c) i (hd_error P) x) as En.
  { intros x. rewrite <- lk_P. unfold fupd. vx. }
  assert (forall x, prv c' x = (match hd_error P with Some h => fupd (fupd (prv c) i None) h (Some i) | None => fupd (prv c) i None end) x) as Ep.
  { intros x. rewrite <- lk_P. unfold fupd. vx. }
  assert (c_partial c' = Some i) as R2 by reflexivity.
  split; [|split; [constructor; auto; constructor; auto|split; [repeat split; auto|split; [auto|split; [auto|split; [unfold nact, nslabs; rewrite R15, R6; reflexivity|auto]]]]]].
  destruct (ma_X i eq_refl) as [Is Nin].
  assert (forall x, In x (E ++ F ++ somes (c_fq c)) -> nxt c' x = nxt c x) as Nx.
  { intros x Hx. rewrite En, fupd_ne; [auto|]. intros <-. contradiction. }
  constructor; rewrite ?R17, ?R18; auto.
  - eapply geom_ext; [..|exact G]; auto.
  - eapply meta_ext; [..|exact Me]; auto.
  - intros x. assert (sb_bitmap (c_slabs c' x) = sb_bitmap (c_slabs c x) /\ sb_qbitmap (c_slabs c' x) = sb_qbitmap (c_slabs c x) /\ sb_count (c_slabs c' x) = sb_count (c_slabs c x)
      /\ sb_canary (c_slabs c' x) = sb_canary (c_slabs c x)) as (Q1 & Q2 & Q3 & Q4).
    { clear. unfold c', push_full. destruct (c_partial c); cbn; unfold fupd; repeat (match goal with |- context [?x =? ?y] => destruct (Z.eqb_spec x y) end; subst; cbn); auto. }
    destruct (Sl x). constructor; rewrite ?Q1, ?Q2, ?Q3, ?Q4; auto.
  - constructor; rewrite ?R3, ?R4, ?R5, ?R6; auto.
    + eapply dll_ext; [|apply (dll_push _ _ P i lk_dll Ni)]. intros x _. rewrite En, Ep. auto.
    + constructor; auto.
    + eapply sll_ext; [|exact lk_Es]. intros x Hx. apply Nx, in_or_app. auto.
    + eapply sll_ext; [|exact lk_Fs]. intros x Hx. apply Nx, in_or_app. right. apply in_or_app. auto.
    + intros x Hx. rewrite Nx; [auto|]. apply in_or_app. right. apply in_or_app. auto.
    + intros x [<-|Hx]; auto.
  - constructor.
    + intros x Hx. rewrite Ec. cbn. rewrite <- (ma_P x Hx). intuition congruence.
    + intros x Hx. rewrite Ec, R6, (is_slab_ext g c c' x R15). auto.
    + intros x. rewrite Ec, (is_slab_ext g c c' x R15). auto.
    + intros x. rewrite R15. intros Hx. destruct (ma_new x Hx) as [N1 N2]. assert (i <> x) as Hi by (intros <-; destruct Is; lia).
      rewrite En, Ep, fupd_ne by auto. split; [auto|]. destruct (hd_error P) as [h|] eqn:Eh; [|rewrite fupd_ne; auto].
      assert (h <> x) as Hh. { intros <-. apply hd_in in Eh. apply ma_P in Eh; [|intros X; injection X as ->; auto]. destruct (ma_s h) as [? _]; lia. }
      rewrite !fupd_ne by auto. auto.
    + intros x Hx. rewrite R6, (is_slab_ext g c c' x R15). auto.
  - eapply quar_ext; [..|exact Qu]; auto.
  - eapply pages_ext; [..|exact Pg]; auto. intros x. unfold active. rewrite Ec. tauto.
  - rewrite R6. auto.
Qed.

Lemma cinvX_clear o c P E F i j L : cinvX g k o c P E F (Some i) L -> 0 <= j < n -> used c i j = true -> quar c i j = false ->
  let c' := smap i (fun m => set_sb_count (w16 (sb_count m - 1)) (set_sb_bitmap (bm_clear (sb_bitmap m) j) m)) c in
  cinvX g k o c' P E F (Some i) L /\ rsame c c' /\ sstats c c' /\ nact g c' F = nact g c F /\
  (forall x y, 0 <= y < 256 -> used c' x y = used c x y && negb ((x =? i) && (y =? j))) /\ cntof c' i = cntof c i - 1 /\ (forall x, x <> i -> cntof c' x = cntof c x).
Proof.
  intros I Hj Hu Hq c'. pose proof I as [G Me Sl Li Ma Qu Pg Et Rn Fq]. pose proof (class_facts_all g k (ge_k _ _ _ G)) as [].
  destruct (quar_slot g k _ _ _ _ _ _ _ i j I ltac:(lia) Hu) as (_ & Hc & Is).
  assert (cntof c i <= n) as Hn by (unfold cntof; rewrite (so_cnt _ _ (Sl i)); pose proof (zcount_le (bm_get (sb_bitmap (c_slabs c i))) 0 n ltac:(lia)); lia).
  assert (cntof c' i = cntof c i - 1) as Ec.
  { unfold cntof, c'. rewrite smap_slabs, Z.eqb_refl. cbn. unfold cntof in Hc, Hn. apply w16_small. change (2 ^ 16) with 65536. lia. }
  assert (forall x, x <> i -> cntof c' x = cntof c x) as Eo.
  { intros x Hx. unfold cntof, c'. rewrite smap_slabs. destruct (Z.eqb_spec x i); [contradiction|auto]. }
  assert (forall x y, 0 <= y < 256 -> used c' x y = used c x y && negb ((x =? i) && (y =? j))) as Eu.
  { intros x y Hy. unfold used, c'. rewrite smap_slabs. destruct (Z.eqb_spec x i) as [->|]; cbn; [|now rewrite andb_true_r].
    destruct (Sl i). rewrite bm_get_clear by (auto; lia). destruct (y =? j); cbn; [now rewrite andb_false_r|now rewrite andb_true_r]. }
  assert (forall x y, quar c' x y = quar c x y) as Eq by vx.
  assert (forall x, nxt c' x = nxt c x) as En by vx.
  assert (forall x, prv c' x = prv c x) as Ep by vx.
  assert (forall x, can c' x = can c x) as En' by vx.
  split; [|split; [constructor; auto; constructor; auto|split; [repeat split|split; [reflexivity|auto]]]].
  constructor; auto; try fr.
  - intros x. unfold c'. rewrite smap_slabs. destruct (Z.eqb_spec x i) as [->|]; [|auto].
    destruct (Sl i). constructor; cbn; auto.
    + apply bm_clear_ok; [auto|lia].
    + unfold cntof in *. rewrite w16_small by (change (2 ^ 16) with 65536; lia). rewrite so_cnt.
      rewrite (zcount_upd (bm_get (sb_bitmap (c_slabs c i))) (bm_get (bm_clear (sb_bitmap (c_slabs c i)) j)) 0 n j); [|lia|].
      * rewrite bm_get_clear by (auto; lia). rewrite Z.eqb_refl. unfold used in Hu. rewrite Hu. cbn. lia.
      * intros y Hy Hne. rewrite bm_get_clear by (auto; lia). destruct (Z.eqb_spec y j); [contradiction|]. cbn. reflexivity.
    + intros y Hy. rewrite bm_get_clear by (auto; lia). rewrite so_hi by auto. destruct (y =? j); reflexivity.
    + intros y Hy Hqy. rewrite bm_get_clear by (auto; lia). destruct (Z.eqb_spec y j) as [->|]; cbn; auto. unfold quar in Hq. congruence.
  - eapply linked_ext; [..|exact Li]; auto.
  - destruct Ma. constructor; auto.
    + intros x Hx. rewrite Eo by congruence. auto.
    + intros x Hx. rewrite Eo by congruence. exact (ma_0 x Hx).
    + intros x Hx. destruct (Z.eq_dec x i) as [->|Hne]; [exact Is|]. rewrite Eo in Hx by auto. exact (ma_s x Hx).
    + intros x Hx. rewrite En, Ep. auto.
  - eapply pages_ext; [..|exact Pg]; auto. intros x. unfold active. destruct (Z.eq_dec x i) as [->|Hne]; [tauto|]. rewrite Eo by auto. tauto.
Qed.

Lemma cinvX_unlink o c P E F i L : cinvX g k o c P E F (Some i) L -> In i P ->
  let c' := unlink i c in
  exists P', ~ In i P' /\ cinvX g k o c' P' E F (Some i) L /\ rsame c c' /\ sstats c c' /\ (forall x y, used c' x y = used c x y) /\ (forall x, cntof c' x = cntof c x) /\
  nact g c' F = nact g c F /\ c_fq c' = c_fq c /\ c_empty_total c' = c_empty_total c.
Proof.
  intros I Hi c'. pose proof I as [G Me Sl Li Ma Qu Pg Et Rn Fq]. pose proof Li as []. pose proof Ma as [].
  assert (forall x, cntof c' x = cntof c x) as Ec by vx.
  assert (forall x y, quar c' x y = quar c x y) as Eq by vx.
  assert (forall x y, used c' x y = used c x y) as Eu by vx.
  assert (forall x, can c' x = can c x) as En' by vx.
  assert (c_empty c' = c_empty c /\ c_fhead c' = c_fhead c /\ c_ftail c' = c_ftail c /\ c_fq c' = c_fq c
     /\ c_start c' = c_start c /\ c_info c' = c_info c /\ c_size_div c' = c_size_div c /\ c_slab_div c' = c_slab_div c /\ c_qrandom c' = c_qrandom c
     /\ c_qqueue c' = c_qqueue c /\ c_qqidx c' = c_qqidx c /\ c_mallocated c' = c_mallocated c /\ c_mcount c' = c_mcount c /\ c_munguarded c' = c_munguarded c
     /\ c_rng c' = c_rng c /\ c_empty_total c' = c_empty_total c /\ c_nmalloc c' = c_nmalloc c /\ c_ndalloc c' = c_ndalloc c /\ c_allocated c' = c_allocated c
     /\ c_slab_allocated c' = c_slab_allocated c) as EQ.
  { unfold c', unlink. destruct (nxt c i), (prv c i); repeat split. }
  destruct EQ as (R3 & R4 & R5 & R6 & R7 & R8 & R9 & R10 & R11 & R12 & R13 & R14 & R15 & R16 & R17 & R18 & R19 & R20 & R21 & R22).
  assert (c_partial c' = match prv c i with Some _ => c_partial c | None => nxt c i end) as R2.
  { unfold c', unlink. destruct (nxt c i), (prv c i); reflexivity. }
  apply in_split in Hi. destruct Hi as (l1 & l2 & EP). rewrite EP in *. pose proof (dll_remove _ _ l1 i l2 lk_dll lk_Pnd) as (D1 & D2 & D3).
  pose proof (NoDup_remove _ _ _ lk_Pnd) as [Nd Nn].
  assert (forall x, nxt c' x = (match prv c i with Some p => fupd (nxt c) p (nxt c i) | None => nxt c end) x) as En.
  { intros x. unfold c', unlink. generalize (nxt c i) (prv c i). intros ni pi. unfold nxt.
    destruct ni, pi; cbn; unfold fupd; cbn; repeat (match goal with |- context [?x =? ?y] => destruct (Z.eqb_spec x y) end; subst; cbn); auto. }
  assert (forall x, prv c' x = fupd (match nxt c i with Some n => fupd (prv c) n (prv c i) | None => prv c end) i None x) as Ep.
  { intros x. unfold c', unlink. generalize (nxt c i) (prv c i). intros ni pi. unfold prv.
    destruct ni, pi; cbn; unfold fupd; cbn; repeat (match goal with |- context [?x =? ?y] => destruct (Z.eqb_spec x y) end; subst; cbn); auto. }
  exists (l1 ++ l2). split; [exact Nn|].
  split; [|split; [constructor; auto; constructor; auto|split; [repeat split; auto|split; [auto|split; [auto|split; [unfold nact, nslabs; rewrite R15, R6; reflexivity|auto]]]]]].
  destruct (ma_X i eq_refl) as [Is Nin].
  assert (forall x, In x (E ++ F ++ somes (c_fq c)) -> nxt c' x = nxt c x) as Nx.
  { intros x Hx. rewrite En. destruct (prv c i) as [pv|]; [|auto]. rewrite fupd_ne; [auto|]. intros <-. destruct D2 as [D2 _].
    apply (lk_dj pv); [apply in_or_app; auto|auto]. }
  assert (forall x, In x (l1 ++ l2) -> 0 < cntof c x /\ is_slab g c x) as Ps.
  { intros x Hx. assert (In x (l1 ++ i :: l2)) as Hx' by (rewrite in_app_iff in *; cbn; tauto). apply ma_P in Hx'; [|congruence]. split; [lia|apply ma_s; lia]. }
  constructor; rewrite ?R17, ?R18; auto.
  - eapply geom_ext; [..|exact G]; auto.
  - eapply meta_ext; [..|exact Me]; auto.
  - intros x. assert (sb_bitmap (c_slabs c' x) = sb_bitmap (c_slabs c x) /\ sb_qbitmap (c_slabs c' x) = sb_qbitmap (c_slabs c x) /\ sb_count (c_slabs c' x) = sb_count (c_slabs c x)
      /\ sb_canary (c_slabs c' x) = sb_canary (c_slabs c x)) as (Q1 & Q2 & Q3 & Q4).
    { assert (forall y f d, (forall m, sb_bitmap (f m) = sb_bitmap m /\ sb_qbitmap (f m) = sb_qbitmap m /\ sb_count (f m) = sb_count m /\ sb_canary (f m) = sb_canary m) ->
        sb_bitmap (c_slabs (smap y f d) x) = sb_bitmap (c_slabs d x) /\ sb_qbitmap (c_slabs (smap y f d) x) = sb_qbitmap (c_slabs d x) /\ sb_count (c_slabs (smap y f d) x) = sb_count (c_slabs d x)
      /\ sb_canary (c_slabs (smap y f d) x) = sb_canary (c_slabs d x)) as K.
      { intros y f d Hf. rewrite smap_slabs. destruct (Z.eqb_spec x y) as [->|]; auto. }
      unfold c', unlink.
      destruct (nxt c i), (prv c i); repeat (match goal with |- context [c_slabs (smap ?y ?f ?d) x] => destruct (K y f d ltac:(intros; repeat split)) as (-> & -> & -> & ->) end); auto. }
    destruct (Sl x). constructor; rewrite ?Q1, ?Q2, ?Q3, ?Q4; auto.
  - constructor; rewrite ?R3, ?R4, ?R5, ?R6; auto.
    + rewrite R2. destruct (prv c i) as [pv|]; [|symmetry; apply D2]. rewrite lk_P. symmetry. apply D2.
    + eapply dll_ext; [|exact D1]. intros x Hx. rewrite En, Ep. split; [auto|]. rewrite fupd_ne; [auto|]. intros ->. contradiction.
    + eapply sll_ext; [|exact lk_Es]. intros x Hx. apply Nx, in_or_app. auto.
    + eapply sll_ext; [|exact lk_Fs]. intros x Hx. apply Nx, in_or_app. right. apply in_or_app. auto.
    + intros x Hx. rewrite Nx; [auto|]. apply in_or_app. right. apply in_or_app. auto.
    + intros x Hx. apply lk_dj. rewrite in_app_iff in *. cbn. tauto.
  - constructor.
    + intros x Hx. rewrite Ec. rewrite <- (ma_P x Hx). rewrite !in_app_iff. cbn. intuition congruence.
    + intros x Hx. rewrite Ec, R6, (is_slab_ext g c c' x R15). auto.
    + intros x. rewrite Ec, (is_slab_ext g c c' x R15). auto.
    + intros x. rewrite R15. intros Hx. destruct (ma_new x Hx) as [N1 N2]. assert (i <> x) as Hi by (intros <-; destruct Is; lia).
      rewrite En, Ep. rewrite fupd_ne by auto. split.
      * destruct (prv c i) as [pv|]; [|auto]. rewrite fupd_ne; [auto|]. intros <-. destruct D2 as [D2 _].
        destruct (Ps pv) as [_ [? _]]; [apply in_or_app; auto|lia].
      * destruct (nxt c i) as [nx|]; [|auto]. rewrite fupd_ne; [auto|]. intros <-. destruct (Ps nx) as [_ [? _]]; [apply in_or_app; auto|lia].
    + intros x Hx. rewrite R6, (is_slab_ext g c c' x R15). auto.
  - eapply quar_ext; [..|exact Qu]; auto.
  - eapply pages_ext; [..|exact Pg]; auto. intros x. unfold active. rewrite Ec. tauto.
  - rewrite R6. auto.
Qed.

Lemma cinvX_to_empty o c P E F i L : cinvX g k o c P E F (Some i) L -> ~ In i P -> cntof c i = 0 ->
  let c' := to_empty g k i c in
  cinvX g k o c' P (i :: E) F None L /\ rsame c c' /\ sstats c c' /\ (forall x y, used c' x y = used c x y) /\ (forall x, cntof c' x = cntof c x) /\
  nact g c' F = nact g c F /\ c_fq c' = c_fq c /\ c_empty_total c' = c_empty_total c + b.
Proof.
  intros I Ni C0 c'. pose proof I as [G Me Sl Li Ma Qu Pg Et Rn Fq]. pose proof Li as []. pose proof Ma as []. pose proof (class_facts_all g k (ge_k _ _ _ G)) as [].
  assert (forall x, cntof c' x = cntof c x) as Ec by vx.
  assert (forall x y, quar c' x y = quar c x y) as Eq by vx.
  assert (forall x y, used c' x y = used c x y) as Eu by vx.
  assert (forall x, can c' x = can c x) as En' by vx.
  assert (forall x, prv c' x = prv c x) as Ep by vx.
  assert (forall x, nxt c' x = if x =? i then c_empty c else nxt c x) as En by vx.
  destruct (ma_X i eq_refl) as [Is Nin].
  assert (NoDup (i :: E ++ F ++ somes (c_fq c))) as Nd by (constructor; auto).
  assert (c_empty_total c' = c_empty_total c + b) as ET.
  { change (c_empty_total c') with (w64 (c_empty_total c + b)). rewrite Et. pose proof (zlen_nonneg E).
    assert (zlen (i :: E) <= get_metadata_max g b) as B.
    { apply NoDup_bound.
      - change (i :: E ++ F ++ somes (c_fq c)) with ((i :: E) ++ F ++ somes (c_fq c)) in Nd. apply NoDup_app_inv in Nd. tauto.
      - pose proof (meta_max_bounds g k c G). lia.
      - intros x Hx. pose proof (slab_range g k o c _ _ _ _ _ x I) as R.
        assert (is_slab g c x) as Sx. { destruct Hx as [<-|Hx]; [auto|]. apply ma_0; [|rewrite in_app_iff; auto]. intros X; injection X as ->. apply Nin. rewrite in_app_iff; auto. } specialize (R Sx). lia. }
    rewrite zlen_cons in B. pose proof (meta_max_bounds g k c G) as Mb.
    change (2 ^ 28) with 268435456 in Mb. rewrite w64_small; [lia|]. change (2 ^ 64) with 18446744073709551616. nia. }
  split; [|split; [constructor; auto; constructor; auto|split; [repeat split|split; [auto|split; [auto|split; [reflexivity|auto]]]]]].
  assert (forall x, In x (E ++ F ++ somes (c_fq c)) -> nxt c' x = nxt c x) as Nx.
  { intros x Hx. rewrite En. destruct (Z.eqb_spec x i) as [->|]; [contradiction|auto]. }
  constructor; auto; try fr.
  - intros x. unfold c', to_empty. cbn. unfold fupd. destruct (Z.eqb_spec x i) as [->|]; [|auto]. destruct (Sl i). constructor; auto.
  - constructor; auto.
    + eapply dll_ext; [|exact lk_dll]. intros x Hx. rewrite En, Ep. destruct (Z.eqb_spec x i) as [->|]; [contradiction|auto].
    + cbn. rewrite En, Z.eqb_refl. split; [auto|]. eapply sll_ext; [|exact lk_Es]. intros x Hx. apply Nx, in_or_app. auto.
    + eapply sll_ext; [|exact lk_Fs]. intros x Hx. apply Nx, in_or_app. right. apply in_or_app. auto.
    + intros x Hx. rewrite Nx; [auto|]. apply in_or_app. right. apply in_or_app. auto.
    + intros x Hx [<-|Hin]; [contradiction|]. apply (lk_dj x); auto.
  - constructor; try discriminate.
    + intros x _. rewrite Ec. destruct (Z.eq_dec x i) as [->|]; [|apply ma_P; congruence]. split; [contradiction|lia].
    + intros x _. rewrite Ec. cbn [app In]. destruct (Z.eq_dec x i) as [->|Hne]; [split; [auto|intros _; now left]|].
      specialize (ma_0 x ltac:(congruence)). change (is_slab g c' x) with (is_slab g c x). change (c_fq c') with (c_fq c). rewrite <- ma_0. intuition congruence.
    + intros x. rewrite Ec. exact (ma_s x).
    + intros x Hx. rewrite En, Ep. destruct (Z.eqb_spec x i) as [->|]; [|auto]. destruct Is. change (c_mcount c') with (c_mcount c) in Hx. lia.
  - eapply pages_ext; [..|exact Pg]; auto. intros x. unfold active. rewrite Ec. cbn. intuition congruence.
  - rewrite ET, Et, zlen_cons. lia.
Qed.

Lemma enq_perm (i t : Z) (sub : option Z) (E F : list Z) (fq : list (option Z)) : lget fq t = Some sub ->
  Permutation (i :: E ++ F ++ somes fq) (E ++ (F ++ qlist sub) ++ somes (lset fq t (Some i))).
Proof.
  intros H. destruct (lget_split fq t sub (Some i) H) as (l1 & l2 & -> & ->). rewrite !somes_app. change (somes (Some i :: l2)) with (i :: somes l2).
  assert (somes (sub :: l2) = qlist sub ++ somes l2) as -> by (destruct sub; reflexivity).
  rewrite <- !app_assoc. etransitivity; [apply Permutation_middle|]. apply Permutation_app_head.
  etransitivity; [apply Permutation_middle|]. apply Permutation_app_head.
  rewrite (Permutation_app_comm (somes l1) (qlist sub ++ somes l2)). rewrite <- app_assoc.
  etransitivity; [apply Permutation_middle|]. apply Permutation_app_head.
  rewrite (Permutation_app_comm (somes l1) (i :: somes l2)). reflexivity.
Qed.
Lemma cinvX_enq o0 o c P E F i L r t sub : cinvX g k o0 c P E F (Some i) L -> ~ In i P -> cntof c i = 0 -> rng_ok r ->
  lget (c_fq c) t = Some sub ->
  (forall q, pages o q = if in_pages (slabp g k c i) b q then Some PNone else pages o0 q) ->
  (forall x, mem o x = if in_pages (slabp g k c i) b (page_of x) then 0 else mem o0 x) ->
  let c' := enq t i sub r c in let F' := F ++ qlist sub in
  cinvX g k o c' P E F' None L /\ rsame c c' /\ sstats c c' /\ (forall x y, used c' x y = used c x y) /\ (forall x, cntof c' x = cntof c x) /\
  nact g c' F' = nact g c F - 1 /\ c_empty_total c' = c_empty_total c /\ c_fq c' = lset (c_fq c) t (Some i) /\ (forall x, x <> i -> ~ In x F -> nxt c' x = nxt c x) /\ c_empty c' = c_empty c.
Proof.
  intros I Ni C0 Rr Hs Hpg Hme c' F'. pose proof I as [G Me Sl Li Ma Qu Pg Et Rn Fq]. pose proof Li as []. pose proof Ma as [].
  assert (forall x, cntof c' x = cntof c x) as Ec by vx.
  assert (forall x y, quar c' x y = quar c x y) as Eq by vx.
  assert (forall x y, used c' x y = used c x y) as Eu by vx.
  assert (forall x, can c' x = can c x) as En' by vx.
  assert (forall x, prv c' x = prv c x) as Ep by vx.
  assert (forall x, nxt c' x = (match sub with None => fupd (nxt c) i None | Some s => match c_ftail c with Some tl => fupd (fupd (nxt c) i None) tl (Some s) | None => fupd (nxt c) i None end end) x) as En.
  { intros x. unfold fupd. vx. }
  assert (c_partial c' = c_partial c /\ c_empty c' = c_empty c
     /\ c_start c' = c_start c /\ c_info c' = c_info c /\ c_size_div c' = c_size_div c /\ c_slab_div c' = c_slab_div c /\ c_qrandom c' = c_qrandom c
     /\ c_qqueue c' = c_qqueue c /\ c_qqidx c' = c_qqidx c /\ c_mallocated c' = c_mallocated c /\ c_mcount c' = c_mcount c /\ c_munguarded c' = c_munguarded c
     /\ c_rng c' = r /\ c_empty_total c' = c_empty_total c /\ c_nmalloc c' = c_nmalloc c /\ c_ndalloc c' = c_ndalloc c /\ c_allocated c' = c_allocated c
     /\ c_slab_allocated c' = c_slab_allocated c /\ c_fq c' = lset (c_fq c) t (Some i)) as EQ.
  { unfold c', enq. destruct sub, (c_ftail c); repeat split. }
  destruct EQ as (R2 & R3 & R7 & R8 & R9 & R10 & R11 & R12 & R13 & R14 & R15 & R16 & R17 & R18 & R19 & R20 & R21 & R22 & R6).
  assert (c_ftail c' = match sub with Some s => Some s | None => c_ftail c end) as R5 by (unfold c', enq; destruct sub, (c_ftail c) eqn:Tl; first [exact Tl | reflexivity]).
  assert (c_fhead c' = match sub with Some s => match c_ftail c with Some _ => c_fhead c | None => Some s end | None => c_fhead c end) as R4 by (unfold c', enq; destruct sub, (c_ftail c) eqn:Tl; reflexivity).
  destruct (ma_X i eq_refl) as [Is Nin].
  assert (NoDup (i :: E ++ F ++ somes (c_fq c))) as Nd by (constructor; auto).
  pose proof (enq_perm i t sub E F (c_fq c) Hs) as PM. fold F' in PM. rewrite <- R6 in PM.
  assert (forall x, In x (E ++ F' ++ somes (c_fq c')) <-> x = i \/ In x (E ++ F ++ somes (c_fq c))) as Mem.
  { intros x. split; intros H.
    - apply (Permutation_in _ (Permutation_sym PM)) in H. destruct H; auto.
    - apply (Permutation_in _ PM). destruct H; [left|right]; auto. }
  assert (forall tl, c_ftail c = Some tl -> In tl F) as TlF.
  { intros tl Ht. rewrite lk_Ft in Ht. destruct (lastz_Some _ _ Ht) as (u & ->). apply in_or_app. right. now left. }
  apply NoDup_app_inv in lk_nd. destruct lk_nd as (NE & NFQ & DE). apply NoDup_app_inv in NFQ. destruct NFQ as (NF & NQ & DF).
  assert (forall x, In x E -> nxt c' x = nxt c x) as NxE.
  { intros x Hx. rewrite En. assert (i <> x) by (intros <-; apply Nin, in_or_app; auto).
    destruct sub as [s|]; [|rewrite fupd_ne; auto]. destruct (c_ftail c) as [tl|] eqn:Tl; [|rewrite fupd_ne; auto].
    rewrite !fupd_ne; auto. intros <-. apply (DE tl Hx), in_or_app. left. auto. }
  assert (forall x, In x P -> nxt c' x = nxt c x) as NxP.
  { intros x Hx. rewrite En. assert (i <> x) by (intros <-; auto).
    destruct sub as [s|]; [|rewrite fupd_ne; auto]. destruct (c_ftail c) as [tl|] eqn:Tl; [|rewrite fupd_ne; auto].
    rewrite !fupd_ne; auto. intros <-. apply (lk_dj tl Hx). rewrite !in_app_iff. auto. }
  assert (forall s, sub = Some s -> In s (somes (c_fq c))) as SubQ by (intros s ->; apply in_somes; eapply lget_In; exact Hs).
  split; [|split; [constructor; auto; constructor; auto|split; [repeat split; auto|split; [auto|split; [auto|split; [|split; [auto|split; [auto|split; [|auto]]]]]]]]].
  2:{ apply Permutation_length in PM. unfold nact, nslabs. rewrite R15. unfold zlen in *. rewrite !app_length in PM. cbn in PM. rewrite !app_length in PM.  lia. }
  2:{ intros x Hx Nf. rewrite En. destruct sub as [s|]; [|rewrite fupd_ne; auto]. destruct (c_ftail c) as [tl|] eqn:Tl; [|rewrite fupd_ne; auto].
      rewrite !fupd_ne; auto. intros <-. apply Nf. auto. }
  constructor; rewrite ?R17, ?R18; auto.
  - eapply geom_ext; [..|exact G]; auto.
  - eapply meta_ext; [..|exact Me]; auto.
  - intros x. assert (sb_bitmap (c_slabs c' x) = sb_bitmap (c_slabs c x) /\ sb_qbitmap (c_slabs c' x) = sb_qbitmap (c_slabs c x) /\ sb_count (c_slabs c' x) = sb_count (c_slabs c x)
      /\ sb_canary (c_slabs c' x) = sb_canary (c_slabs c x)) as (Q1 & Q2 & Q3 & Q4).
    { clear. unfold c', enq. destruct sub as [s|]; [destruct (c_ftail c)|]; cbn; unfold fupd; repeat (match goal with |- context [?x =? ?y] => destruct (Z.eqb_spec x y) end; subst; cbn); auto. }
    destruct (Sl x). constructor; rewrite ?Q1, ?Q2, ?Q3, ?Q4; auto.
  - constructor; rewrite ?R2, ?R3; auto.
    + eapply dll_ext; [|exact lk_dll]. intros x Hx. rewrite NxP, Ep by auto. auto.
    + eapply sll_ext; [|exact lk_Es]. auto.
    + rewrite R4, lk_Ft, lk_F. unfold F'. destruct sub as [s|]; cbn [qlist]; [|now rewrite app_nil_r]. destruct F as [|f F0]; [reflexivity|].
      rewrite lastz_cons. destruct (lastz F0); reflexivity.
    + rewrite R5, lk_Ft. unfold F'. destruct sub as [s|]; cbn [qlist]; [|now rewrite app_nil_r]. symmetry. apply lastz_snoc.
    + unfold F'. assert (sll (fupd (nxt c) i None) F) as S1.
      { eapply sll_ext; [|exact lk_Fs]. intros x Hx. rewrite fupd_ne; auto. intros <-. apply Nin. rewrite !in_app_iff. auto. }
      destruct sub as [s|]; cbn [qlist].
      * assert (~ In s F) as NsF by (intros H; apply (DF s H), SubQ; auto).
        pose proof (sll_snoc (fupd (nxt c) i None) F s S1 NsF NF) as K. rewrite <- lk_Ft in K.
        eapply sll_ext; [|apply K].
        -- intros x _. apply En.
        -- rewrite fupd_ne; [apply lk_Q; auto|]. intros <-. apply Nin. rewrite !in_app_iff. auto.
      * rewrite app_nil_r. eapply sll_ext; [|exact S1]. intros x _. apply En.
    + intros x Hx. assert (In x (i :: somes (c_fq c))) as Hx'.
      { rewrite R6 in Hx. destruct (lget_split _ t sub (Some i) Hs) as (l1 & l2 & E1 & E2). rewrite E2 in Hx. rewrite E1.
        rewrite somes_app in *. cbn [somes] in Hx. cbn. rewrite in_app_iff in *. cbn in Hx. destruct sub; cbn; tauto. }
      rewrite En. destruct (Z.eq_dec x i) as [->|Hne].
      * destruct sub as [s|]; [|apply fupd_eq]. destruct (c_ftail c) as [tl|] eqn:Tl; [|apply fupd_eq].
        rewrite fupd_ne; [apply fupd_eq|]. intros ->. apply Nin. rewrite !in_app_iff. auto.
      * destruct Hx' as [->|Hx']; [contradiction|].
        destruct sub as [s|]; [|rewrite fupd_ne; auto]. destruct (c_ftail c) as [tl|] eqn:Tl; [|rewrite fupd_ne; auto].
        rewrite !fupd_ne; auto. intros ->. apply (DF x); auto.
    + eapply Permutation_NoDup; [exact PM|exact Nd].
    + intros x Hx Hin. apply Mem in Hin. destruct Hin as [->|Hin]; [contradiction|]. apply (lk_dj x); auto.
  - constructor; try discriminate.
    + intros x _. rewrite Ec. destruct (Z.eq_dec x i) as [->|]; [|apply ma_P; congruence]. split; [contradiction|lia].
    + intros x _. rewrite Ec, Mem, (is_slab_ext g c c' x R15). destruct (Z.eq_dec x i) as [->|Hne]; [tauto|].
      specialize (ma_0 x ltac:(congruence)). rewrite <- ma_0. intuition congruence.
    + intros x. rewrite Ec, (is_slab_ext g c c' x R15). exact (ma_s x).
    + intros x. rewrite R15. intros Hx. rewrite En, Ep. destruct (ma_new x Hx). assert (i <> x) by (intros <-; destruct Is; lia). split; [|auto].
      destruct sub as [s|]; [|rewrite fupd_ne; auto]. destruct (c_ftail c) as [tl|] eqn:Tl; [|rewrite fupd_ne; auto].
      rewrite !fupd_ne; auto. intros ->. assert (In x (E ++ F ++ somes (c_fq c))) as Hin by (rewrite !in_app_iff; auto).
      apply ma_0 in Hin; [|congruence]. destruct Hin as [[? _] _]. lia.
  - eapply quar_ext; [..|exact Qu]; auto.
  - assert (forall x q, in_slab g k c' x q <-> in_slab g k c x q) as IS by (intros; unfold in_slab, slabp; rewrite R7; tauto).
    assert (forall q, in_class g c' q <-> in_class g c q) as IC by (intros; unfold in_class; rewrite R7; tauto).
    destruct Pg. constructor.
    + intros x q Ha Hq. rewrite IS in Hq. assert (x <> i /\ active c E (Some i) x) as [Hx Ha'].
      { unfold active in *. rewrite Ec in Ha. destruct Ha as [Ha|[Ha|Ha]]; [split; [intros ->; lia|auto]|split; [|auto]|discriminate].
        intros ->. apply Nin. rewrite in_app_iff. auto. }
      rewrite Hpg. destruct (in_pages (slabp g k c i) b q) eqn:Ei; [|eauto].
      elim Hx. eapply (slabs_apart g k c G); [exact Hq|exact Ei].
    + intros q Hq Ha. rewrite Hpg. destruct (in_pages (slabp g k c i) b q) eqn:Ei; [auto|]. apply pg_none; [apply IC; auto|].
      intros x Hx Hq'. unfold active in Hx. destruct Hx as [Hx|[Hx|Hx]].
      * apply (Ha x); [|apply IS; auto]. left. rewrite Ec. auto.
      * apply (Ha x); [|apply IS; auto]. right; left. auto.
      * injection Hx as <-. unfold in_slab in Hq'. congruence.
    + intros x Hx. rewrite Hme, Hpg. destruct (in_pages (slabp g k c i) b (page_of x)); [auto|]. apply pg_zero. apply IC. auto.
    + rewrite R8. intros q Hq. rewrite Hpg. destruct (in_pages (slabp g k c i) b q); [discriminate|]. apply pg_meta. auto.
  - rewrite R6, lset_zlen. auto.
Qed.
End P7.
