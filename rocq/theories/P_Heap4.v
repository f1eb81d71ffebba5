(** Large allocation and deallocation against the global invariant. *)
From Coq Require Import String ZArith List Bool Lia ZifyBool Permutation.
From Verif Require Import M_Base M_Config M_SizeClass M_Libdivide M_OS M_Random M_Slab M_Region M_Api
  P_Base P_Count P_SizeClass P_Libdivide P_Random P_Bitmap P_Bitmap2 P_OS P_Links P_Slab1 P_Slab2 P_Slab3 P_Slab4 P_Region P_Region2 P_Heap1 P_Heap2 P_Heap3.
Import ListNotations.
Open Scope Z_scope.
Ltac Zify.zify_post_hook ::= idtac.

(** ** programs on a part of the state *)
Lemma wp_run_pzoom {S T A} (gt : S -> T) (st : T -> S -> S) (L1 : forall t s, gt (st t s) = t) (L2 : forall t t' s, st t' (st t s) = st t' s) (L3 : forall s, st (gt s) s = s) (p : prog T A) :
  forall s (Q : A -> S -> Prop) (E : fault -> Prop), wp (run p) (gt s) (fun a t => Q a (st t s)) E -> wp (run (pzoom gt st p)) s Q E.
Proof.
  induction p as [a|B m k IH]; intros s Q E H.
  - cbn in *. unfold wp, ret in *. rewrite L3 in H. exact H.
  - cbn [run pzoom] in *. apply wp_bind, wp_zoom. unfold wp in H at 1. unfold bind in H. unfold wp. destruct (m (gt s)) as [[b t]|f]; [|exact H].
    apply IH. rewrite L1. unfold wp in *. destruct (run (k b) t) as [[a t']|f]; [|exact H]. rewrite L2. exact H.
Qed.
Lemma wp_psys {A} (p : prog os A) rs (Q : A -> rastate -> Prop) E : wp (run p) (rs_os rs) (fun a o => Q a (mkRas o (rs_ra rs))) E -> wp (run (ra_psys p)) rs Q E.
Proof. intros H. apply wp_run_pzoom; [reflexivity|reflexivity|intros []; reflexivity|exact H]. Qed.
Lemma wp_pra {A} (p : prog rastate A) s (Q : A -> state -> Prop) E : wp (run p) (ra_get s) (fun a t => Q a (ra_put t s)) E -> wp (run (p_ra p)) s Q E.
Proof. intros H. apply wp_run_pzoom; [intros []; reflexivity|reflexivity|intros []; reflexivity|exact H]. Qed.
Lemma wp_pos {A} (p : prog os A) s (Q : A -> state -> Prop) E : wp (run p) (st_os s) (fun a o => Q a (set_st_os o s)) E -> wp (run (p_os p)) s Q E.
Proof. intros H. apply wp_run_pzoom; [reflexivity|reflexivity|intros []; reflexivity|exact H]. Qed.
Lemma ra_put_get s : ra_put (ra_get s) s = s. Proof. destruct s; reflexivity. Qed.

(** ** quarantine arrays *)
Definition ehit (e : Z * Z) (q : Z) : Z := if fst e =? 0 then 0 else hit (in_pages (fst e) (snd e)) q.
Fixpoint qcov (l : list (Z * Z)) (q : Z) : Z := match l with [] => 0 | e :: t => ehit e q + qcov t q end.
Lemma qspans_cov r q : cover (qspans r) q = qcov (ra_qrandom r) q + qcov (ra_qqueue r) q.
Proof.
  unfold qspans. assert (forall l, cover (map (fun e => in_pages (fst e) (snd e)) (filter (fun e : Z * Z => negb (fst e =? 0)) l)) q = qcov l q) as E.
  { induction l as [|e l IH]; [reflexivity|]. cbn [filter qcov]. unfold ehit. destruct (fst e =? 0); cbn [negb map cover]; rewrite IH; lia. }
  rewrite E. induction (ra_qrandom r) as [|e l IH]; cbn; lia.
Qed.
Lemma qcov_lset l q i old new : lget l i = Some old -> qcov (lset l i new) q = qcov l q - ehit old q + ehit new q.
Proof.
  unfold lget, lset. destruct (i <? 0); [discriminate|]. generalize (Z.to_nat i). induction l as [|e l IH]; intros [|n]; cbn; try discriminate.
  - intros [= ->]. lia.
  - intros H. rewrite (IH n H). lia.
Qed.
Lemma qcov_nonneg l q : 0 <= qcov l q.
Proof. induction l as [|e l IH]; cbn; [lia|]. unfold ehit. destruct (fst e =? 0); [lia|]. pose proof (hit_range (in_pages (fst e) (snd e)) q). lia. Qed.
Lemma qcov_In l e q : In e l -> ehit e q <= qcov l q.
Proof. induction l as [|a l IH]; cbn; [tauto|]. intros [->|H]; [pose proof (qcov_nonneg l q); lia|]. specialize (IH H). unfold ehit. destruct (fst a =? 0); [unfold ehit in IH; lia|]. pose proof (hit_range (in_pages (fst a) (snd a)) q). unfold ehit in IH. lia. Qed.

Definition as_is (o : os) (a l : Z) : fl := mkFl (in_pages a l) (fun q => match pages o q with Some x => x | None => PNone end).

Section S.
Context (g : config) (s : state).
Local Notation GI rs LL X := (ginv g (ra_put rs s) LL X).

(** one exchange of a quarantine array with a flight *)
Definition chill (LL : regs) (o : os) (f : fl) : Prop := rl_strict LL = true -> unrefused o -> forall q, fl_in f q = true -> fl_prot f q = PNone.
Lemma qspans_In r f : In f (qspans r) <-> exists e, (In e (ra_qrandom r) \/ In e (ra_qqueue r)) /\ fst e <> 0 /\ f = in_pages (fst e) (snd e).
Proof.
  unfold qspans. rewrite in_map_iff. split.
  - intros (e & <- & H). apply filter_In in H. rewrite in_app_iff in H. exists e. destruct H. split; [tauto|]. split; [|auto]. destruct (Z.eqb_spec (fst e) 0); [discriminate|auto].
  - intros (e & H & N & ->). exists e. split; [auto|]. apply filter_In. rewrite in_app_iff. split; [auto|]. destruct (Z.eqb_spec (fst e) 0); [contradiction|auto].
Qed.
Lemma exchange rs rs' LL X f e old : GI rs LL (f :: X) -> chill LL (rs_os rs) f ->
  (forall e', In e' (ra_qrandom (rs_ra rs')) \/ In e' (ra_qqueue (rs_ra rs')) -> e' = e \/ In e' (ra_qrandom (rs_ra rs)) \/ In e' (ra_qqueue (rs_ra rs))) ->(forall q, fl_in f q = in_pages (fst e) (snd e) q) -> fst e <> 0 ->
  rs_os rs' = rs_os rs -> ra_tab (rs_ra rs') = ra_tab (rs_ra rs) -> ra_cur (rs_ra rs') = ra_cur (rs_ra rs) ->
  ra_total (rs_ra rs') = ra_total (rs_ra rs) -> ra_free (rs_ra rs') = ra_free (rs_ra rs) -> ra_leftover (rs_ra rs') = ra_leftover (rs_ra rs) ->
  ra_addr (rs_ra rs') = ra_addr (rs_ra rs) -> rq_ok g (rs_ra rs') ->
  (In old (ra_qrandom (rs_ra rs)) \/ In old (ra_qqueue (rs_ra rs))) ->
  (forall q, cover (qspans (rs_ra rs')) q = cover (qspans (rs_ra rs)) q - ehit old q + ehit e q) ->
  GI rs' LL ((if fst old =? 0 then [] else [as_is (rs_os rs) (fst old) (snd old)]) ++ X).
Proof.
  intros I CH HM Hf NZ e1 e2 e3 e4 e5 e6 e7 RQ' HIn HC. pose proof I as [U PL CL RA RQ ND RG FL AP MP GP GC GT]. cbn [ra_put st_ra st_os set_st_ra set_st_os] in *.
  replace (ra_put rs' s) with (set_st_ra (rs_ra rs') (ra_put rs s)) by (unfold ra_put; rewrite e1; reflexivity).
  eapply ginv_relabel; [exact I|..]; auto.
  - destruct RA. unfold ra_cells in *. constructor; unfold ra_cells; rewrite ?e2, ?e3, ?e4, ?e5, ?e6; auto.
  - intros f0 q Hf0 Hq. apply in_app_iff in Hf0. destruct Hf0 as [Hf0|Hf0]; [|apply FL; auto; right; auto].
    destruct (Z.eqb_spec (fst old) 0) as [|N0]; [destruct Hf0|]. destruct Hf0 as [<-|[]]. cbn [ra_put st_os set_st_ra set_st_os as_is fl_in fl_prot] in *.
    assert (pages (rs_os rs) q <> None) as MM.
    { apply (MP (in_pages (fst old) (snd old)) q); [|exact Hq]. unfold spans. rewrite !in_app_iff. right. right. left. unfold qspans. apply in_map_iff. exists old. split; [auto|].
      apply filter_In. cbn. rewrite in_app_iff. split; [tauto|]. destruct (Z.eqb_spec (fst old) 0); [lia|auto]. }
    destruct (pages (rs_os rs) q); congruence.
  - intros q. cbn [st_ra set_st_os ra_put set_st_ra]. rewrite !map_app, !cover_app, HC. cbn [map cover].
    assert (ehit e q = hit (fl_in f) q) as ->. { unfold ehit, hit. rewrite Hf. destruct (Z.eqb_spec (fst e) 0); [lia|auto]. }
    unfold ehit. destruct (fst old =? 0); cbn [map cover]; [lia|]. cbn [as_is fl_in]. lia.
  - intros SL Q f0 q Hf0 Hq. apply qspans_In in Hf0. destruct Hf0 as (e' & Hin & N' & ->). destruct (HM e' Hin) as [->|Hin'].
    + cbn [st_os ra_put set_st_ra set_st_os] in *. rewrite (FL f q); [|left; reflexivity|rewrite Hf; exact Hq]. f_equal. apply (CH SL Q). rewrite Hf. exact Hq.
    + apply (GC SL Q (in_pages (fst e') (snd e')) q); [|exact Hq]. apply qspans_In. exists e'. auto.
  - intros SL _. split; [exact SL|]. split; [auto|]. intros q. cbn [st_ra set_st_os ra_put set_st_ra]. rewrite !map_app, !cover_app, HC. cbn [map cover].
    assert (ehit e q = hit (fl_in f) q) as ->. { unfold ehit, hit. rewrite Hf. destruct (Z.eqb_spec (fst e) 0); [lia|auto]. }
    unfold ehit. destruct (fst old =? 0); cbn [map cover]; [lia|]. cbn [as_is fl_in]. lia.
Qed.
(** what is in the quarantine stays out of reach *)
Lemma as_is_chill rs LL X e o : GI rs LL X -> pages o = pages (rs_os rs) -> onward (rs_os rs) o -> (In e (ra_qrandom (rs_ra rs)) \/ In e (ra_qqueue (rs_ra rs))) -> fst e <> 0 -> chill LL o (as_is o (fst e) (snd e)).
Proof.
  intros I P ON H N SL Q q Hq. cbn [as_is fl_in fl_prot] in *. rewrite P.
  assert (pages (rs_os rs) q = Some PNone) as ->; [|reflexivity]. apply (gi_cold _ _ _ _ I SL (unrefused_back _ _ ON Q) (in_pages (fst e) (snd e)) q); [|exact Hq]. apply qspans_In. exists e. auto.
Qed.
Lemma lset_In {A} (l : list A) i x y : In y (lset l i x) -> y = x \/ In y l.
Proof.
  unfold lset. destruct (i <? 0); [auto|]. generalize (Z.to_nat i). induction l as [|a l IH]; intros [|n]; cbn; auto.
  - intros [->|H]; auto.
  - intros [->|H]; auto. destruct (IH n H); auto.
Qed.

Lemma quarantine_pass_wp rs LL X f e : GI rs LL (f :: X) -> chill LL (rs_os rs) f -> (forall q, fl_in f q = in_pages (fst e) (snd e) q) -> fst e <> 0 ->
  wp (region_quarantine_pass g e) rs (fun t rs' => os_rel (rs_os rs) (rs_os rs') /\ ra_leftover (rs_ra rs') = ra_leftover (rs_ra rs) /\ 
      (fst t = 0 -> GI rs' LL X) /\ (fst t <> 0 -> exists f', (forall q, fl_in f' q = in_pages (fst t) (snd t) q) /\ GI rs' LL (f' :: X)) /\
      (fst t <> 0 -> t = e \/ In t (ra_qrandom (rs_ra rs)) \/ In t (ra_qqueue (rs_ra rs)))) rng_fault.
Proof.
  intros I CH Hf NZ. pose proof I as [U PL CL RA RQ ND RG FL AP MP GP GC GT]. cbn [ra_put st_ra st_os set_st_ra set_st_os] in *.
  unfold region_quarantine_pass. apply wp_bind.
  assert (wp (if 0 <? REGION_QUARANTINE_RANDOM_LENGTH g then
       let! index := ra_rand (get_random_u64_uniform (REGION_QUARANTINE_RANDOM_LENGTH g)) in
       let! ra := gets rs_ra in
       let! random_substitute := aget (ra_qrandom ra) index in
       upd_ra (fun r => set_ra_qrandom (lset (ra_qrandom r) index e) r);;
       ret (if fst random_substitute =? 0 then None else Some random_substitute)
     else ret (Some e)) rs (fun r rs' => os_rel (rs_os rs) (rs_os rs') /\ ra_leftover (rs_ra rs') = ra_leftover (rs_ra rs) /\ ra_qqueue (rs_ra rs') = ra_qqueue (rs_ra rs) /\
       match r with None => GI rs' LL X | Some t => fst t <> 0 /\ (exists f', (forall q, fl_in f' q = in_pages (fst t) (snd t) q) /\ GI rs' LL (f' :: X) /\ chill LL (rs_os rs') f') /\ (t = e \/ In t (ra_qrandom (rs_ra rs))) end) rng_fault) as W.
  { destruct (Z.ltb_spec 0 (REGION_QUARANTINE_RANDOM_LENGTH g)) as [L|L].
    2:{ apply wp_ret. split; [apply os_rel_refl|]. split; [auto|]. split; [auto|]. split; [auto|]. split; [|auto]. exists f. auto. }
    apply wp_bind, wp_zoom. pose proof RQ as [Rl Ql Qi Rg].
    assert (REGION_QUARANTINE_RANDOM_LENGTH g < 2 ^ 64) as LB.
    { unfold usable_config, static_asserts, in_range in U. change (2 ^ 64) with 18446744073709551616. lia. }
    eapply wp_mono; [apply u64_uniform_ok; [exact Rg|lia]| |auto]. cbn [r_os r_rng]. intros i [o1 rng1]. cbn [r_os r_rng]. intros (Hi0 & Hi & R1 & O1).
    apply wp_bind, wp_gets. cbn [rs_ra rs_os set_ra_rng ra_qrandom]. 
    destruct (lget_in_range (ra_qrandom (rs_ra rs)) i) as (old & Ho); [rewrite Rl; lia|]. apply wp_bind. unfold aget. rewrite Ho. apply wp_ret.
    apply wp_bind. apply wp_modify. apply wp_ret. cbn [rs_os rs_ra set_rs_ra].
    set (rs1 := mkRas o1 (rs_ra rs)). assert (GI rs1 LL (f :: X)) as I1 by (apply gi_os_rel; auto).
    set (ra2 := set_ra_qrandom (lset (ra_qrandom (set_ra_rng rng1 (rs_ra rs))) i e) (set_ra_rng rng1 (rs_ra rs))).
    assert (GI (mkRas o1 ra2) LL ((if fst old =? 0 then [] else [as_is o1 (fst old) (snd old)]) ++ X)) as I2.
    { apply (exchange rs1 (mkRas o1 ra2) LL X f e old); auto.
      - intros SL Q. apply (CH SL). eapply unrefused_back; [|exact Q]. destruct O1. split; [auto|cbn in *; lia].
      - cbn. intros e' [H|H]; [|auto]. apply lset_In in H. tauto.
      - constructor; cbn; auto. rewrite lset_zlen. auto.
      - left. eapply lget_In; eauto.
      - intros q. rewrite !qspans_cov. cbn. rewrite (qcov_lset _ q i old e Ho). lia. }
    split; [exact O1|]. split; [reflexivity|]. split; [reflexivity|].
    change (mkRas o1 (set_ra_qrandom (lset (ra_qrandom (set_ra_rng rng1 (rs_ra rs))) i e) (set_ra_rng rng1 (rs_ra rs)))) with (mkRas o1 ra2).
    destruct (Z.eqb_spec (fst old) 0) as [Z0|N0]; [exact I2|]. split; [auto|]. split; [|right; eapply lget_In; eauto].
    eexists. split; [|split; [exact I2|]]; [reflexivity|]. destruct O1. eapply (as_is_chill rs LL (f :: X) old o1 I); auto; [split; [auto|lia]|]. left. eapply lget_In; eauto. }
  eapply wp_mono; [exact W| |auto]. clear W. intros [t|] rs1 (O1 & L1 & Q1 & H).
  2:{ apply wp_ret. split; [auto|]. split; [auto|]. split; [auto|]. split; cbn; intros; lia. }
  destruct H as (N1 & (f1 & Hf1 & I1 & CH1) & Wh).
  destruct (Z.ltb_spec 0 (REGION_QUARANTINE_QUEUE_LENGTH g)) as [L|L].
  - pose proof (gi_rq _ _ _ _ I1) as [Rl Ql Qi Rg]. cbn [ra_put st_ra st_os set_st_ra set_st_os] in *.
    apply wp_bind, wp_gets. destruct (lget_in_range (ra_qqueue (rs_ra rs1)) (ra_qqidx (rs_ra rs1))) as (old & Ho); [rewrite Ql; lia|].
    apply wp_bind. unfold aget. rewrite Ho. apply wp_ret. apply wp_bind, wp_modify, wp_bind, wp_modify, wp_ret.
    cbn [rs_os rs_ra set_rs_ra]. set (ra2 := set_ra_qqidx _ _).
    assert (GI (mkRas (rs_os rs1) ra2) LL ((if fst old =? 0 then [] else [as_is (rs_os rs1) (fst old) (snd old)]) ++ X)) as I2.
    { apply (exchange rs1 (mkRas (rs_os rs1) ra2) LL X f1 t old); auto.
      - cbn. intros e' [H|H]; [auto|]. apply lset_In in H. tauto.
      - constructor; cbn; auto.
        + rewrite lset_zlen. auto.
        + pose proof (Z.mod_pos_bound (w64 (ra_qqidx (rs_ra rs1) + 1)) (REGION_QUARANTINE_QUEUE_LENGTH g) ltac:(lia)). split; intros; lia.
      - right. eapply lget_In; eauto.
      - intros q. rewrite !qspans_cov. cbn. rewrite (qcov_lset _ q _ old t Ho). lia. }
    split; [exact O1|]. split; [exact L1|]. split; [|split].
    + intros Z0. destruct (Z.eqb_spec (fst old) 0); [exact I2|lia].
    + intros N0. destruct (Z.eqb_spec (fst old) 0); [lia|]. eexists. split; [|exact I2]. reflexivity.
    + intros _. right. right. rewrite <- Q1. eapply lget_In; eauto.
  - apply wp_ret. split; [auto|]. split; [auto|]. split; [intros; lia|]. split; [intros _; exists f1; auto|]. intros _. destruct Wh; auto.
Qed.

(** ** regions_quarantine_deallocate_pages *)
Lemma quarantine_deallocate_wp rs LL X f p size gd : GI rs LL (f :: X) -> 4096 <= p - gd -> p < 2 ^ 47 -> 0 < size < 2 ^ 47 -> 0 <= gd < 2 ^ 47 ->
  (forall q, fl_in f q = in_pages (p - gd) (size + 2 * gd) q) ->
  p + size + 4095 <= 2 ^ 47 -> (forall q, fl_in f q = true -> in_pages p size q = false -> fl_prot f q = PNone) ->
  wp (run (regions_quarantine_deallocate_pages g p size gd)) rs (fun _ rs' => GI rs' LL X /\ 
      os_chg (fun q => fl_in f q = true \/ exists e, (In e (ra_qrandom (rs_ra rs)) \/ In e (ra_qqueue (rs_ra rs))) /\ fst e <> 0 /\ in_pages (fst e) (snd e) q = true) (rs_os rs) (rs_os rs') /\
      ra_leftover (rs_ra rs') = ra_leftover (rs_ra rs)) (fun f => sys_fault f \/ rng_fault f).
Proof.
  intros I H1 H2 H3 H4 H5 H6 H7. change (2 ^ 47) with 140737488355328 in *. unfold regions_quarantine_deallocate_pages.
  set (D := fun q => fl_in f q = true \/ exists e, (In e (ra_qrandom (rs_ra rs)) \/ In e (ra_qqueue (rs_ra rs))) /\ fst e <> 0 /\ in_pages (fst e) (snd e) q = true).
  destruct (_ || _).
  { apply wp_psys. change (ra_put rs s) with (set_st_os (rs_os rs) (ra_put rs s)) in I.
    eapply wp_mono; [apply (deallocate_pages_wp g (ra_put rs s) (rs_os rs) LL X f p size gd); auto; try (change (2 ^ 48) with 281474976710656; lia)| |auto].
    intros _ o' (I' & C' & _ & _). cbn [rs_os rs_ra]. split; [exact I'|]. split; [|auto]. eapply os_chg_mono; [|exact C']. intros q Hq. left. auto. }
  apply wp_run_pbind, wp_run_act, wp_zoom.
  assert (forall q, in_pages p size q = true -> fl_in f q = true) as SU. { intros q Hq. rewrite H5. eapply in_pages_sub; [| |exact Hq]; lia. }
  eapply wp_mono; [apply (wp_conj _ _ _ _ _ _ (memory_map_fixed_wp p size (rs_os rs)) (map_fixed_reason p size (rs_os rs)))| |]; [|intros ff [K _]; left; exact K].
  intros b o1 [W WR].
  apply wp_run_pbind.
  assert (wp (run (if b then act (ra_sys (memory_purge p size)) ;;; Ret tt else Ret tt)) (set_rs_os o1 rs) (fun _ rs2 => exists o2 f2, rs2 = mkRas o2 (rs_ra rs) /\
    (forall q, fl_in f2 q = fl_in f q) /\ GI rs2 LL (f2 :: X) /\ chill LL o2 f2 /\ os_chg (fun q => fl_in f q = true) (rs_os rs) o2) (fun f => sys_fault f \/ rng_fault f)) as K.
  { destruct b.
    - subst o1. apply wp_run_pbind, wp_run_act, wp_zoom. eapply wp_mono; [apply memory_purge_wp| |auto]. intros b o2 W. apply wp_run_ret. exists o2, f. cbn [set_rs_os rs_os rs_ra] in *. split; [auto|]. split; [auto|].
      assert (chill LL o2 f) as CH.
      { intros _ Q. exfalso. destruct (WR eq_refl) as [WE|WE]; [|unfold ADDR_MAX in WE; change (2 ^ 47) with 140737488355328 in *; lia].
        apply (Q (sysn (rs_os rs))); destruct b; [subst o2| destruct W as (-> & _)|subst o2|destruct W as (-> & _)]; cbn; auto; lia. }
      match goal with |- ?A /\ ?B /\ ?C => cut (A /\ C); [intros [KA KC]; exact (conj KA (conj CH KC))|] end.
      change (ra_put (set_rs_os o2 (set_rs_os (failed_os (rs_os rs)) rs)) s) with (set_st_os o2 (ra_put rs s)).
      assert (ginv g (set_st_os (failed_os (rs_os rs)) (ra_put rs s)) LL (f :: X)) as I1 by (apply gi_failed; exact I).
      destruct b.
      + subst o2. split; [apply gi_failed; exact I1|]. eapply os_chg_trans; apply os_chg_failed.
      + destruct W as (-> & _). split.
        * eapply gi_step; [exact I1|onw|auto|auto| | |].
          -- intros x Hx. cbn. destruct (in_pages p size (page_of x)) eqn:E; [|auto]. rewrite (SU _ E) in Hx. discriminate.
          -- intros q Hq. apply (gi_fl _ _ _ _ I1 f q); [left; auto|auto].
          -- congruence.
        * eapply os_chg_trans; [apply os_chg_failed|]. apply os_in_chg, os_in_purged. auto.
    - destruct W as (-> & _). apply wp_run_ret. eexists. exists (mkFl (fl_in f) (fun q => if in_pages p size q then PNone else fl_prot f q)). split; [reflexivity|]. split; [auto|]. cbn [set_rs_os rs_os rs_ra].
      change (ra_put (set_rs_os (mapped_os p size (rs_os rs)) rs) s) with (set_st_os (mapped_os p size (rs_os rs)) (ra_put rs s)). split; [|split].
      + eapply (gi_step g _ (rs_os rs)); [exact I|onw|..]; cbn [fl_in fl_prot]; auto.
        * intros q Hq. rewrite mapped_os_none. destruct (in_pages p size q) eqn:E; [|auto]. rewrite (SU _ E) in Hq. discriminate.
        * intros x Hx. cbn. destruct (in_pages p size (page_of x)) eqn:E; [|auto]. rewrite (SU _ E) in Hx. discriminate.
        * intros q Hq. rewrite mapped_os_none. destruct (in_pages p size q) eqn:E; [auto|]. apply (gi_fl _ _ _ _ I f q); [left; auto|auto].
        * congruence.
      + intros _ _ q Hq. cbn [fl_in fl_prot] in *. destruct (in_pages p size q) eqn:E; auto.
      + apply os_in_chg, os_in_mapped. auto. }
  eapply wp_mono; [exact K| |auto]. clear K. intros _ rs2 (o2 & f2 & -> & Hf2 & I2 & CH2 & C2). cbn beta.
  rewrite (w64_small (p - gd)), (w64_small (size + gd * 2)) by (change (2 ^ 64) with 18446744073709551616; lia). replace (size + gd * 2) with (size + 2 * gd) by lia.
  apply wp_run_pbind, wp_run_act. eapply wp_mono; [apply (quarantine_pass_wp (mkRas o2 (rs_ra rs)) LL X f2 (p - gd, size + 2 * gd) I2 CH2); cbn [fst snd]; [|lia]| |auto].
  { intros q. rewrite Hf2. apply H5. }
  intros t rs3 (O3 & L3 & Z3 & N3 & Wh). cbn [rs_os rs_ra] in *.
  assert (os_chg D (rs_os rs) (rs_os rs3)) as C3.
  { eapply os_chg_trans; [eapply os_chg_mono; [|exact C2]; left; auto|]. apply os_in_chg, os_in_rel. auto. }
  destruct (Z.eqb_spec (fst t) 0) as [E0|E0]; [apply wp_run_ret; split; [auto|]; split; auto|].
  destruct (N3 E0) as (f3 & Hf3 & I3). apply wp_run_pbind, wp_run_act, wp_zoom. eapply wp_mono; [apply memory_unmap_wp2| |auto].
  intros b4 o4 W4. apply wp_run_ret. cbn [set_rs_os rs_os rs_ra].
  change (ra_put (set_rs_os o4 rs3) s) with (set_st_os o4 (ra_put rs3 s)).
  destruct b4.
  - destruct W4 as [-> R4]. split; [apply (gi_drop_failed g (ra_put rs3 s) (rs_os rs3) LL f3 X I3 R4)|]. split; [eapply os_chg_trans; [exact C3|apply os_chg_failed]|exact L3].
  - subst o4. split; [|split; [|exact L3]].
    + eapply (gi_unmap_all g (ra_put rs3 s) (rs_os rs3) LL f3 X); [exact I3|exact Hf3].
    + eapply os_chg_trans; [exact C3|]. apply os_chg_unmapped. intros q Hq. destruct (Wh E0) as [->|[H|H]]; [left; rewrite H5; exact Hq|right; exists t; auto..].
Qed.
End S.
