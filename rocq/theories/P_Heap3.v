(** The table of large blocks and the region quarantine against the global invariant. *)
From Coq Require Import String ZArith List Bool Lia ZifyBool Permutation.
From Verif Require Import M_Base M_Config M_SizeClass M_Libdivide M_OS M_Random M_Slab M_Region M_Api
  P_Base P_Count P_SizeClass P_Libdivide P_Random P_Bitmap P_Bitmap2 P_OS P_Links P_Slab1 P_Slab2 P_Slab3 P_Slab4 P_Region P_Region2 P_Heap1 P_Heap2.
Import ListNotations.
Open Scope Z_scope.
Ltac Zify.zify_post_hook ::= idtac.

(** ** the list of entries as a map *)
Lemma lmap_Some l p sz gd : NoDup (map rg_p l) -> (lmap l p = Some (sz, gd) <-> In (mkRegion p sz gd) l).
Proof.
  unfold lmap. induction l as [|[p0 sz0 gd0] l IH]; cbn [find map In rg_p rg_size rg_guard]; intros ND; [split; [discriminate|tauto]|].
  inversion ND as [|? ? N1 N2]; subst. destruct (Z.eqb_spec p0 p) as [->|NE].
  - split; [intros [= -> ->]; auto|]. intros [[= -> ->]|H]; [auto|]. elim N1. apply in_map_iff. exists (mkRegion p sz gd). auto.
  - rewrite IH by auto. split; [auto|]. intros [[= -> -> ->]|H]; [lia|auto].
Qed.
Lemma lmap_None l p : lmap l p = None <-> ~ In p (map rg_p l).
Proof.
  unfold lmap. induction l as [|[p0 sz0 gd0] l IH]; cbn [find map In rg_p rg_size rg_guard]; [tauto|].
  destruct (Z.eqb_spec p0 p) as [->|NE]; [split; [discriminate|tauto]|]. rewrite IH. tauto.
Qed.
Lemma lmap_cons r l p : lmap (r :: l) p = rupd (lmap l) (rg_p r) (Some (rg_size r, rg_guard r)) p.
Proof. unfold lmap, rupd. cbn. rewrite (Z.eqb_sym p). destruct (rg_p r =? p); auto. Qed.
Lemma lmap_perm l l' p : NoDup (map rg_p l) -> Permutation l l' -> lmap l p = lmap l' p.
Proof.
  intros ND P. assert (NoDup (map rg_p l')) as ND' by (eapply Permutation_NoDup; [apply Permutation_map; exact P|auto]).
  destruct (lmap l p) as [[sz gd]|] eqn:E.
  - symmetry. apply lmap_Some; auto. apply lmap_Some in E; auto. eapply Permutation_in; eauto.
  - symmetry. apply lmap_None. apply lmap_None in E. intros H. apply E. eapply Permutation_in; [apply Permutation_map, Permutation_sym; exact P|auto].
Qed.
Lemma ra_ok_ext g r m m' : (forall p, m p = m' p) -> ra_ok g r m -> ra_ok g r m'.
Proof. intros E []. constructor; auto. - intros p sz gd Hp. rewrite <- E. auto. - rewrite <- E. auto. Qed.
Lemma lmap_del l1 r l2 p : NoDup (map rg_p (l1 ++ r :: l2)) -> rupd (lmap (l1 ++ r :: l2)) (rg_p r) None p = lmap (l1 ++ l2) p.
Proof.
  intros ND. unfold rupd.
  pose proof (Permutation_sym (Permutation_middle l1 l2 r)) as P.
  assert (NoDup (map rg_p (r :: l1 ++ l2))) as ND' by (eapply Permutation_NoDup; [apply Permutation_map; exact P|auto]).
  rewrite (lmap_perm _ _ p ND P), lmap_cons. unfold rupd. destruct (Z.eqb_spec p (rg_p r)) as [->|]; [|auto].
  symmetry. apply lmap_None. inversion ND'; subst. auto.
Qed.

(** ** relabelling of pages by a change of the table, the quarantine or the flights *)
Lemma ginv_relabel g s LL X LL' X' ra' : ginv g s LL X ->
  ra_ok g ra' (lmap (rl_all LL')) -> rq_ok g ra' -> ra_addr ra' = ra_addr (st_ra s) -> NoDup (map rg_p (rl_all LL')) ->
  (forall r, In r (rl_own LL') -> reg_ok (st_os s) r) ->
  (forall f q, In f X' -> fl_in f q = true -> pages (st_os s) q = Some (fl_prot f q)) ->
  (forall q, cover (map region_span (rl_own LL') ++ qspans ra' ++ map fl_in X') q <=
             cover (map region_span (rl_own LL) ++ qspans (st_ra s) ++ map fl_in X) q) ->
  (rl_strict LL' = true -> unrefused (st_os s) -> forall f q, In f (qspans ra') -> f q = true -> pages (st_os s) q = Some PNone) ->
  (rl_strict LL' = true -> unrefused (st_os s) -> rl_strict LL = true /\ rl_base LL' = rl_base LL /\
     forall q, cover (map region_span (rl_own LL) ++ qspans (st_ra s) ++ map fl_in X) q <= cover (map region_span (rl_own LL') ++ qspans ra' ++ map fl_in X') q) ->
  ginv g (set_st_ra ra' s) LL' X'.
Proof.
  intros [U PL CL RA RQ ND RG FL AP MP GP GC GT] R' Q' A' N' G' F' C' K' T'. constructor; auto.
  - destruct PL. constructor; auto. intros b. cbn. rewrite A'. auto.
  - intros a k C. destruct (CL a k C) as [I0 P0]. split; [exact I0|]. destruct P0. constructor; auto.
  - intros q. specialize (AP q). specialize (C' q). unfold spans in *.
    change (fixed g (set_st_ra ra' s)) with (fixed g s). change (st_ra (set_st_ra ra' s)) with ra'. rewrite (cover_app (fixed g s)) in AP |- *. lia.
  - intros f q Hf Hq. unfold spans in Hf. change (fixed g (set_st_ra ra' s)) with (fixed g s) in Hf. change (st_ra (set_st_ra ra' s)) with ra' in Hf.
    apply in_app_iff in Hf. destruct Hf as [Hf|Hf].
    + eapply MP; [|exact Hq]. unfold spans. apply in_app_iff. auto.
    + pose proof (cover_In _ f q Hf Hq) as H1. specialize (C' q).
      destruct (cover_pos (map region_span (rl_own LL) ++ qspans (st_ra s) ++ map fl_in X) q ltac:(lia)) as (f' & Hf' & Hq').
      eapply MP; [|exact Hq']. unfold spans. apply in_app_iff. auto.
  - intros SL Q. change (st_os (set_st_ra ra' s)) with (st_os s) in *. destruct (T' SL Q) as (SL0 & B' & D'). destruct (GT SL0 Q) as (gd & Bg & T). rewrite <- B' in Bg, T. exists gd. split; [exact Bg|].
    change (halo g (set_st_ra ra' s) gd) with (halo g s gd). intros q Hq. destruct (T q Hq) as [H|[H|H]]; [auto|auto|]. right. right.
    unfold spans in *. change (fixed g (set_st_ra ra' s)) with (fixed g s). change (st_ra (set_st_ra ra' s)) with ra'. rewrite (cover_app (fixed g s)) in *.
    specialize (D' q). pose proof (cover_nonneg (fixed g s) q). pose proof (cover_nonneg (map region_span (rl_own LL) ++ qspans (st_ra s) ++ map fl_in X) q). lia.
Qed.
(** a system call confined to the two tables *)
Lemma ginv_table_step g s LL X o' : ginv g s LL X -> os_in (table_pages g (st_ra s)) (st_os s) o' -> ginv g (set_st_os o' s) LL X.
Proof.
  intros I O. pose proof I as [U PL CL RA RQ ND RG FL AP MP GP GC GT].
  assert (forall f q, In f (map region_span (rl_own LL) ++ qspans (st_ra s) ++ map fl_in X) -> f q = true -> ~ table_pages g (st_ra s) q) as AW.
  { intros f q Hf Hq T. destruct (fixed_rest _ _ _ _ _ _ I Hf Hq). rewrite (table_in_meta g s U PL q T) in *. discriminate. }
  constructor; auto.
  - destruct PL. constructor; auto.
  - intros a k C. destruct (CL a k C) as [I0 P0]. split; [|destruct P0; constructor; auto].
    assert (forall q, in_class g (st_cls s a k) q -> ~ table_pages g (st_ra s) q) as T.
    { intros q Hq T. eapply fixed_apart; [exact I|apply (table_in_meta g s U PL q T)|]. eapply class_in_slab; eauto. }
    eapply cinv_frame; [..|exact I0].
    + intros q Hq. apply (oi_pages _ _ _ O). auto.
    + intros x Hx. left. apply (oi_mem _ _ _ O). auto.
    + intros q. apply (oi_mapped _ _ _ O).
  - intros r Hr. eapply reg_ok_frame; [|apply RG; auto]. intros q Hq. apply (oi_pages _ _ _ O). eapply AW; [|exact Hq]. rewrite in_app_iff. left. apply in_map. auto.
  - intros f q Hf Hq. cbn. rewrite (oi_pages _ _ _ O); [apply FL; auto|]. eapply AW; [|exact Hq]. rewrite !in_app_iff. right. right. apply in_map. auto.
  - intros f q Hf Hq. cbn. apply (oi_mapped _ _ _ O). eapply MP; [exact Hf|exact Hq].
  - intros q Hq Hn. cbn. rewrite (oi_pages _ _ _ O); [apply GP; auto|]. intros T. eapply fixed_apart; [exact I|apply (table_in_meta g s U PL q T)|exact Hq].
  - intros SL Q f q Hf Hq. cbn. rewrite (oi_pages _ _ _ O); [exact (GC SL (unrefused_back _ _ (onward_in _ _ _ O) Q) f q Hf Hq)|]. eapply AW; [|exact Hq]. rewrite !in_app_iff. right. left. exact Hf.
  - intros SL Q. destruct (GT SL (unrefused_back _ _ (onward_in _ _ _ O) Q)) as (gd & Bg & T). exists gd. split; [exact Bg|]. change (halo g (set_st_os o' s) gd) with (halo g s gd).
    intros q Hq. change (st_os (set_st_os o' s)) with o' in *. change (spans g (set_st_os o' s) LL X) with (spans g s LL X).
    destruct (Z.eq_dec (cover (fixed g s) q) 0) as [Z0|Z0].
    2:{ right. right. unfold spans. rewrite cover_app. pose proof (cover_nonneg (fixed g s) q). pose proof (cover_nonneg (map region_span (rl_own LL) ++ qspans (st_ra s) ++ map fl_in X) q). lia. }
    apply T. rewrite <- (oi_pages _ _ _ O q); [exact Hq|]. intros TP.
    pose proof (cover_In (fixed g s) (meta_span g s) q ltac:(left; reflexivity) (table_in_meta g s U PL q TP)). lia.
Qed.
Lemma qspans_same r r' : ra_qrandom r' = ra_qrandom r -> ra_qqueue r' = ra_qqueue r -> qspans r' = qspans r.
Proof. unfold qspans. intros -> ->. auto. Qed.
Lemma rq_ok_same g r r' : ra_same r r' -> rq_ok g r -> rq_ok g r'.
Proof. intros [] []. constructor; rewrite ?rsm_qr, ?rsm_qq, ?rsm_qi, ?rsm_rng; auto. Qed.

Section S.
Context (g : config) (s : state).
Local Notation GI rs LL X := (ginv g (ra_put rs s) LL X).
Lemma rs_eta rs : rs = mkRas (rs_os rs) (rs_ra rs). Proof. destruct rs; auto. Qed.

(** the block starting at [p] can't be there if its pages are in flight *)
Lemma flight_absent rs LL X r : GI rs LL (rflight r :: X) -> reg_ok (rs_os rs) r -> ~ In (rg_p r) (map rg_p (rl_open LL)) -> ~ In (rg_p r) (map rg_p (rl_all LL)).
Proof.
  intros I K O H. unfold rl_all in H. rewrite map_app, in_app_iff in H. destruct H as [H|H]; [|exact (O H)]. apply in_map_iff in H. destruct H as (r' & E & Hr).
  pose proof (gi_reg _ _ _ _ I r' Hr) as K'.
  assert (forall r, reg_ok (rs_os rs) r -> region_span r (page_of (rg_p r)) = true) as T.
  { intros r0 []. unfold region_span. rewrite in_pages_spec. unfold page_of. split; [apply Z.div_le_mono; lia|].
    apply Z.lt_le_trans with (rg_p r0 / 4096 + 1); [lia|]. rewrite <- Z.div_add by lia. apply Z.div_le_mono; lia. }
  pose proof (gi_apart _ _ _ _ I (page_of (rg_p r))) as AP. unfold spans in AP. rewrite !cover_app in AP. cbn [map cover] in AP.
  pose proof (cover_In (map region_span (rl_own LL)) (region_span r') (page_of (rg_p r)) ltac:(apply in_map; auto) ltac:(rewrite <- E; auto)) as C1.
  unfold hit at 1 in AP. replace (fl_in (rflight r) (page_of (rg_p r))) with true in AP by (symmetry; apply (T r); auto).
  pose proof (cover_nonneg (fixed g (ra_put rs s)) (page_of (rg_p r))). pose proof (cover_nonneg (qspans (st_ra (ra_put rs s))) (page_of (rg_p r))).
  pose proof (cover_nonneg (map fl_in X) (page_of (rg_p r))). rewrite ?cover_app in *. cbn [fixed] in *. lia.
Qed.

(** *** publishing a new large block *)
Definition push (r : region) (LL : regs) : regs := mkRegs (r :: rl_own LL) (rl_open LL) (rl_strict LL) (rl_base LL).
Lemma insert_section_wp rs LL X st r : GI rs LL (rflight r :: X) -> ra_leftover (rs_ra rs) = false -> reg_ok (rs_os rs) r -> ~ In (rg_p r) (map rg_p (rl_all LL)) ->
  wp (insert_section g st (rg_p r) (rg_size r) (rg_guard r)) rs (fun failed rs' => os_in (table_pages g (rs_ra rs)) (rs_os rs) (rs_os rs') /\
    if failed : bool then GI rs' LL (rflight r :: X) /\ (errno (rs_os rs') = ENOMEM \/ rs_os rs' = rs_os rs /\ MAX_REGION_TABLE_SIZE g < 2 * ra_total (rs_ra rs)) /\ ra_leftover (rs_ra rs') = false
    else GI rs' (push r LL) X /\ (errno (rs_os rs') = errno (rs_os rs) \/ errno (rs_os rs') = ENOMEM)) sys_fault.
Proof.
  intros I L K AB. pose proof I as [U PL CL RA RQ ND RG FL AP MP GP GC GT]. cbn [ra_put st_ra st_os set_st_ra set_st_os] in *.
  assert (rg_p r <> 0) as NZ by (destruct K; lia).
  unfold insert_section. apply wp_bind. eapply wp_mono; [apply (regions_insert_wp g rs (lmap (rl_all LL)) (rg_p r) (rg_size r) (rg_guard r) U RA L NZ)| |auto].
  { apply lmap_None. auto. }
  intros [] rs1 (TF & H); destruct TF as [SM OI].
  - destruct H as (R1 & E1 & Er). apply wp_ret. split; [exact OI|]. split; [|split; [exact Er|rewrite E1; auto]].
    rewrite (rs_eta rs1), E1. change (ra_put (mkRas (rs_os rs1) (rs_ra rs)) s) with (set_st_os (rs_os rs1) (ra_put rs s)).
    apply ginv_table_step; [exact I|exact OI].
  - destruct H as (R1 & Er).
    assert (forall rs2, rs_os rs2 = rs_os rs1 -> ra_tab (rs_ra rs2) = ra_tab (rs_ra rs1) -> ra_cur (rs_ra rs2) = ra_cur (rs_ra rs1) ->
      ra_total (rs_ra rs2) = ra_total (rs_ra rs1) -> ra_free (rs_ra rs2) = ra_free (rs_ra rs1) -> ra_leftover (rs_ra rs2) = ra_leftover (rs_ra rs1) ->
      ra_addr (rs_ra rs2) = ra_addr (rs_ra rs1) -> ra_qrandom (rs_ra rs2) = ra_qrandom (rs_ra rs1) -> ra_qqueue (rs_ra rs2) = ra_qqueue (rs_ra rs1) -> ra_qqidx (rs_ra rs2) = ra_qqidx (rs_ra rs1) -> ra_rng (rs_ra rs2) = ra_rng (rs_ra rs1) ->
      GI rs2 (push r LL) X) as DONE.
    { intros rs2 e1 e2 e3 e4 e5 e6 e7 e8 e9 e10 e11.
      change (ra_put rs2 s) with (set_st_ra (rs_ra rs2) (set_st_os (rs_os rs2) (ra_put rs s))). rewrite e1.
      eapply ginv_relabel; [apply (ginv_table_step g _ LL _ _ I OI)|..].
      - apply ra_ok_ext with (rupd (lmap (rl_all LL)) (rg_p r) (Some (rg_size r, rg_guard r))).
        + intros p. symmetry. change (rl_all (push r LL)) with (r :: rl_all LL). apply lmap_cons.
        + destruct R1. unfold ra_cells in *. constructor; unfold ra_cells; rewrite ?e2, ?e3, ?e4, ?e5, ?e6; auto.
      - assert (rq_ok g (rs_ra rs1)) as [] by (eapply rq_ok_same; eauto). constructor; rewrite ?e8, ?e9, ?e10, ?e11; auto.
      - rewrite e7. apply SM.
      - change (rl_all (push r LL)) with (r :: rl_all LL). cbn. constructor; auto.
      - assert (forall r0, reg_ok (rs_os rs) r0 -> (forall q, region_span r0 q = true -> ~ table_pages g (rs_ra rs) q) -> reg_ok (rs_os rs1) r0) as TR.
        { intros r0 Hr0 Aw. eapply reg_ok_frame; [|exact Hr0]. intros q Hq. apply (oi_pages _ _ _ OI). auto. }
        assert (forall f q, In f (map region_span (rl_own LL) ++ qspans (rs_ra rs) ++ map fl_in (rflight r :: X)) -> f q = true -> ~ table_pages g (rs_ra rs) q) as AW.
        { intros f q Hf Hq T. destruct (fixed_rest _ _ _ _ _ _ I Hf Hq). rewrite (table_in_meta g (ra_put rs s) U PL q T) in *. discriminate. }
        intros r0 [<-|Hr0]; apply TR; auto; intros q Hq.
        + eapply AW; [|exact Hq]. rewrite !in_app_iff. right. right. left. reflexivity.
        + eapply AW; [|exact Hq]. rewrite in_app_iff. left. apply in_map. auto.
      - intros f q Hf Hq. pose proof (gi_fl _ _ _ _ (ginv_table_step g _ LL _ _ I OI) f q) as F. apply F; [right; auto|auto].
      - intros q. cbn [st_ra set_st_os ra_put set_st_ra]. rewrite (qspans_same (rs_ra rs) (rs_ra rs2)) by (rewrite ?e8, ?e9; apply SM).
        cbn [push rl_own map]. rewrite !cover_app. cbn [cover map]. rewrite ?cover_app. change (fl_in (rflight r)) with (region_span r). lia.
      - intros SL Q f q Hf Hq. rewrite (qspans_same (rs_ra rs) (rs_ra rs2)) in Hf by (rewrite ?e8, ?e9; apply SM). exact (gi_cold _ _ _ _ (ginv_table_step g _ LL _ _ I OI) SL Q f q Hf Hq).
      - intros SL _. split; [exact SL|]. split; [auto|]. intros q. cbn [st_ra set_st_os ra_put set_st_ra]. rewrite (qspans_same (rs_ra rs) (rs_ra rs2)) by (rewrite ?e8, ?e9; apply SM).
        cbn [push rl_own map]. rewrite !cover_app. cbn [cover map]. rewrite ?cover_app. change (fl_in (rflight r)) with (region_span r). lia. }
    apply wp_bind. destruct st; [unfold stats_large_allocate; destruct (STATS g)|].
    + apply wp_modify, wp_ret. split; [exact OI|]. split; [apply DONE; reflexivity|exact Er].
    + apply wp_ret, wp_ret. split; [exact OI|]. split; [apply DONE; reflexivity|exact Er].
    + apply wp_ret, wp_ret. split; [exact OI|]. split; [apply DONE; reflexivity|exact Er].
Qed.

(** *** looking up, taking out *)
Definition out (p : Z) (l : list region) : list region := filter (fun r => negb (rg_p r =? p)) l.
Lemma out_In p l r : In r (out p l) <-> In r l /\ rg_p r <> p.
Proof. unfold out. rewrite filter_In. rewrite negb_true_iff, Z.eqb_neq. tauto. Qed.
Lemma out_absent p l : ~ In p (map rg_p l) -> out p l = l.
Proof.
  unfold out. induction l as [|r l IH]; [auto|]. cbn. intros H. destruct (Z.eqb_spec (rg_p r) p); [tauto|]. cbn. rewrite IH; auto.
Qed.
Lemma out_perm r l : NoDup (map rg_p l) -> In r l -> Permutation l (r :: out (rg_p r) l).
Proof.
  intros ND H. apply in_split in H. destruct H as (l1 & l2 & ->). rewrite map_app in ND. cbn in ND. pose proof (NoDup_remove_2 _ _ _ ND) as N.
  rewrite in_app_iff in N. unfold out. rewrite filter_app. cbn. rewrite Z.eqb_refl. cbn. fold (out (rg_p r) l1). fold (out (rg_p r) l2). rewrite !out_absent by tauto.
  apply Permutation_sym, Permutation_middle.
Qed.
Definition opened (r : region) (LL : regs) : regs := mkRegs (out (rg_p r) (rl_own LL)) (r :: rl_open LL) (rl_strict LL) (rl_base LL).
Definition drop (p : Z) (LL : regs) : regs := mkRegs (out p (rl_own LL)) (rl_open LL) (rl_strict LL) (rl_base LL).
Lemma NoDup_own g0 s0 LL X : ginv g0 s0 LL X -> NoDup (map rg_p (rl_own LL)).
Proof.
  intros I. pose proof (gi_nd _ _ _ _ I) as N. unfold rl_all in N. rewrite map_app in N. revert N. generalize (map rg_p (rl_open LL)). generalize (map rg_p (rl_own LL)).
  induction l; intros l' N; cbn in N; constructor; inversion N; subst; auto; [|eapply IHl; eauto]. intros H. apply H1. apply in_app_iff. auto.
Qed.
Lemma opened_perm s0 LL X r : ginv g s0 LL X -> In r (rl_own LL) -> Permutation (rl_all LL) (rl_all (opened r LL)).
Proof.
  intros I H. unfold rl_all, opened. cbn. rewrite (out_perm r (rl_own LL)) at 1; [|eapply NoDup_own; eauto|auto]. cbn. apply Permutation_middle.
Qed.
Lemma ginv_open s0 LL X r : ginv g s0 LL X -> In r (rl_own LL) -> ginv g s0 (opened r LL) (rflight r :: X).
Proof.
  intros I H. pose proof (opened_perm _ _ _ _ I H) as P. pose proof I as [U PL CL RA RQ ND RG FL AP MP GP GC GT]. replace s0 with (set_st_ra (st_ra s0) s0) by (destruct s0; reflexivity).
  pose proof (RG r H) as K.
  assert (forall q, cover (map region_span (rl_own (opened r LL)) ++ qspans (st_ra s0) ++ map fl_in (rflight r :: X)) q = cover (map region_span (rl_own LL) ++ qspans (st_ra s0) ++ map fl_in X) q) as EQ.
  { intros q. cbn [opened rl_own map]. rewrite !cover_app. cbn [map cover]. change (fl_in (rflight r)) with (region_span r).
    assert (cover (map region_span (rl_own LL)) q = hit (region_span r) q + cover (map region_span (out (rg_p r) (rl_own LL))) q) as ->; [|lia].
    rewrite (cover_perm _ (map region_span (r :: out (rg_p r) (rl_own LL))) q); [reflexivity|]. apply Permutation_map, out_perm; [eapply NoDup_own; eauto|auto]. }
  eapply ginv_relabel; [exact I|..]; auto.
  - eapply ra_ok_ext; [|exact RA]. intros p. apply lmap_perm; auto.
  - eapply Permutation_NoDup; [apply Permutation_map; exact P|auto].
  - intros r0 Hr. apply RG. cbn in Hr. apply out_In in Hr. tauto.
  - intros f q [<-|Hf] Hq; [|apply FL; auto]. cbn [rflight fl_in fl_prot] in *. destruct (in_pages (rg_p r) (rg_size r) q) eqn:E; [apply K; auto|]. apply K; auto.
  - intros q. apply Z.eq_le_incl, EQ.
  - intros SL _. split; [exact SL|]. split; [auto|]. intros q. apply Z.eq_le_incl. symmetry. apply EQ.
Qed.
Lemma gi_ra_misc rs rs' LL X : GI rs LL X -> rs_os rs' = rs_os rs -> ra_tab (rs_ra rs') = ra_tab (rs_ra rs) -> ra_cur (rs_ra rs') = ra_cur (rs_ra rs) ->
  ra_total (rs_ra rs') = ra_total (rs_ra rs) -> ra_free (rs_ra rs') = ra_free (rs_ra rs) -> ra_leftover (rs_ra rs') = ra_leftover (rs_ra rs) ->
  ra_addr (rs_ra rs') = ra_addr (rs_ra rs) -> ra_qrandom (rs_ra rs') = ra_qrandom (rs_ra rs) -> ra_qqueue (rs_ra rs') = ra_qqueue (rs_ra rs) -> ra_qqidx (rs_ra rs') = ra_qqidx (rs_ra rs) -> rng_ok (ra_rng (rs_ra rs')) ->
  GI rs' LL X.
Proof.
  intros I e1 e2 e3 e4 e5 e6 e7 e8 e9 e10 e11. pose proof I as [U PL CL RA RQ ND RG FL AP MP GP GC GT]. cbn [ra_put st_ra st_os set_st_ra set_st_os] in *.
  replace (ra_put rs' s) with (set_st_ra (rs_ra rs') (ra_put rs s)) by (unfold ra_put; rewrite e1; reflexivity).
  eapply ginv_relabel; [exact I|..]; auto.
  - destruct RA. unfold ra_cells in *. constructor; unfold ra_cells; rewrite ?e2, ?e3, ?e4, ?e5, ?e6; auto.
  - destruct RQ. constructor; rewrite ?e8, ?e9, ?e10; auto.
  - intros q. cbn [st_ra set_st_os ra_put set_st_ra]. rewrite (qspans_same (rs_ra rs) (rs_ra rs')) by auto. lia.
  - rewrite (qspans_same (rs_ra rs) (rs_ra rs')) by auto. exact GC.
  - intros SL _. split; [exact SL|]. split; [auto|]. intros q. cbn [st_ra set_st_os ra_put set_st_ra]. rewrite (qspans_same (rs_ra rs) (rs_ra rs')) by auto. lia.
Qed.
(** a generator draw *)
Lemma gi_os_rel rs o' LL X : GI rs LL X -> os_rel (rs_os rs) o' -> GI (mkRas o' (rs_ra rs)) LL X.
Proof. intros I []. change (ra_put (mkRas o' (rs_ra rs)) s) with (set_st_os o' (ra_put rs s)). apply (gi_same g (ra_put rs s) (rs_os rs)); auto. split; [auto|]. cbn in *. lia. Qed.

Lemma find_wp rs LL X p (Q : option Z -> rastate -> Prop) E : GI rs LL X ->
  (forall i sz gd, In (mkRegion p sz gd) (rl_all LL) -> 0 <= i < ra_total (rs_ra rs) -> p <> 0 -> ra_cells (rs_ra rs) i = mkRegion p sz gd -> Q (Some i) rs) ->
  (~ In p (map rg_p (rl_all LL)) -> Q None rs) -> wp (regions_find p) rs Q E.
Proof.
  intros I H1 H2. apply (regions_find_wp g rs (lmap (rl_all LL))); [apply (gi_ra _ _ _ _ I)|].
  intros [i|]; [|intros H; apply H2, lmap_None; auto]. intros (Hi & Hp & sz & gd & Hm & Hc). eapply H1; eauto. apply lmap_Some; auto. apply (gi_nd _ _ _ _ I).
Qed.
Lemma delete_open_wp rs own open st bs r X i (Q : unit -> rastate -> Prop) E : GI rs (mkRegs own (r :: open) st bs) X -> 0 <= i < ra_total (rs_ra rs) -> ra_cells (rs_ra rs) i = r -> rg_p r <> 0 ->
  (forall rs', GI rs' (mkRegs own open st bs) X -> rs_os rs' = rs_os rs -> ra_leftover (rs_ra rs') = ra_leftover (rs_ra rs) -> ra_same (rs_ra rs) (rs_ra rs') -> Q tt rs') ->
  wp (regions_delete i) rs Q E.
Proof.
  intros I Hi Hc NZ HQ. pose proof I as [U PL CL RA RQ ND RG FL AP MP GP GC GT]. cbn [ra_put st_ra st_os set_st_ra set_st_os] in *. destruct r as [p sz gd]. cbn in NZ.
  eapply regions_delete_wp; [exact RA|exact Hi|exact NZ|exact Hc|]. intros r' R' SM LO. apply HQ; auto.
  change (ra_put (mkRas (rs_os rs) r') s) with (set_st_ra r' (ra_put rs s)). eapply ginv_relabel; [exact I|..]; auto.
  - eapply ra_ok_ext; [|exact R']. intros q. unfold rl_all. cbn [rl_own rl_open]. apply (lmap_del own (mkRegion p sz gd) open q ND).
  - eapply rq_ok_same; eauto.
  - apply SM.
  - unfold rl_all in *. cbn [rl_own rl_open] in *. rewrite map_app in *. apply NoDup_remove_1 in ND. auto.
  - intros q. cbn [st_ra set_st_os ra_put set_st_ra rl_own]. rewrite (qspans_same (rs_ra rs) r') by apply SM. lia.
  - rewrite (qspans_same (rs_ra rs) r') by apply SM. exact GC.
  - intros SL _. split; [exact SL|]. split; [auto|]. intros q. cbn [st_ra set_st_os ra_put set_st_ra rl_own]. rewrite (qspans_same (rs_ra rs) r') by apply SM. lia.
Qed.
Lemma set_size_open_wp rs own open st bs r sz' X i (Q : unit -> rastate -> Prop) E : let r' := mkRegion (rg_p r) sz' (rg_guard r) in
  GI rs (mkRegs own (r :: open) st bs) (rflight r' :: X) -> 0 <= i < ra_total (rs_ra rs) -> ra_cells (rs_ra rs) i = r -> rg_p r <> 0 -> reg_ok (rs_os rs) r' ->
  (forall rs', GI rs' (mkRegs (r' :: own) open st bs) X -> rs_os rs' = rs_os rs -> ra_leftover (rs_ra rs') = ra_leftover (rs_ra rs) -> Q tt rs') ->
  wp (regions_set_size i sz') rs Q E.
Proof.
  intros r1 I Hi Hc NZ K HQ. pose proof I as [U PL CL RA RQ ND RG FL AP MP GP GC GT]. cbn [ra_put st_ra st_os set_st_ra set_st_os] in *. destruct r as [p sz gd]. cbn in NZ. cbn [rg_p rg_guard] in *.
  eapply regions_set_size_wp; [exact RA|exact Hi|exact NZ|exact Hc|]. intros r' R' SM LO. apply HQ; auto.
  unfold rl_all in *. cbn [rl_own rl_open] in *.
  assert (Permutation (map rg_p (own ++ mkRegion p sz gd :: open)) (map rg_p (r1 :: own ++ open))) as PM.
  { cbn [map]. rewrite !map_app. cbn [map rg_p r1]. apply Permutation_sym, Permutation_middle. }
  change (ra_put (mkRas (rs_os rs) r') s) with (set_st_ra r' (ra_put rs s)). eapply ginv_relabel; [exact I|..]; auto; unfold rl_all; cbn [rl_own rl_open].
  - eapply ra_ok_ext; [|exact R']. intros q. rewrite <- app_comm_cons, lmap_cons. unfold r1; cbn [rg_p rg_size rg_guard]. unfold rupd at 1 2. destruct (Z.eqb_spec q p); [auto|].
    rewrite (lmap_perm _ (mkRegion p sz gd :: own ++ open) q ND (Permutation_sym (Permutation_middle _ _ _))). rewrite lmap_cons. unfold rupd. cbn. destruct (Z.eqb_spec q p); [lia|auto].
  - eapply rq_ok_same; eauto.
  - apply SM.
  - rewrite <- app_comm_cons. eapply Permutation_NoDup; [exact PM|auto].
  - intros r0 [<-|Hr]; auto.
  - intros f q Hf. apply FL. right. auto.
  - intros q. cbn [st_ra set_st_os ra_put set_st_ra]. rewrite (qspans_same (rs_ra rs) r') by apply SM. cbn [map]. rewrite !cover_app. cbn [cover map]. rewrite ?cover_app. change (fl_in (rflight r1)) with (region_span r1). lia.
  - rewrite (qspans_same (rs_ra rs) r') by apply SM. exact GC.
  - intros SL _. split; [exact SL|]. split; [auto|]. intros q. cbn [st_ra set_st_os ra_put set_st_ra]. rewrite (qspans_same (rs_ra rs) r') by apply SM. cbn [map]. rewrite !cover_app. cbn [cover map]. rewrite ?cover_app. change (fl_in (rflight r1)) with (region_span r1). lia.
Qed.

(** critical section of deallocate_large *)
Lemma remove_section_wp rs LL X p expected : GI rs LL X -> ~ In p (map rg_p (rl_open LL)) ->
  wp (remove_section g p expected) rs (fun sg rs' => exists r, r = mkRegion p (fst sg) (snd sg) /\ In r (rl_own LL) /\ GI rs' (drop p LL) (rflight r :: X) /\ rs_os rs' = rs_os rs /\
      ra_leftover (rs_ra rs') = ra_leftover (rs_ra rs) /\ (forall e, expected = Some e -> fst sg = get_large_size_class g e) /\
      ra_qrandom (rs_ra rs') = ra_qrandom (rs_ra rs) /\ ra_qqueue (rs_ra rs') = ra_qqueue (rs_ra rs) /\ ra_qqidx (rs_ra rs') = ra_qqidx (rs_ra rs))
    (fun f => (f = Fatal "invalid free" /\ ~ In p (map rg_p (rl_own LL))) \/
       (f = Fatal "sized deallocation mismatch (large)" /\ exists e sz gd, expected = Some e /\ In (mkRegion p sz gd) (rl_own LL) /\ sz <> get_large_size_class g e)).
Proof.
  intros I O.
  unfold remove_section. apply wp_bind. eapply find_wp; [exact I| |].
  2:{ intros N. apply wp_fail. left. split; [auto|]. intros H. apply N. unfold rl_all. rewrite map_app. apply in_or_app. auto. }
  intros i sz gd HInA Hi NZ Hc.
  assert (In (mkRegion p sz gd) (rl_own LL)) as HIn. { unfold rl_all in HInA. apply in_app_iff in HInA. destruct HInA as [H|H]; [auto|]. elim O. apply in_map_iff. eexists. split; [|exact H]. reflexivity. } apply wp_bind, wp_gets. cbv zeta. rewrite Hc. cbn [rg_size rg_guard].
  assert (forall e, expected = Some e -> sz = get_large_size_class g e \/ sz <> get_large_size_class g e) as DC by (intros; lia).
  apply wp_bind.
  eapply wp_mono with (Q := fun _ rs' => rs' = rs /\ forall e, expected = Some e -> sz = get_large_size_class g e)
    (E := fun f => f = Fatal "sized deallocation mismatch (large)" /\ exists e sz gd, expected = Some e /\ In (mkRegion p sz gd) (rl_own LL) /\ sz <> get_large_size_class g e); [| |tauto].
  { destruct expected as [e|]; [|apply wp_ret; split; [auto|discriminate]].
    destruct (Z.eqb_spec sz (get_large_size_class g e)); cbn [negb].
    - apply wp_ret. split; [auto|]. intros e' [= <-]. auto.
    - apply wp_fail. split; [auto|]. exists e, sz, gd. auto. }
  intros _ rs' [-> EX]. apply wp_bind. pose proof (ginv_open _ _ _ _ I HIn) as I1. unfold opened in I1. cbn [rg_p] in I1.
  eapply delete_open_wp; [exact I1|exact Hi|exact Hc|exact NZ|]. intros rs1 I2 E1 L1 SM. apply wp_bind.
  assert (forall rs2, rs_os rs2 = rs_os rs1 -> ra_tab (rs_ra rs2) = ra_tab (rs_ra rs1) -> ra_cur (rs_ra rs2) = ra_cur (rs_ra rs1) ->
      ra_total (rs_ra rs2) = ra_total (rs_ra rs1) -> ra_free (rs_ra rs2) = ra_free (rs_ra rs1) -> ra_leftover (rs_ra rs2) = ra_leftover (rs_ra rs1) ->
      ra_addr (rs_ra rs2) = ra_addr (rs_ra rs1) -> ra_qrandom (rs_ra rs2) = ra_qrandom (rs_ra rs1) -> ra_qqueue (rs_ra rs2) = ra_qqueue (rs_ra rs1) -> ra_qqidx (rs_ra rs2) = ra_qqidx (rs_ra rs1) -> ra_rng (rs_ra rs2) = ra_rng (rs_ra rs1) ->
     exists r, r = mkRegion p sz gd /\ In r (rl_own LL) /\ GI rs2 (drop p LL) (rflight r :: X) /\ rs_os rs2 = rs_os rs /\ ra_leftover (rs_ra rs2) = ra_leftover (rs_ra rs) /\ (forall e, expected = Some e -> sz = get_large_size_class g e) /\
       ra_qrandom (rs_ra rs2) = ra_qrandom (rs_ra rs) /\ ra_qqueue (rs_ra rs2) = ra_qqueue (rs_ra rs) /\ ra_qqidx (rs_ra rs2) = ra_qqidx (rs_ra rs)) as DONE.
  { intros rs2 e1 e2 e3 e4 e5 e6 e7 e8 e9 e10 e11. exists (mkRegion p sz gd). split; [auto|]. split; [auto|].
    split; [|rewrite e1, e6, e8, e9, e10; destruct SM; repeat split; auto; congruence].
    eapply gi_ra_misc; [exact I2|auto..]. rewrite e11. apply (rq_rng _ _ (gi_rq _ _ _ _ I2)). }
  unfold stats_large_deallocate. destruct (STATS g).
  - apply wp_modify, wp_ret. apply DONE; reflexivity.
  - apply wp_ret, wp_ret. apply DONE; reflexivity.
Qed.
End S.
