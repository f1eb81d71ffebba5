(** The region table refines a finite map. *)
From Coq Require Import String ZArith List Bool Lia ZifyBool.
From Verif Require Import M_Base M_Config M_SizeClass M_OS M_Random M_Region P_Base P_Count P_SizeClass P_OS P_Region.
Import ListNotations.
Open Scope Z_scope.
Ltac Zify.zify_post_hook ::= idtac.
Opaque home prev_index.

Definition rmap : Type := Z -> option (Z * Z).
Definition rupd (m : rmap) (p : Z) (v : option (Z * Z)) : rmap := fun q => if q =? p then v else m q.

(** everything in the record that the table operations leave alone *)
Record ra_same (r r' : ralloc) : Prop := {
  rsm_addr : ra_addr r' = ra_addr r; rsm_alloc : ra_allocated r' = ra_allocated r;
  rsm_qr : ra_qrandom r' = ra_qrandom r; rsm_qq : ra_qqueue r' = ra_qqueue r;
  rsm_qi : ra_qqidx r' = ra_qqidx r; rsm_rng : ra_rng r' = ra_rng r }.
Lemma ra_same_refl r : ra_same r r. Proof. constructor; auto. Qed.

Record ra_ok (g : config) (r : ralloc) (m : rmap) : Prop := {
  ro_pow : exists k, 7 <= k <= 30 /\ ra_total r = 2 ^ k;
  ro_max : ra_total r <= Z.max 128 (MAX_REGION_TABLE_SIZE g);
  ro_tab : tab_ok (ra_total r) (ra_cells r);
  ro_out : forall y, ~ 0 <= y < ra_total r -> rg_p (ra_cells r y) = 0;
  ro_free : ra_free r = ra_total r - cnt (ra_total r) (ra_cells r);
  ro_load : ra_total r - 4 <= 4 * ra_free r;
  ro_other : ra_leftover r = false -> forall y, rg_p (ra_tab r (negb (ra_cur r)) y) = 0;
  ro_map : forall p sz gd, p <> 0 -> (m p = Some (sz, gd) <-> has (ra_total r) (ra_cells r) (mkRegion p sz gd));
  ro_null : m 0 = None
}.

(** pages of the two tables *)
Definition table_pages (g : config) (r : ralloc) (q : Z) : Prop :=
  in_pages (ra_addr r false) (regions_bytes g) q = true \/ in_pages (ra_addr r true) (regions_bytes g) q = true.
Lemma max_table_bounds g : usable_config g = true ->
  10 <= MAX_REGION_TABLE_SIZE g <= 11184810 /\ MAX_REGION_TABLE_SIZE g * 24 <= regions_bytes g /\ 4096 <= regions_bytes g <= 2 ^ 30.
Proof.
  intros U. unfold usable_config, static_asserts, in_range in U.
  assert (1048576 <= CLASS_REGION_SIZE g <= 1099511627776) as H by lia. clear U.
  unfold MAX_REGION_TABLE_SIZE, regions_bytes, PAGE_SIZE, sizeof_region_metadata.
  assert (256 <= CLASS_REGION_SIZE g / 4096 <= 268435456) as H1.
  { split; [apply Z.div_le_lower_bound|apply Z.div_le_upper_bound]; lia. }
  unfold MAX_REGION_TABLE_SIZE, PAGE_SIZE, sizeof_region_metadata.
  set (x := CLASS_REGION_SIZE g / 4096) in *.
  assert (10 <= x / 24 <= 11184810) as H2.
  { split; [apply Z.div_le_lower_bound; lia|]. transitivity (268435456 / 24); [apply Z.div_le_mono; lia|]. vm_compute. discriminate. }
  split; [exact H2|]. rewrite page_align_small by lia. set (y := x / 24 * 24) in *.
  pose proof (Z.div_mod (y + 4095) 4096 ltac:(lia)). pose proof (Z.mod_pos_bound (y + 4095) 4096 ltac:(lia)).
  assert (240 <= y <= 268435440) by (unfold y; lia). split; [lia|]. change (2 ^ 30) with 1073741824.
  assert (4095 < (y + 4095) / 4096 * 4096) by lia.
  assert (1 <= (y + 4095) / 4096) by lia. lia.
Qed.

Lemma pow2N_of r g m : ra_ok g r m -> pow2N (ra_total r).
Proof. intros [(k & Hk & E) _ _ _ _ _ _ _ _]. exists k. split; [lia|auto]. Qed.
Lemma total_bounds r g m : ra_ok g r m -> 128 <= ra_total r <= 2 ^ 30.
Proof.
  intros [(k & Hk & E) _ _ _ _ _ _ _ _]. rewrite E. change 128 with (2 ^ 7). split; apply Z.pow_le_mono_r; lia.
Qed.
Lemma cnt_bounds N T : 0 <= N -> 0 <= cnt N T <= N.
Proof. intros. unfold cnt. pose proof (zcount_nonneg (full T) 0 N). pose proof (zcount_le (full T) 0 N H). lia. Qed.
Lemma has_full N T p sz gd : p <> 0 -> has N T (mkRegion p sz gd) -> exists i, 0 <= i < N /\ T i = mkRegion p sz gd /\ full T i = true.
Proof. intros H (i & Hi & E). exists i. split; [auto|]. split; [auto|]. unfold full. rewrite E. cbn. lia. Qed.
Lemma absent_of g r m p : ra_ok g r m -> p <> 0 -> m p = None -> absent (ra_total r) (ra_cells r) p.
Proof.
  intros R Hp Hm i Hi E.
  assert (has (ra_total r) (ra_cells r) (mkRegion p (rg_size (ra_cells r i)) (rg_guard (ra_cells r i)))) as H.
  { exists i. split; [auto|]. rewrite <- E. destruct (ra_cells r i); auto. }
  apply (ro_map _ _ _ R) in H; auto. congruence.
Qed.

(** tables are in place: the pages the operations may touch *)
Definition tab_frame (g : config) (s s' : rastate) : Prop :=
  ra_same (rs_ra s) (rs_ra s') /\ os_in (table_pages g (rs_ra s)) (rs_os s) (rs_os s').

Lemma regions_grow_wp g s m : usable_config g = true -> ra_ok g (rs_ra s) m -> ra_leftover (rs_ra s) = false ->
  wp (regions_grow g) s (fun failed s' => tab_frame g s s' /\ ra_ok g (rs_ra s') m /\
     if failed : bool then rs_ra s' = rs_ra s /\ (errno (rs_os s') = ENOMEM \/
            rs_os s' = rs_os s /\ MAX_REGION_TABLE_SIZE g < 2 * ra_total (rs_ra s))
     else ra_total (rs_ra s') = 2 * ra_total (rs_ra s) /\ ra_free (rs_ra s') = ra_free (rs_ra s) + ra_total (rs_ra s) /\
          (errno (rs_os s') = errno (rs_os s) \/ errno (rs_os s') = ENOMEM)) sys_fault.
Proof.
  intros U R L. destruct (max_table_bounds g U) as (Hmax & Hbytes & Hb2).
  pose proof (pow2N_of _ _ _ R) as P. pose proof (total_bounds _ _ _ R) as TB.
  unfold regions_grow. apply wp_bind, wp_gets. set (r := rs_ra s) in *.
  change (SIZE_MAX / sizeof_region_metadata / 2) with 384307168202282325.
  change (2 ^ 30) with 1073741824 in *.
  replace (384307168202282325 <? ra_total r) with false by lia.
  destruct (Z.ltb_spec (MAX_REGION_TABLE_SIZE g) (ra_total r * 2)) as [Lt|Ge].
  { apply wp_ret. split; [split; [apply ra_same_refl|apply os_in_refl]|]. split; [exact R|]. split; [auto|]. right. split; [auto|]. fold r. lia. }
  assert (w64 (ra_total r * 2 * sizeof_region_metadata) = ra_total r * 48) as Esz.
  { unfold sizeof_region_metadata. rewrite w64_small by (change (2 ^ 64) with 18446744073709551616; lia). lia. }
  rewrite Esz. apply wp_bind. unfold ra_sys. apply wp_zoom.
  eapply wp_mono; [apply memory_protect_wp| |auto].
  intros failed o1 H1. destruct failed.
  { apply wp_ret. subst o1. cbn [rs_os rs_ra set_rs_os]. split; [split; [apply ra_same_refl|apply os_in_failed]|].
    split; [exact R|]. split; [reflexivity|]. left. reflexivity. }
  destruct H1 as (E1 & _ & _).
  pose proof R as [Rp Rm Rt Rout Rfree Rload Roth Rmap Rnull].
  set (cur := ra_cur r) in *.
  destruct (rehash_spec (ra_total r * 2) (ra_cells r)) with (idx := zrange 0 (ra_total r)) (new := ra_tab r (negb cur)) as (t & Et & Tt & Ct & Ot & Ht).
  - destruct Rp as (k & Hk & E). exists (k + 1). split; [lia|]. rewrite Z.pow_add_r by lia. lia.
  - apply zrange_NoDup.
  - intros i j Hi Hj Ni E. apply in_zrange in Hi, Hj. eapply (t_inj _ _ Rt); eauto. unfold full. lia.
  - specialize (Roth L). constructor.
    + intros i j _ _ F. unfold full in F. rewrite Roth in F. discriminate.
    + intros i j _ _ F. unfold full in F. rewrite Roth in F. discriminate.
  - intros i _ Ni j _. rewrite (Roth L). congruence.
  - rewrite zrange_zlen. assert (cnt (ra_total r * 2) (ra_tab r (negb cur)) = 0) as ->; [|lia].
    unfold cnt. apply zcount_zero. intros x _. unfold full. rewrite (Roth L). reflexivity.
  - intros y _. apply (Roth L).
  - rewrite Et. apply wp_bind, wp_modify. cbn [rs_os rs_ra set_rs_os set_rs_ra]. apply wp_bind, wp_zoom.
    cbn [rs_os rs_ra set_rs_os set_rs_ra].
    assert (w64 (ra_total r * sizeof_region_metadata) = ra_total r * 24) as Esz2.
    { unfold sizeof_region_metadata. rewrite w64_small by (change (2 ^ 64) with 18446744073709551616; lia). lia. }
    rewrite Esz2.
    assert (cnt (ra_total r * 2) (ra_tab r (negb cur)) = 0) as C0.
    { unfold cnt. apply zcount_zero. intros x _. unfold full. rewrite (Roth L). reflexivity. }
    rewrite C0 in Ct. change (zlen (filter (full (ra_cells r)) (zrange 0 (ra_total r)))) with (cnt (ra_total r) (ra_cells r)) in Ct.
    assert (forall b l q, l <= regions_bytes g -> in_pages (ra_addr r b) l q = true -> table_pages g r q) as InT.
    { intros b l q Hl Hq. apply (in_pages_le _ _ _ _ Hl) in Hq. destruct b; [right|left]; auto. }
    assert (os_in (table_pages g r) (rs_os s) o1) as I1.
    { rewrite E1. apply os_in_protected. intros q. apply InT. lia. }
    pose proof (cnt_bounds (ra_total r) (ra_cells r) ltac:(lia)) as CB.
    assert (forall b (T0 : bool -> Z -> region) fr lo, T0 (negb cur) = t -> (lo = false -> forall y, rg_p (T0 cur y) = 0) ->
       fr = ra_free r + ra_total r -> b = negb cur ->
       ra_ok g (mkRa T0 (ra_addr r) b (ra_total r * 2) fr (ra_allocated r) (ra_qrandom r) (ra_qqueue r) (ra_qqidx r) (ra_rng r) lo) m) as Build.
    { intros b T0 fr lo HT Hlo -> ->.
      constructor; cbn [ra_cells ra_tab ra_cur ra_total ra_free ra_leftover]; unfold ra_cells; cbn [ra_cells ra_tab ra_cur ra_total ra_free ra_leftover]; rewrite ?HT.
      - destruct Rp as (k & Hk & E). exists (k + 1). rewrite Z.pow_add_r by lia. split; [|lia].
        destruct (Z.eq_dec k 30) as [->|]; [|lia]. change (2 ^ 30) with 1073741824 in E. lia.
      - lia.
      - exact Tt.
      - exact Ot.
      - lia.
      - lia.
      - rewrite negb_involutive. exact Hlo.
      - intros p sz gd Hp. rewrite Rmap by auto. rewrite Ht by (cbn; auto). split.
        + intros (i & Hi & E). right. exists i. split; [apply in_zrange; auto|auto].
        + intros [(i & Hi & E)|(i & Hi & E)].
          * exfalso. apply Hp. change p with (rg_p (mkRegion p sz gd)). rewrite <- E. apply (Roth L).
          * apply in_zrange in Hi. exists i. auto.
      - exact Rnull. }
    assert (Bool.eqb (negb cur) cur = false) as Ecur by (now destruct cur).
    assert (Bool.eqb cur (negb cur) = false) as Ecur' by (now destruct cur).
    eapply wp_mono; [apply memory_map_fixed_wp| |auto].
    intros failed o2 H2. destruct failed.
    + subst o2. apply wp_bind, wp_modify, wp_bind, wp_modify, wp_ret.
      unfold set_rs_os, set_rs_ra, set_ra_cur, set_ra_total, set_ra_free, set_ra_leftover, set_ra_tab; cbn [rs_os rs_ra ra_tab ra_addr ra_cur ra_total ra_free ra_allocated ra_qrandom ra_qqueue ra_qqidx ra_rng ra_leftover].
      fold r. rewrite (w64_small (ra_free r + ra_total r)) by (change (2 ^ 64) with 18446744073709551616; lia).
      split; [split; [constructor; reflexivity|eapply os_in_trans; [exact I1|apply os_in_failed]]|].
      split; [apply Build|].
      * rewrite Bool.eqb_reflx. reflexivity.
      * discriminate.
      * reflexivity.
      * reflexivity.
      * split; [lia|]. split; [reflexivity|]. right. reflexivity.
    + destruct H2 as (-> & _). apply wp_bind, wp_modify, wp_bind, wp_modify, wp_ret.
      unfold set_rs_os, set_rs_ra, set_ra_cur, set_ra_total, set_ra_free, set_ra_leftover, set_ra_tab; cbn [rs_os rs_ra ra_tab ra_addr ra_cur ra_total ra_free ra_allocated ra_qrandom ra_qqueue ra_qqidx ra_rng ra_leftover].
      fold r. rewrite (w64_small (ra_free r + ra_total r)) by (change (2 ^ 64) with 18446744073709551616; lia).
      split; [split; [constructor; reflexivity|eapply os_in_trans; [exact I1|apply os_in_mapped; intros q; apply InT; lia]]|].
      split; [apply Build|].
      * rewrite Ecur, Bool.eqb_reflx. reflexivity.
      * intros _ y. rewrite Bool.eqb_reflx, Ecur'. destruct (Z.ltb_spec y (ra_total r)); [reflexivity|]. apply (Rout y). lia.
      * reflexivity.
      * reflexivity.
      * split; [lia|]. split; [reflexivity|]. left. rewrite E1. reflexivity.
Qed.

Lemma set_cells_ok g r m t free m' :
  ra_ok g r m -> tab_ok (ra_total r) t -> (forall y, ~ 0 <= y < ra_total r -> rg_p (t y) = 0) ->
  free = ra_total r - cnt (ra_total r) t -> ra_total r - 4 <= 4 * free ->
  (forall p sz gd, p <> 0 -> (m' p = Some (sz, gd) <-> has (ra_total r) t (mkRegion p sz gd))) -> m' 0 = None ->
  ra_ok g (set_ra_free free (set_ra_cells t r)) m' /\ ra_same r (set_ra_free free (set_ra_cells t r)) /\
  ra_total (set_ra_free free (set_ra_cells t r)) = ra_total r /\ ra_leftover (set_ra_free free (set_ra_cells t r)) = ra_leftover r.
Proof.
  intros [Rp Rm Rt Rout Rfree Rload Roth Rmap Rnull] Ht Ho Hf Hl Hm Hn.
  unfold set_ra_cells, set_ra_free, set_ra_tab. cbn [ra_tab ra_addr ra_cur ra_total ra_free ra_allocated ra_qrandom ra_qqueue ra_qqidx ra_rng ra_leftover].
  split; [|split; [constructor; reflexivity|auto]].
  constructor; unfold ra_cells; cbn [ra_tab ra_addr ra_cur ra_total ra_free ra_leftover]; rewrite ?Bool.eqb_reflx; auto.
  intros L y. replace (Bool.eqb (negb (ra_cur r)) (ra_cur r)) with false by (now destruct (ra_cur r)). now apply Roth.
Qed.

Lemma regions_insert_wp g s m p size gd : usable_config g = true -> ra_ok g (rs_ra s) m -> ra_leftover (rs_ra s) = false ->
  p <> 0 -> m p = None ->
  wp (regions_insert g p size gd) s (fun failed s' => tab_frame g s s' /\
     if failed : bool then ra_ok g (rs_ra s') m /\ rs_ra s' = rs_ra s /\ (errno (rs_os s') = ENOMEM \/
            rs_os s' = rs_os s /\ MAX_REGION_TABLE_SIZE g < 2 * ra_total (rs_ra s))
     else ra_ok g (rs_ra s') (rupd m p (Some (size, gd))) /\
          (errno (rs_os s') = errno (rs_os s) \/ errno (rs_os s') = ENOMEM)) sys_fault.
Proof.
  intros U R L Hp Hm. unfold regions_insert. apply wp_bind, wp_gets.
  pose proof (total_bounds _ _ _ R) as TB. change (2 ^ 30) with 1073741824 in TB.
  assert (forall s1, ra_ok g (rs_ra s1) m -> ra_total (rs_ra s1) <= 4 * ra_free (rs_ra s1) ->
    wp (let! ra := gets rs_ra in
        let mask := w64 (ra_total ra - 1) in
        match probe_empty (Z.to_nat (ra_total ra)) (ra_cells ra) mask (home p mask) with
        | None => fail Hang
        | Some index =>
            upd_ra (fun r => set_ra_free (w64 (ra_free r - 1)) (set_ra_cells (fupd (ra_cells r) index (mkRegion p size gd)) r));;
            ret false
        end) s1 (fun failed s' => failed = false /\ ra_same (rs_ra s1) (rs_ra s') /\ rs_os s' = rs_os s1 /\
            ra_ok g (rs_ra s') (rupd m p (Some (size, gd)))) sys_fault) as K.
  { clear s R L TB. intros s R Hload. apply wp_bind, wp_gets. set (r := rs_ra s) in *. cbv zeta.
    pose proof (total_bounds _ _ _ R) as TB. change (2 ^ 30) with 1073741824 in TB.
    pose proof (pow2N_of _ _ _ R) as P. pose proof (absent_of _ _ _ _ R Hp Hm) as Ab.
    pose proof (home_range (ra_total r) p P) as Hh.
    rewrite (w64_small (ra_total r - 1)) by (change (2 ^ 64) with 18446744073709551616; lia).
    pose proof R as [Rp Rm Rt Rout Rfree Rload Roth Rmap Rnull].
    pose proof (cnt_bounds (ra_total r) (ra_cells r) ltac:(lia)) as CB.
    destruct (zcount_not_full (full (ra_cells r)) 0 (ra_total r) ltac:(lia)) as (e & He & Fe); [unfold cnt in *; lia|].
    destruct (probe_empty_spec (ra_total r) (ra_cells r) P (Z.to_nat (ra_total r)) (home p (ra_total r - 1)) Hh) as (x & -> & Hx & Fx & Px).
    { exists e. split; [auto|]. split; [auto|]. pose proof (dist_range (ra_total r) _ e Hh He). lia. }
    apply wp_bind, wp_modify, wp_ret. cbn [rs_ra set_rs_ra rs_os]. fold r.
    destruct (insert_tab (ra_total r) (ra_cells r) (mkRegion p size gd) x P Rt Hp Ab Hx Fx Px) as (T1 & C1 & H1).
    rewrite w64_small by (change (2 ^ 64) with 18446744073709551616; lia).
    destruct (set_cells_ok g r m (fupd (ra_cells r) x (mkRegion p size gd)) (ra_free r - 1) (rupd m p (Some (size, gd))) R T1) as (K1 & K2 & K3 & K4).
    - intros y Hy. rewrite fupd_ne by lia. auto.
    - lia.
    - lia.
    - intros q sz gd' Hq. rewrite H1 by (cbn; auto). unfold rupd. destruct (Z.eqb_spec q p) as [->|Nqp].
      + split.
        * intros E. injection E as <- <-. auto.
        * intros [H|E]; [|injection E as <- <-; auto]. apply Rmap in H; auto. congruence.
      + rewrite Rmap by auto. split; [auto|]. intros [H|E]; [auto|]. injection E. congruence.
    - unfold rupd. replace (0 =? p) with false by lia. auto.
    - auto. }
  set (r := rs_ra s) in *.
  pose proof (cnt_bounds (ra_total r) (ra_cells r) ltac:(lia)) as CB. pose proof (ro_free _ _ _ R) as EF.
  rewrite w64_small by (change (2 ^ 64) with 18446744073709551616; lia).
  apply wp_bind. destruct (Z.ltb_spec (ra_free r * 4) (ra_total r)) as [Lt|Ge].
  - eapply wp_mono; [apply regions_grow_wp; eauto| |auto].
    intros failed s1 (Fr & R1 & H1). destruct failed.
    + apply wp_ret. destruct H1 as (E1 & E2). auto.
    + destruct H1 as (Et & Ef & Ee). eapply wp_mono; [apply K; [exact R1|fold r in Et, Ef; lia]| |auto].
      intros failed s2 (-> & S2 & O2 & R2). destruct Fr as [[] Fo]. destruct S2. split; [split|].
      * constructor; congruence.
      * rewrite O2. exact Fo.
      * rewrite O2. auto.
  - apply wp_ret. eapply wp_mono; [apply K; [exact R|fold r; lia]| |auto].
    intros failed s2 (-> & S2 & O2 & R2). split; [split; [auto|rewrite O2; apply os_in_refl]|]. rewrite O2. auto.
Qed.

Lemma path_use N T i j p h : tab_ok N T -> 0 <= i < N -> 0 <= j < N -> rg_p (T i) = p -> full T i = true -> h = hm N p ->
  dist N h j < dist N h i -> full T j = true.
Proof. intros Tk Hi Hj Ep F -> D. subst p. exact (t_path _ _ Tk i j Hi Hj F D). Qed.

Lemma regions_find_wp g s m p (Q : option Z -> rastate -> Prop) E : ra_ok g (rs_ra s) m ->
  (forall oi, match oi with
    | Some i => 0 <= i < ra_total (rs_ra s) /\ p <> 0 /\ exists sz gd, m p = Some (sz, gd) /\ ra_cells (rs_ra s) i = mkRegion p sz gd
    | None => m p = None end -> Q oi s) ->
  wp (regions_find p) s Q E.
Proof.
  intros R HQ. unfold regions_find. apply wp_bind, wp_gets. set (r := rs_ra s) in *. cbv zeta.
  pose proof (total_bounds _ _ _ R) as TB. change (2 ^ 30) with 1073741824 in TB.
  pose proof (pow2N_of _ _ _ R) as P. pose proof (home_range (ra_total r) p P) as Hh.
  rewrite (w64_small (ra_total r - 1)) by (change (2 ^ 64) with 18446744073709551616; lia).
  pose proof R as [Rp Rm Rt Rout Rfree Rload Roth Rmap Rnull].
  pose proof (cnt_bounds (ra_total r) (ra_cells r) ltac:(lia)) as CB.
  destruct (zcount_not_full (full (ra_cells r)) 0 (ra_total r) ltac:(lia)) as (e & He & Fe); [unfold cnt in *; lia|].
  destruct (probe_key_spec (ra_total r) (ra_cells r) p P (Z.to_nat (ra_total r)) (home p (ra_total r - 1)) Hh) as (x & -> & Hx & Fx & Px).
  { exists e. split; [auto|]. split; [auto|]. pose proof (dist_range (ra_total r) _ e Hh He). lia. }
  apply wp_ret. apply HQ. destruct (Z.eqb_spec (rg_p (ra_cells r x)) p) as [Ep|Np]; cbn [andb].
  - destruct (Z.eqb_spec (rg_p (ra_cells r x)) 0) as [E0|N0]; cbn [negb].
    + rewrite <- Ep, E0. exact Rnull.
    + split; [auto|]. split; [congruence|].
      exists (rg_size (ra_cells r x)), (rg_guard (ra_cells r x)).
      assert (ra_cells r x = mkRegion p (rg_size (ra_cells r x)) (rg_guard (ra_cells r x))) as Er.
      { rewrite <- Ep. destruct (ra_cells r x); auto. }
      split; [|exact Er]. apply Rmap; [congruence|]. exists x. auto.
  - destruct Fx as [Fx|]; [|contradiction]. destruct (Z.eq_dec p 0) as [->|N0]; [exact Rnull|].
    destruct (m p) as [[sz gd]|] eqn:Em; [exfalso|reflexivity].
    apply Rmap in Em; auto. destruct (has_full _ _ _ _ _ N0 Em) as (i & Hi & Ei & Fi).
    assert (dist (ra_total r) (home p (ra_total r - 1)) i <> dist (ra_total r) (home p (ra_total r - 1)) x) as Dn.
    { intros D. apply dist_inj in D; auto. subst i. congruence. }
    destruct (Z.lt_trichotomy (dist (ra_total r) (home p (ra_total r - 1)) i) (dist (ra_total r) (home p (ra_total r - 1)) x)) as [D|[D|D]].
    + destruct (Px i Hi D) as [_ H]. rewrite Ei in H. apply H. reflexivity.
    + elim (Dn D).
    + assert (full (ra_cells r) x = true) as H; [|rewrite H in Fx; discriminate Fx].
      eapply (path_use _ _ i x p); [exact Rt|exact Hi|exact Hx|rewrite Ei; reflexivity|exact Fi|reflexivity|exact D].
Qed.

Lemma regions_delete_wp g s m i p sz gd (Q : unit -> rastate -> Prop) E : ra_ok g (rs_ra s) m ->
  0 <= i < ra_total (rs_ra s) -> p <> 0 -> ra_cells (rs_ra s) i = mkRegion p sz gd ->
  (forall r', ra_ok g r' (rupd m p None) -> ra_same (rs_ra s) r' -> ra_leftover r' = ra_leftover (rs_ra s) -> Q tt (mkRas (rs_os s) r')) ->
  wp (regions_delete i) s Q E.
Proof.
  intros R Hi Hp Ei HQ. unfold regions_delete. apply wp_bind, wp_gets. set (r := rs_ra s) in *. cbv zeta.
  pose proof (total_bounds _ _ _ R) as TB. change (2 ^ 30) with 1073741824 in TB.
  pose proof (pow2N_of _ _ _ R) as P.
  rewrite (w64_small (ra_total r - 1)) by (change (2 ^ 64) with 18446744073709551616; lia).
  pose proof R as [Rp Rm Rt Rout Rfree Rload Roth Rmap Rnull].
  pose proof (cnt_bounds (ra_total r) (ra_cells r) ltac:(lia)) as CB.
  assert (full (ra_cells r) i = true) as Fi by (unfold full; rewrite Ei; cbn; lia).
  destruct (delete_tab (ra_total r) (ra_cells r) i P Rt Hi Fi ltac:(lia)) as (t & -> & Tt & Ct & Ot & Ht).
  apply wp_modify. cbn [rs_ra rs_os set_rs_ra]. fold r.
  rewrite w64_small by (change (2 ^ 64) with 18446744073709551616; lia).
  destruct (set_cells_ok g r m t (ra_free r + 1) (rupd m p None) R Tt) as (K1 & K2 & K3 & K4).
  - intros y Hy. rewrite Ot by auto. auto.
  - lia.
  - lia.
  - intros q sz' gd' Hq. rewrite Ht by (cbn; auto). rewrite Ei. unfold rupd. destruct (Z.eqb_spec q p) as [->|Nqp].
    + split; [discriminate|]. intros [H Hn]. exfalso.
      assert (m p = Some (sz, gd)) as M1 by (apply Rmap; [auto|]; exists i; auto).
      apply Rmap in H; auto. congruence.
    + rewrite Rmap by auto. split; [|tauto]. intros H. split; [auto|]. intros X. injection X. congruence.
  - unfold rupd. replace (0 =? p) with false by lia. auto.
  - apply HQ; auto.
Qed.

Lemma regions_set_size_wp g s m i p sz gd sz' (Q : unit -> rastate -> Prop) E : ra_ok g (rs_ra s) m ->
  0 <= i < ra_total (rs_ra s) -> p <> 0 -> ra_cells (rs_ra s) i = mkRegion p sz gd ->
  (forall r', ra_ok g r' (rupd m p (Some (sz', gd))) -> ra_same (rs_ra s) r' -> ra_leftover r' = ra_leftover (rs_ra s) -> Q tt (mkRas (rs_os s) r')) ->
  wp (regions_set_size i sz') s Q E.
Proof.
  intros R Hi Hp Ei HQ. unfold regions_set_size. apply wp_modify. cbn [rs_ra rs_os set_rs_ra]. set (r := rs_ra s) in *.
  pose proof R as [Rp Rm Rt Rout Rfree Rload Roth Rmap Rnull]. rewrite Ei. cbn [rg_p rg_guard].
  set (t := fupd (ra_cells r) i (mkRegion p sz' gd)).
  assert (forall y, rg_p (t y) = rg_p (ra_cells r y)) as Ep.
  { intros y. unfold t, fupd. destruct (Z.eqb_spec y i) as [->|]; [rewrite Ei; reflexivity|reflexivity]. }
  assert (forall y, full t y = full (ra_cells r) y) as Ef by (intros; unfold full; now rewrite Ep).
  destruct (set_cells_ok g r m t (ra_free r) (rupd m p (Some (sz', gd))) R) as (K1 & K2 & K3 & K4).
  - destruct Rt as [Tp Ti]. constructor.
    + intros a b Ha Hb. rewrite !Ef, Ep. now apply Tp.
    + intros a b Ha Hb. rewrite !Ef, !Ep. now apply Ti.
  - intros y Hy. rewrite Ep. auto.
  - rewrite Rfree. f_equal. unfold cnt. apply zcount_ext. intros x _. now rewrite Ef.
  - auto.
  - intros q a b Hq. unfold rupd. destruct (Z.eqb_spec q p) as [->|Nqp].
    + split.
      * intros X. injection X as <- <-. exists i. split; [auto|]. apply fupd_eq.
      * intros (j & Hj & Ej). assert (j = i) as ->.
        { eapply (t_inj _ _ Rt); eauto; [rewrite <- Ef; unfold full; rewrite Ej; cbn; lia|]. rewrite Ei, <- Ep, Ej. reflexivity. }
        unfold t in Ej. rewrite fupd_eq in Ej. congruence.
    + rewrite Rmap by auto. unfold has. split; intros (j & Hj & Ej); exists j; (split; [auto|]).
      * unfold t. rewrite fupd_ne; [auto|]. intros <-. congruence.
      * unfold t, fupd in Ej. destruct (Z.eqb_spec j i) as [->|]; [|auto]. injection Ej. congruence.
  - unfold rupd. replace (0 =? p) with false by lia. auto.
  - assert (set_ra_free (ra_free r) (set_ra_cells t r) = set_ra_cells t r) as Es by reflexivity. rewrite Es in *. apply HQ; auto.
Qed.
