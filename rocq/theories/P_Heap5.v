(** Large allocation and deallocation against the global invariant. *)
From Coq Require Import String ZArith List Bool Lia ZifyBool Permutation.
From Verif Require Import M_Base M_Config M_SizeClass M_Libdivide M_OS M_Random M_Slab M_Region M_Api
  P_Base P_Count P_SizeClass P_Libdivide P_Random P_Bitmap P_Bitmap2 P_OS P_Links P_Slab1 P_Slab2 P_Slab3 P_Slab4 P_Region P_Region2 P_Heap1 P_Heap2 P_Heap3 P_Heap4.
Import ListNotations.
Open Scope Z_scope.
Ltac Zify.zify_post_hook ::= idtac.

(** pages of the program's blocks: the slab region and the live large blocks *)
Definition user (g : config) (s : state) (LL : regs) (q : Z) : Prop :=
  slab_span g s q = true \/ exists r, In r (rl_own LL) /\ region_span r q = true.
Lemma user_mapped g s LL X q : ginv g s LL X -> user g s LL q -> pages (st_os s) q <> None.
Proof.
  intros I [H|(r & Hr & H)].
  - apply (gi_map _ _ _ _ I (slab_span g s)); auto. apply spans_in_fixed. cbn. auto.
  - apply (gi_map _ _ _ _ I (region_span r)); auto. apply spans_in_region. auto.
Qed.
Lemma user_away g s LL X f q : ginv g s LL X -> In f (meta_span g s :: qspans (st_ra s) ++ map fl_in X) -> f q = true -> ~ user g s LL q.
Proof.
  intros I Hf Hq Hu. pose proof (gi_apart _ _ _ _ I q) as AP. unfold spans in AP. rewrite !cover_app in AP. cbn [fixed cover] in AP.
  assert (1 <= hit (meta_span g s) q + (cover (qspans (st_ra s)) q + cover (map fl_in X) q)) as H1.
  { pose proof (cover_In _ f q Hf Hq) as C. cbn [cover] in C. rewrite cover_app in C. lia. }
  assert (1 <= hit (slab_span g s) q + cover (map region_span (rl_own LL)) q) as H2.
  { destruct Hu as [H|(r & Hr & H)]; [unfold hit; rewrite H; pose proof (cover_nonneg (map region_span (rl_own LL)) q); lia|].
    pose proof (cover_In (map region_span (rl_own LL)) (region_span r) q ltac:(apply in_map; auto) H). pose proof (hit_range (slab_span g s) q). lia. }
  rewrite ?cover_app in *. lia.
Qed.
Lemma user_new g s LL X o' : ginv g s LL X -> new_pages (st_os s) o' -> os_chg (fun q => ~ user g s LL q) (st_os s) o'.
Proof. intros I N. eapply os_chg_mono; [|exact N]. intros q Hq Hu. exact (user_mapped _ _ _ _ _ I Hu Hq). Qed.

(** ** rounding of large sizes, all sizes *)
Lemma large_any g n : 0 <= n < 2 ^ 64 ->
  let r := get_large_size_class g n in 0 <= r < 2 ^ 64 /\ (r <> 0 -> n <= r) /\ (16384 < r -> r mod 4096 = 0).
Proof.
  intros Hn r. destruct (Z_le_gt_dec n 16384) as [L|L].
  2:{ destruct (large_class_all g n ltac:(lia)) as (_ & A & B & C). fold r in A, B, C. split; [auto|]. split; [intros NZ; apply C; auto|auto]. }
  unfold r, get_large_size_class. destruct (LARGE_SIZE_CLASSES g).
  - assert (forall m, 4096 <= m <= 16384 -> m <= si_size (get_size_info m) <= 16384) as T.
    { intros m Hm.
      assert (forallb (fun x => let v := si_size (get_size_info (4096 + x)) in (4096 + x <=? v) && (v <=? 16384)) (zrange 0 12289) = true) as F by (vm_compute; reflexivity).
      rewrite forallb_forall in F. specialize (F (m - 4096)). replace (4096 + (m - 4096)) with m in F by lia.
      assert (In (m - 4096) (zrange 0 12289)) as Hi.
      { apply in_zrange. lia. }
      specialize (F Hi). cbv zeta in F. lia. }
    unfold PAGE_SIZE. specialize (T (Z.max n 4096) ltac:(lia)). change (2 ^ 64) with 18446744073709551616. lia.
  - destruct (page_align_facts n) as [P1 P2]; [change (2 ^ 40) with 1099511627776; lia|]. change (2 ^ 64) with 18446744073709551616. split; [lia|]. split; [lia|auto].
Qed.

Section S.
Context (g : config) (s : state).
Local Notation GI rs LL X := (ginv g (ra_put rs s) LL X).
Local Notation US LL := (user g s LL).
Lemma user_put rs LL q : user g (ra_put rs s) LL q <-> US LL q. Proof. reflexivity. Qed.

Definition guard_ok (g : config) (size gd : Z) : Prop :=
  4096 <= gd < 2 ^ 64 /\ gd mod 4096 = 0 /\ gd <= 4096 * Z.max 1 (size / 4096 / GUARD_SIZE_DIVISOR g).
Lemma guard_wp rs LL X size : GI rs LL X -> 0 <= size < 2 ^ 64 ->
  wp (get_guard_size g size) rs (fun gd rs' => guard_ok g size gd /\ GI rs' LL X /\ os_rel (rs_os rs) (rs_os rs') /\ rs_ra rs' = set_ra_rng (ra_rng (rs_ra rs')) (rs_ra rs)) rng_fault.
Proof.
  intros I Hs. pose proof (ucfg_of g (gi_u _ _ _ _ I)) as UC. unfold get_guard_size. apply wp_bind, wp_zoom.
  assert (1 <= GUARD_SIZE_DIVISOR g) as Gd by apply UC.
  change (2 ^ 64) with 18446744073709551616 in *. unfold PAGE_SIZE.
  assert (0 <= size / 4096 / GUARD_SIZE_DIVISOR g < 4503599627370496) as B.
  { assert (0 <= size / 4096 < 4503599627370496) as B0 by (split; [apply Z.div_pos; lia|apply Z.div_lt_upper_bound; lia]).
    split; [apply Z.div_pos; lia|]. eapply Z.le_lt_trans; [apply Z.div_le_upper_bound with (q := size / 4096)|]; nia. }
  eapply wp_mono; [apply u64_uniform_ok|intros v t (V1 & V2 & V3 & V4)|auto].
  - apply (gi_rq _ _ _ _ I).
  - change (2 ^ 64) with 18446744073709551616. lia.
  - apply wp_ret. rewrite w64_small by (change (2 ^ 64) with 18446744073709551616; lia). unfold guard_ok. change (2 ^ 64) with 18446744073709551616.
    split; [|split; [|split; [exact V4|reflexivity]]].
    + split; [lia|]. split; [apply Z.mod_mul; lia|]. lia.
    + eapply gi_ra_misc with (rs := mkRas (r_os t) (rs_ra rs)); [apply gi_os_rel; [exact I|exact V4]|..]; auto.
Qed.

Definition large_fault (f : fault) : Prop := sys_fault f \/ rng_fault f.
Definition sized (LL : regs) : Prop := forall r, In r (rl_own LL) -> 16384 < rg_size r -> rg_size r mod 4096 = 0.
Definition table_full (ra : ralloc) : Prop := MAX_REGION_TABLE_SIZE g < 2 * ra_total ra.
(** result of an attempt to create a large block of [size] bytes *)
Definition large_none (LL : regs) X (rs rs' : rastate) : Prop := GI rs' LL X /\ ra_leftover (rs_ra rs') = false /\ (errno (rs_os rs') = ENOMEM \/ table_full (rs_ra rs)).
Definition large_some (LL : regs) X (rs rs' : rastate) (p size : Z) : Prop :=
  exists gd, guard_ok g size gd /\ GI rs' (push (mkRegion p size gd) LL) X /\ (forall x, region_span (mkRegion p size gd) (page_of x) = true -> mem (rs_os rs') x = 0) /\
    ~ In p (map rg_p (rl_own LL)) /\ 0 < size /\ (forall q, region_span (mkRegion p size gd) q = true -> ~ US LL q).

(** the common tail: pages in hand, insert or give them back *)
Lemma publish_wp (st : bool) rs0 rs LL X p size gd : GI rs LL (rflight (mkRegion p size gd) :: X) -> rl_open LL = [] -> ra_leftover (rs_ra rs) = false ->
  reg_ok (rs_os rs) (mkRegion p size gd) -> guard_ok g size gd ->
  (forall x, region_span (mkRegion p size gd) (page_of x) = true -> mem (rs_os rs) x = 0) ->
  os_chg (fun q => ~ US LL q) (rs_os rs0) (rs_os rs) -> ra_total (rs_ra rs) = ra_total (rs_ra rs0) ->
  wp (run (do! failed := act (insert_section g st p size gd) in
           if failed : bool then ra_psys (deallocate_pages p size gd) ;;; Ret None else Ret (Some p))) rs
    (fun r rs' => os_chg (fun q => ~ US LL q) (rs_os rs0) (rs_os rs') /\
       match r with None => large_none LL X rs0 rs' | Some p' => p' = p /\ large_some LL X rs0 rs' p size end) large_fault.
Proof.
  intros I O L K Gd Z0 C0 Et. set (r := mkRegion p size gd) in *.
  assert (forall q, region_span r q = true -> ~ US LL q) as AW.
  { intros q Hq. apply (user_away _ _ _ _ (fl_in (rflight r)) q I); [|exact Hq]. right. apply in_or_app. right. left. reflexivity. }
  assert (forall q, table_pages g (rs_ra rs) q -> ~ US LL q) as AT.
  { intros q Hq. apply (user_away _ _ _ _ (meta_span g (ra_put rs s)) q I); [left; reflexivity|]. apply table_in_meta; [apply I|apply I|exact Hq]. }
  pose proof (flight_absent _ _ _ _ _ _ I K ltac:(rewrite O; intros [])) as AB.
  apply wp_run_pbind, wp_run_act. eapply wp_mono; [apply (insert_section_wp g s rs LL X st r I L K AB)| |left; auto].
  intros [] rs1 (OI & H).
  - destruct H as (I1 & Er & L1). apply wp_run_pbind, wp_psys.
    destruct K as [rk_p rk_g rk_s rk_lo rk_hi rk_rw rk_no]. cbn [r rg_p rg_size rg_guard] in *. change (2 ^ 47) with 140737488355328 in *.
    eapply wp_mono; [apply (deallocate_pages_wp g (ra_put rs1 s) (rs_os rs1) LL X (rflight r))| |left; auto]; try (change (2 ^ 48) with 281474976710656; lia).
    + exact I1.
    + auto.
    + intros _ o2 (I2 & C2 & E2 & _). apply wp_run_ret. split; [|split; [exact I2|split; [exact L1|]]].
      * eapply os_chg_trans; [exact C0|]. eapply os_chg_trans; [eapply os_chg_mono; [|apply os_in_chg, OI]; exact AT|]. eapply os_chg_mono; [|exact C2]. exact AW.
      * cbn [rs_os]. destruct E2 as [->| ->]; [|auto]. destruct Er as [->|[_ Er]]; [auto|]. right. unfold table_full. rewrite <- Et. exact Er.
  - destruct H as (I1 & Er). apply wp_run_ret. split; [|split; [reflexivity|]].
    + eapply os_chg_trans; [exact C0|]. eapply os_chg_mono; [|apply os_in_chg, OI]. exact AT.
    + exists gd. fold r. split; [exact Gd|]. split; [exact I1|]. split; [|split; [|split; [apply K|exact AW]]].
      * intros x Hx. rewrite (oi_mem _ _ _ OI); [apply Z0; auto|]. intros T.
        assert (In (fl_in (rflight r)) (map region_span (rl_own LL) ++ qspans (st_ra (ra_put rs s)) ++ map fl_in (rflight r :: X))) as Hin.
        { rewrite !in_app_iff. right. right. left. reflexivity. }
        destruct (fixed_rest _ _ _ _ _ _ I Hin Hx) as [F _]. rewrite (table_in_meta g (ra_put rs s)) in F; [discriminate|apply I|apply I|exact T].
      * intros Hp. apply AB. unfold rl_all. rewrite map_app. apply in_or_app. left. exact Hp.
Qed.

Lemma allocate_large_wp rs LL X n : GI rs LL X -> rl_open LL = [] -> ra_leftover (rs_ra rs) = false -> 0 <= n < 2 ^ 64 ->
  wp (run (allocate_large g n)) rs (fun r rs' => os_chg (fun q => ~ US LL q) (rs_os rs) (rs_os rs') /\
    match r with None => large_none LL X rs rs' | Some p => get_large_size_class g n <> 0 /\ p mod 4096 = 0 /\ large_some LL X rs rs' p (get_large_size_class g n) end) large_fault.
Proof.
  intros I O L Hn. destruct (large_any g n Hn) as (B1 & _ & _). unfold allocate_large. set (size := get_large_size_class g n) in *.
  destruct (Z.eqb_spec size 0) as [Z0|Z0].
  { apply wp_run_pbind, wp_run_act, wp_zoom, wp_modify, wp_run_ret. split; [apply os_chg_errno|]. split; [|split; [exact L|left; reflexivity]].
    change (ra_put (set_rs_os (set_errno ENOMEM (rs_os rs)) rs) s) with (set_st_os (set_errno ENOMEM (rs_os rs)) (ra_put rs s)). apply gi_errno. exact I. }
  apply wp_run_pbind, wp_run_act. eapply wp_mono; [apply (guard_wp rs LL X size I B1)| |right; auto]. intros gd rs1 (Gd & I1 & R1 & Era).
  pose proof Gd as (G1 & G2 & G3).
  apply wp_run_pbind, wp_psys. eapply wp_mono; [apply (allocate_pages_wp g (ra_put rs1 s) (rs_os rs1) LL X size gd); auto; lia| |left; auto].
  assert (os_chg (fun q => ~ US LL q) (rs_os rs) (rs_os rs1)) as C1. { apply os_in_chg, os_in_rel, R1. }
  intros [p|] o2 (NP & H).
  - destruct H as (I2 & K & Zr & Er & _).
    assert (os_chg (fun q => ~ US LL q) (rs_os rs1) o2) as C2 by (apply (user_new _ _ _ _ _ I1 NP)).
    eapply wp_mono; [apply (publish_wp true rs (mkRas o2 (rs_ra rs1)) LL X p size gd); auto| |auto].
    + cbn [rs_ra]. rewrite Era. exact L.
    + eapply os_chg_trans; eassumption.
    + cbn [rs_ra]. rewrite Era. reflexivity.
    + intros [p'|] rs' (C' & H'); split; auto. destruct H' as (-> & H'). split; [auto|]. split; [|exact H'].
      apply K.
  - destruct H as (I2 & Er). apply wp_run_ret. split; [eapply os_chg_trans; [exact C1|apply (user_new _ _ _ _ _ I1 NP)]|].
    split; [exact I2|]. split; [cbn [rs_ra]; rewrite Era; exact L|]. left. exact Er.
Qed.

Lemma allocate_large_aligned_wp rs LL X k n : GI rs LL X -> rl_open LL = [] -> ra_leftover (rs_ra rs) = false -> 0 <= n < 2 ^ 64 -> 12 < k < 64 ->
  wp (run (allocate_large_aligned g (2 ^ k) n)) rs (fun r rs' => os_chg (fun q => ~ US LL q) (rs_os rs) (rs_os rs') /\
    match r with inl e => e = ENOMEM /\ GI rs' LL X /\ ra_leftover (rs_ra rs') = false
               | inr p => get_large_size_class g n <> 0 /\ p mod 2 ^ k = 0 /\ large_some LL X rs rs' p (get_large_size_class g n) end) large_fault.
Proof.
  intros I O L Hn Hk. destruct (large_any g n Hn) as (B1 & _ & _). unfold allocate_large_aligned. set (size := get_large_size_class g n) in *.
  destruct (Z.eqb_spec size 0) as [Z0|Z0].
  { apply wp_run_ret. split; [apply os_chg_refl|]. auto. }
  apply wp_run_pbind, wp_run_act. eapply wp_mono; [apply (guard_wp rs LL X size I B1)| |right; auto]. intros gd rs1 (Gd & I1 & R1 & Era).
  pose proof Gd as (G1 & G2 & G3).
  apply wp_run_pbind, wp_psys. eapply wp_mono; [apply (allocate_pages_aligned_wp g (ra_put rs1 s) (rs_os rs1) LL X size k gd); auto; lia| |left; auto].
  assert (os_chg (fun q => ~ US LL q) (rs_os rs) (rs_os rs1)) as C1. { apply os_in_chg, os_in_rel, R1. }
  intros [p|] o2 (NP & H).
  - destruct H as (I2 & K & Zr & Er & Ml & _).
    assert (os_chg (fun q => ~ US LL q) (rs_os rs1) o2) as C2 by (apply (user_new _ _ _ _ _ I1 NP)).
    assert (wp (run (do! failed := act (insert_section g false p size gd) in
           if failed : bool then ra_psys (deallocate_pages p size gd) ;;; Ret None else Ret (Some p))) (mkRas o2 (rs_ra rs1))
    (fun r rs' => os_chg (fun q => ~ US LL q) (rs_os rs) (rs_os rs') /\
       match r with None => large_none LL X rs rs' | Some p' => p' = p /\ large_some LL X rs rs' p size end) large_fault) as W.
    { apply (publish_wp false rs (mkRas o2 (rs_ra rs1)) LL X p size gd); auto.
      + cbn [rs_ra]. rewrite Era. exact L.
      + eapply os_chg_trans; eassumption.
      + cbn [rs_ra]. rewrite Era. reflexivity. }
    revert W. unfold wp. rewrite !run_pbind. unfold bind. destruct (run (act _) _) as [[[] rs2]|f]; [|auto|auto].
    + rewrite !run_pbind. unfold bind. destruct (run (ra_psys _) rs2) as [[[] rs3]|f]; [|auto]. cbn. intros (A & B & D & _). auto.
    + cbn. intros (A & _ & B). auto.
  - destruct H as (I2 & Er). apply wp_run_ret. split; [eapply os_chg_trans; [exact C1|apply (user_new _ _ _ _ _ I1 NP)]|].
    split; [auto|]. split; [exact I2|]. cbn [rs_ra]; rewrite Era; exact L.
Qed.

Definition dlarge_fault (LL : regs) (p : Z) (expected : option Z) (f : fault) : Prop :=
 (sys_fault f /\ In p (map rg_p (rl_own LL))) \/ (rng_fault f /\ In p (map rg_p (rl_own LL))) \/ (f = Fatal "invalid free" /\ ~ In p (map rg_p (rl_own LL))) \/
  (f = Fatal "sized deallocation mismatch (large)" /\ exists e sz gd, expected = Some e /\ In (mkRegion p sz gd) (rl_own LL) /\ sz <> get_large_size_class g e).
Lemma region_len o r : reg_ok o r -> rg_p r < 2 ^ 47 /\ 0 < rg_size r < 2 ^ 47 /\ 0 <= rg_guard r < 2 ^ 47.
Proof. intros []. change (2 ^ 47) with 140737488355328 in *. lia. Qed.
Lemma deallocate_large_wp rs LL X p expected : GI rs LL X -> rl_open LL = [] ->
  wp (run (deallocate_large g p expected)) rs (fun _ rs' => exists sz gd, In (mkRegion p sz gd) (rl_own LL) /\ GI rs' (drop p LL) X /\
      os_chg (fun q => ~ US (drop p LL) q) (rs_os rs) (rs_os rs') /\ ra_leftover (rs_ra rs') = ra_leftover (rs_ra rs) /\
      (forall e, expected = Some e -> sz = get_large_size_class g e)) (dlarge_fault LL p expected).
Proof.
  intros I O. unfold deallocate_large. apply wp_run_pbind, wp_run_act.
  eapply wp_mono; [apply (remove_section_wp g s rs LL X p expected I ltac:(rewrite O; intros []))| |unfold dlarge_fault; intros f [H|H]; auto].
  intros [sz gd] rs1 (r & -> & Hr & I1 & E1 & L1 & Ex & Q1 & Q2 & Q3). cbn [fst snd] in *. set (r := mkRegion p sz gd) in *.
  pose proof (gi_reg _ _ _ _ I r Hr) as K. destruct (region_len _ _ K) as (N1 & N2 & N3). pose proof K as [rk_p rk_g rk_s rk_lo rk_hi rk_rw rk_no].
  cbn [r rg_p rg_size rg_guard] in *.
  eapply wp_mono; [apply (quarantine_deallocate_wp g s rs1 (drop p LL) X (rflight r) p sz gd)| |]; auto.
  1:{ change (2 ^ 47) with 140737488355328 in *. lia. }
  1:{ cbn [rflight fl_prot r rg_p rg_size]. intros q _ ->. reflexivity. }
  2:{ assert (In p (map rg_p (rl_own LL))) as Hp by (apply in_map_iff; exists r; auto). unfold dlarge_fault. intros f [H|H]; auto. }
  intros _ rs2 (I2 & C2 & L2). exists sz, gd. split; [exact Hr|]. split; [exact I2|]. rewrite E1 in C2. split; [|split; [rewrite L2; auto|exact Ex]].
  eapply os_chg_mono; [|exact C2]. intros q [Hq|(e & He & NZ & Hq)].
  - apply (user_away _ _ _ _ (fl_in (rflight r)) q I1); [|exact Hq]. right. apply in_or_app. right. left. reflexivity.
  - apply (user_away _ _ _ _ (in_pages (fst e) (snd e)) q I1); [|exact Hq]. right. apply in_or_app. left. unfold qspans.
    apply in_map_iff. exists e. split; [auto|]. apply filter_In. cbn [ra_put set_st_ra st_ra]. split; [apply in_app_iff; auto|]. lia.
Qed.
End S.
