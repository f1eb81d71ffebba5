(** Lemmas for C21: how much address space a new large block takes. *)
From Coq Require Import String ZArith List Bool Lia ZifyBool.
From Verif Require Import M_Base M_Config M_SizeClass M_Libdivide M_OS M_Random M_Slab M_Region M_Api M_Hist S_SizeClass S_Slab S_Heap S_Class S_Arena S_Guard
  P_Base P_Count P_SizeClass P_SizeClass2 P_Libdivide P_Random P_Bitmap P_Bitmap2 P_OS P_Links P_Slab1 P_Slab2 P_Slab3 P_Slab4 P_Slab5 P_Slab6 P_Slab7 P_Slab8 P_Slab9 P_Slab11 P_Path P_Quar
  P_Region P_Region2 P_Heap1 P_Heap2 P_Heap3 P_Heap4 P_Heap5 P_Heap6 P_Heap7 P_Heap8 P_Heap9 P_Heap10 P_Heap11 P_Init P_Api0 P_Api1 P_Api2 P_Api3 P_Api4 P_Api5 P_Api6 P_Api7 P_Api8 P_Api9 P_Api10 P_Conc0 P_Arena.
Import ListNotations.
Open Scope Z_scope.
Ltac Zify.zify_post_hook ::= idtac.

Definition takes (r : region) (o o' : os) : Prop :=
  (forall q, region_span r q = true -> pages o q = None) /\ (forall q, pages o' q <> None <-> pages o q <> None \/ region_span r q = true).
Section L.
Context (g : config) (s : state).
Local Notation GI rs LL X := (ginv g (ra_put rs s) LL X).
Definition made LL X rs rs' p size : Prop := exists gd, guard_ok g size gd /\ GI rs' (push (mkRegion p size gd) LL) X /\ takes (mkRegion p size gd) (rs_os rs) (rs_os rs').
Lemma publish_takes st rs0 rs LL X p size gd : GI rs LL (rflight (mkRegion p size gd) :: X) -> rl_open LL = [] -> ra_leftover (rs_ra rs) = false ->
  reg_ok (rs_os rs) (mkRegion p size gd) -> guard_ok g size gd -> takes (mkRegion p size gd) (rs_os rs0) (rs_os rs) ->
  wp (run (do! failed := act (insert_section g st p size gd) in
           if failed : bool then ra_psys (deallocate_pages p size gd) ;;; Ret None else Ret (Some p))) rs
    (fun r rs' => forall p', r = Some p' -> p' = p /\ made LL X rs0 rs' p size) anyf.
Proof.
  intros I O L K Gd [T1 T2]. set (r := mkRegion p size gd) in *.
  pose proof (flight_absent _ _ _ _ _ _ I K ltac:(rewrite O; intros [])) as AB.
  apply wp_run_pbind, wp_run_act. eapply wp_mono; [apply (insert_section_wp g s rs LL X st r I L K AB)| |intros; exact Logic.I].
  intros [] rs1 (OI & H).
  - apply wp_run_pbind, wp_any. intros a rs2. apply wp_run_ret. intros p' [=].
  - destruct H as (I1 & _). apply wp_run_ret. intros p' [= <-]. split; [reflexivity|]. exists gd. split; [exact Gd|]. split; [exact I1|]. split; [exact T1|].
    intros q. fold r. rewrite <- T2. split; [|apply (oi_mapped _ _ _ OI)].
    intros Hq. assert (~ table_pages g (rs_ra rs) q -> pages (rs_os rs) q <> None) as N by (intros N; rewrite <- (oi_pages _ _ _ OI q N); exact Hq).
    assert (table_pages g (rs_ra rs) q -> pages (rs_os rs) q <> None) as Y.
    { intros Tq. apply (gi_map _ _ _ _ I (meta_span g (ra_put rs s)) q); [left; reflexivity|]. apply table_in_meta; [apply I|apply I|exact Tq]. }
    unfold table_pages in *.
    destruct (in_pages (ra_addr (rs_ra rs) false) (regions_bytes g) q) eqn:E1; [apply Y; auto|]. destruct (in_pages (ra_addr (rs_ra rs) true) (regions_bytes g) q) eqn:E2; [apply Y; auto|].
    apply N. intros [H|H]; congruence.
Qed.
Lemma fresh_takes LL X rs rs1 o2 p size gd : os_rel (rs_os rs) (rs_os rs1) -> new_pages (rs_os rs1) o2 -> ginv g (set_st_os o2 (ra_put rs1 s)) LL (rflight (mkRegion p size gd) :: X) ->
  (forall q, region_span (mkRegion p size gd) q = true -> pages (rs_os rs1) q = None) ->
  (forall q, pages o2 q <> None -> pages (rs_os rs1) q <> None \/ region_span (mkRegion p size gd) q = true) -> takes (mkRegion p size gd) (rs_os rs) o2.
Proof.
  intros R1 NP I2 F M. rewrite (or_pages _ _ R1) in F, M. split; [exact F|]. intros q. split; [apply M|]. intros [H|H].
  - rewrite (oc_pages _ _ _ NP q); rewrite (or_pages _ _ R1); exact H.
  - apply (gi_map _ _ _ _ I2 (region_span (mkRegion p size gd)) q); [|exact H]. unfold spans; rewrite !in_app_iff. right. right. right. left. reflexivity.
Qed.
Lemma large_takes rs LL X n : GI rs LL X -> rl_open LL = [] -> ra_leftover (rs_ra rs) = false -> 0 <= n < 2 ^ 64 ->
  wp (run (allocate_large g n)) rs (fun r rs' => forall p, r = Some p -> made LL X rs rs' p (get_large_size_class g n)) anyf.
Proof.
  intros I O L Hn. destruct (large_any g n Hn) as (B1 & _ & _). unfold allocate_large. set (size := get_large_size_class g n) in *.
  destruct (Z.eqb_spec size 0) as [Z0|Z0]. { apply wp_run_pbind, wp_any. intros a rs'. apply wp_run_ret. intros p [=]. }
  apply wp_run_pbind, wp_run_act. eapply wp_mono; [apply (guard_wp g s rs LL X size I B1)| |intros; exact Logic.I]. intros gd rs1 (Gd & I1 & R1 & Era).
  pose proof Gd as (G1 & G2 & G3).
  apply wp_run_pbind, wp_psys. eapply wp_mono; [apply (allocate_pages_wp g (ra_put rs1 s) (rs_os rs1) LL X size gd); auto; lia| |intros; exact Logic.I].
  intros [p|] o2 (NP & H); [|apply wp_run_ret; intros p [=]].
  destruct H as (I2 & K & _ & _ & F & M).
  eapply wp_mono; [apply (publish_takes true rs (mkRas o2 (rs_ra rs1)) LL X p size gd); auto| |auto].
  - cbn [rs_ra]. rewrite Era. exact L.
  - apply (fresh_takes LL X rs rs1 o2 p size gd); auto.
  - intros r rs' H p' ->. destruct (H p' eq_refl) as (-> & H'). exact H'.
Qed.
Lemma aligned_takes rs LL X k n : GI rs LL X -> rl_open LL = [] -> ra_leftover (rs_ra rs) = false -> 0 <= n < 2 ^ 64 -> 12 < k < 64 ->
  wp (run (allocate_large_aligned g (2 ^ k) n)) rs (fun r rs' => forall p, r = inr p -> made LL X rs rs' p (get_large_size_class g n)) anyf.
Proof.
  intros I O L Hn Hk. destruct (large_any g n Hn) as (B1 & _ & _). unfold allocate_large_aligned. set (size := get_large_size_class g n) in *.
  destruct (Z.eqb_spec size 0) as [Z0|Z0]; [apply wp_run_ret; intros p [=]|].
  apply wp_run_pbind, wp_run_act. eapply wp_mono; [apply (guard_wp g s rs LL X size I B1)| |intros; exact Logic.I]. intros gd rs1 (Gd & I1 & R1 & Era).
  pose proof Gd as (G1 & G2 & G3).
  apply wp_run_pbind, wp_psys. eapply wp_mono; [apply (allocate_pages_aligned_wp g (ra_put rs1 s) (rs_os rs1) LL X size k gd); auto; lia| |intros; exact Logic.I].
  intros [p|] o2 (NP & H); [|apply wp_run_ret; intros p [=]].
  destruct H as (I2 & K & _ & _ & _ & F & M).
  assert (wp (run (do! failed := act (insert_section g false p size gd) in
           if failed : bool then ra_psys (deallocate_pages p size gd) ;;; Ret None else Ret (Some p))) (mkRas o2 (rs_ra rs1))
    (fun r rs' => forall p', r = Some p' -> p' = p /\ made LL X rs rs' p size) anyf) as W.
  { apply (publish_takes false rs (mkRas o2 (rs_ra rs1)) LL X p size gd); auto.
    - cbn [rs_ra]. rewrite Era. exact L.
    - apply (fresh_takes LL X rs rs1 o2 p size gd); auto. }
  revert W. unfold wp. rewrite !run_pbind. unfold bind. destruct (run (act _) _) as [[[] rs2]|f]; [|auto|auto].
  + rewrite !run_pbind. unfold bind. destruct (run (ra_psys _) rs2) as [[[] rs3]|f]; [|auto]. cbn. intros _ p' [=].
  + cbn. intros H p' [= <-]. apply (H p). reflexivity.
Qed.
End L.

Section A.
Context (g : config).
Definition wide (s0 s' : state) (p : Z) : Prop :=
  in_slab_region p s' = true \/ exists LL size gd, hinv g s' LL /\ In (mkRegion p size gd) (rl_own LL) /\ guard_ok g size gd /\ takes (mkRegion p size gd) (st_os s0) (st_os s').
Lemma made_wide s rs' LL p size : hinv g s LL -> (size <> 0 -> 0 < size /\ (16384 < size -> size mod 4096 = 0)) -> size <> 0 -> made g s LL [] (ra_get s) rs' p size -> wide s (ra_put rs' s) p.
Proof.
  intros [I O S A C SC] Sz N0 (gd & Gd & I' & T). right. exists (push (mkRegion p size gd) LL), size, gd. split; [|split; [left; reflexivity|split; [exact Gd|exact T]]].
  constructor; auto. intros r [<-|Hr] H; [apply Sz; auto|apply S; auto].
Qed.
Lemma made_pos s LL X rs rs' p size : made g s LL X rs rs' p size -> 0 < size.
Proof. intros (gd & _ & I & _). pose proof (gi_reg _ _ _ _ I (mkRegion p size gd) ltac:(left; reflexivity)) as K. destruct K. cbn in *. lia. Qed.
Lemma allocate_wide arena s LL size : hinv g s LL -> ra_leftover (st_ra s) = false -> 0 <= arena < N_ARENA g -> 0 <= size < 2 ^ 64 ->
  wp (run (allocate g arena size)) s (fun r s' => forall p, r = Some p -> wide s s' p /\ (size <= max_slab_size_class g -> in_slab_region p s' = true)) anyf.
Proof.
  intros HI Le Ha Hs. unfold allocate. destruct (Z.leb_spec size (max_slab_size_class g)) as [Sm|Lg].
  - unfold allocate_small. apply wp_run_act. destruct (gsi_class_range g size ltac:(lia)) as (K1 & _ & K3).
    replace (negb (size =? 0)) with (negb (si_class (get_size_info size) =? 0)) by (f_equal; destruct (Z.eqb_spec size 0), (Z.eqb_spec (si_class (get_size_info size)) 0); tauto).
    set (k := si_class (get_size_info size)) in *.
    eapply wp_mono; [apply (alloc_class_wp g s LL (hi_inv _ _ _ HI) arena k); split; auto| |intros; exact I].
    intros r s' (I' & SP & Er & H) p ->. destruct H as (HS & (i & j & SB) & _).
    destruct (sblk_loc g s' LL [] I' _ _ _ _ _ SB) as [L _]. split; [left; exact L|auto].
  - apply wp_pra. eapply wp_mono; [apply (large_takes g s (ra_get s) LL [] size); auto; try apply HI|  |intros; exact I].
    + rewrite ra_put_get. apply HI.
    + intros r rs' H p ->. specialize (H p eq_refl). pose proof (made_pos _ _ _ _ _ _ _ H). destruct (large_any g size Hs) as (L1 & L2 & L3).
      split; [|lia]. apply (made_wide s rs' LL p _ HI) in H; auto; lia.
Qed.
Lemma init_wide tid s LL : hinv g s LL -> ra_leftover (st_ra s) = false ->
  wp (run (init g tid)) s (fun a s' => 0 <= a < N_ARENA g /\ hinv g s' LL /\ ra_leftover (st_ra s') = false /\ st_os s' = st_os s) anyf.
Proof.
  intros HI Le. eapply wp_mono; [apply (init_call_wp g tid s LL (or_introl HI))| |intros; exact I].
  intros a s' (Ha & IN). split; [exact Ha|]. split; [apply IN|]. split; [apply (in_left _ _ _ _ IN Le)|]. apply (in_same _ _ _ _ IN). eapply hinv_init; eauto.
Qed.
Lemma wide_os s0 s1 s' p : st_os s1 = st_os s0 -> wide s1 s' p -> wide s0 s' p.
Proof. intros E [H|H]; [left; exact H|right]. rewrite E in H. exact H. Qed.
Lemma alloc_wide tid s LL n : hinv g s LL -> ra_leftover (st_ra s) = false -> 0 <= n < 2 ^ 64 ->
  wp (run (alloc g tid n)) s (fun r s' => forall p, r = Some p -> wide s s' p /\ (n <= max_slab_size_class g -> in_slab_region p s' = true)) anyf.
Proof.
  intros R Le Hn. unfold alloc. apply wp_run_pbind. eapply wp_mono; [apply (init_wide tid s LL R Le)| |intros; exact I].
  intros a s1 (Ha & HI & L1 & E). eapply wp_mono; [apply (allocate_wide a s1 LL n HI L1 Ha Hn)| |intros; exact I].
  intros r s' H p Ep. destruct (H p Ep) as [H1 H2]. split; [|exact H2]. apply (wide_os s s1); auto.
Qed.
Definition wides (s : state) (r : option Z) (s' : state) : Prop := forall p, r = Some p -> wide s s' p.
Lemma malloc_wide tid s LL n : hinv g s LL -> ra_leftover (st_ra s) = false -> 0 <= n < 2 ^ 64 -> wp (run (h_malloc g tid n)) s (wides s) anyf.
Proof. intros R Le Hn. destruct (adjust_spec g n Hn) as (A1 & _). eapply wp_mono; [apply (alloc_wide tid s LL _ R Le A1)| |intros; exact I]. intros r s' H p E. apply H, E. Qed.
Lemma calloc_wide tid s LL m n : hinv g s LL -> ra_leftover (st_ra s) = false -> 0 <= m < 2 ^ 64 -> 0 <= n < 2 ^ 64 -> wp (run (h_calloc g tid m n)) s (wides s) anyf.
Proof.
  intros R Le Hm Hn. unfold h_calloc. destruct (Z.leb_spec (2 ^ 64) (m * n)) as [L|L].
  - apply wp_run_pbind. apply wp_any. intros a s'. apply wp_run_ret. intros p [=].
  - destruct (adjust_spec g (m * n) ltac:(nia)) as (A1 & _). apply wp_run_pbind. eapply wp_mono; [apply wp_and; [apply (alloc_wide tid s LL _ R Le A1)|apply (each_stays g); apply each_bind; [apply esy_init|intros a; unfold allocate, allocate_small; destruct (_ <=? _); [apply each_act, msy_class|apply each_zoom; intros; apply msy_ra]]]| |intros; exact I].
    intros [p|] s1 [G S1]; [|apply wp_run_ret; intros p [=]]. destruct (G p eq_refl) as [G1 G2]. apply wp_run_pbind.
    destruct (negb (ZERO_ON_FREE g) && negb _ && (_ <=? max_slab_size_class g)) eqn:Q.
    + assert (in_slab_region p s1 = true) as L1 by (apply G2; lia). pose proof (sited_init _ _ (sy_site _ _ _ S1) (hinv_init _ _ _ R)) as Hi.
      eapply wp_mono; [apply (each_stays g); apply each_act, msy_os| |intros; exact I].
      intros x s' S. apply wp_run_ret. intros q [= <-]. left. destruct (sy_site _ _ _ S Hi) as (E1 & E2 & _). unfold in_slab_region in *. rewrite E1, E2. exact L1.
    + apply wp_run_ret, wp_run_ret. intros q [= <-]. exact G1.
Qed.
Lemma aligned_wide tid s LL al n mn : hinv g s LL -> ra_leftover (st_ra s) = false -> 0 <= n < 2 ^ 64 -> 0 <= al < 2 ^ 64 -> 1 <= mn ->
  wp (run (alloc_aligned g tid al n mn)) s (fun r s' => forall p, r = inr p -> wide s s' p) anyf.
Proof.
  intros R Le Hn Hal Hmn. unfold alloc_aligned. destruct (adjust_spec g n Hn) as (A1 & A2 & A3). set (u := adjust_size_for_canary g n) in *.
  apply wp_run_pbind. eapply wp_mono; [apply (init_wide tid s LL R Le)| |intros; exact I]. intros a s1 (Ha & HI & L1 & E).
  unfold allocate_aligned. destruct (negb (Z.land (w64 (al - 1)) al =? 0) || (al <? mn)) eqn:Ck; [apply wp_run_ret; intros p [=]|].
  assert (pow2 al) as (k & Hk & Ek) by (apply pow2_check; lia). pose proof (max_slab_bounds g) as MB.
  destruct (Z.leb_spec al PAGE_SIZE) as [Pg|Pg].
  - assert (k <= 12) as Hk12. { apply (Z.pow_le_mono_r_iff 2); [lia|lia|]. rewrite <- Ek. exact Pg. }
    apply wp_run_pbind.
    assert (forall v, 0 <= v < 2 ^ 64 -> wp (run (do! p := allocate g a v in match p with None => Ret (inl ENOMEM) | Some p => Ret (inr p) end)) s1 (fun r s' => forall p, r = inr p -> wide s s' p) anyf) as W.
    { intros v Hv. apply wp_run_pbind. eapply wp_mono; [apply (allocate_wide a s1 LL v HI L1 Ha Hv)| |intros; exact I]. intros [p|] s2 G; apply wp_run_ret; intros q [=]. subst. apply (wide_os s s1); [exact E|]. apply G. reflexivity. }
    destruct ((u <=? max_slab_size_class g) && (min_align <? al)) eqn:Q.
    + destruct (gsia_spec g u k ltac:(lia) ltac:(lia)) as (info & E1 & E2 & E3 & E4 & E5 & E6 & _). rewrite Ek, E1. apply wp_run_ret. apply W. lia.
    + apply wp_run_ret. apply W. lia.
  - assert (12 < k) as Hk12. { apply (Z.pow_lt_mono_r_iff 2); [lia|lia|]. rewrite <- Ek. exact Pg. }
    apply wp_pra. rewrite Ek. eapply wp_mono; [apply (aligned_takes g s1 (ra_get s1) LL [] k u); auto; try apply HI; [rewrite ra_put_get; apply HI|lia]| |intros; exact I].
    intros r rs' H p ->. specialize (H p eq_refl). pose proof (made_pos _ _ _ _ _ _ _ H). destruct (large_any g u A1) as (B1 & B2 & B3).
    apply (wide_os s s1); [exact E|]. apply (made_wide s1 rs' LL p _ HI) in H; auto; lia.
Qed.
Lemma simple_wide tid s LL al n : hinv g s LL -> ra_leftover (st_ra s) = false -> 0 <= n < 2 ^ 64 -> 0 <= al < 2 ^ 64 ->
  wp (run (alloc_aligned_simple g tid al n)) s (wides s) anyf.
Proof.
  intros R Le Hn Hal. unfold alloc_aligned_simple. apply wp_run_pbind. eapply wp_mono; [apply (aligned_wide tid s LL al n 1 R Le Hn Hal ltac:(lia))| |intros; exact I].
  intros [e|p] s1 G; [|apply wp_run_ret; intros q [= ->]; apply G; reflexivity]. apply wp_run_pbind, wp_any. intros a s'. apply wp_run_ret. intros q [=].
Qed.
Lemma op_wide s LL tid c : hinv g s LL -> table_cleared s -> words c -> (releases c = None \/ releases c = Some 0) ->
  wp (run (op_run g tid c)) s (fun a s' => forall p, handed_out (mkEv tid c a) = Some p -> wide s s' p) anyf.
Proof.
  intros R TC WD PM. unfold handed_out. cbn [e_op e_ans].
  assert (forall (b : option Z) s', wides s b s' -> forall p, match ans_ptr b with APtr q => Some q | _ => None end = Some p -> wide s s' p) as K.
  { intros [b|] s' G p; cbn [ans_ptr]; [intros [= ->]; apply G; reflexivity|discriminate]. }
  destruct c; cbn [op_run words allocates] in *; unfold word in *; apply wp_pmap; try (apply wp_any; intros ? ? ? [=]; fail).
  - eapply wp_mono; [apply (malloc_wide tid s LL n R TC WD)| |intros; exact I]. exact K.
  - eapply wp_mono; [apply (calloc_wide tid s LL nmemb n R TC); apply WD| |intros; exact I]. exact K.
  - destruct WD as [WD1 WD2]. assert (p = 0) as -> by (cbn in PM; destruct PM as [[=]|[=]]; auto).
    change (h_realloc g tid 0 n) with (h_malloc g tid n). eapply wp_mono; [apply (malloc_wide tid s LL n R TC WD2)| |intros; exact I].
      intros [q|] s' G p; cbn [ans_ptr]; [|discriminate]. destruct (q =? 0); [discriminate|]. intros [= ->]. apply G. reflexivity.
  - destruct WD as [WD1 WD2]. eapply wp_mono; [apply (aligned_wide tid s LL al n 8 R TC WD2 WD1 ltac:(lia))| |intros; exact I].
    intros [e|q] s' G p; cbn [ans_code]; [discriminate|]. intros [= ->]. apply G. reflexivity.
  - destruct WD as [WD1 WD2]. eapply wp_mono; [apply (simple_wide tid s LL al n R TC WD2 WD1)| |intros; exact I]. exact K.
  - destruct WD as [WD1 WD2]. eapply wp_mono; [apply (simple_wide tid s LL al n R TC WD2 WD1)| |intros; exact I]. exact K.
  - eapply wp_mono; [apply (simple_wide tid s LL PAGE_SIZE n R TC WD); unfold PAGE_SIZE; lia| |intros; exact I]. exact K.
  - unfold h_pvalloc. destruct (Z.eqb_spec (page_align n) 0) as [E|E].
    + apply wp_run_pbind, wp_any. intros a s'. apply wp_run_ret. apply K. intros q [=].
    + eapply wp_mono; [apply (simple_wide tid s LL PAGE_SIZE (page_align n) R TC); [|unfold PAGE_SIZE; lia]| |intros; exact I]; [|exact K]. destruct (page_align_ge n WD E). lia.
Qed.

Lemma span_bytes p n gd x : p mod 4096 = 0 -> gd mod 4096 = 0 -> 0 < n -> 4096 <= gd -> region_span (mkRegion p n gd) (x / 4096) = true <-> p - gd <= x < page_up (p + n) + gd.
Proof.
  intros Pm Gm Hn Hg. unfold region_span. cbn [rg_p rg_size rg_guard]. rewrite P_OS.in_pages_spec. unfold page_up, page_of.
  pose proof (Z.div_mod (p + n + 4095) 4096 ltac:(lia)) as D1. pose proof (Z.mod_pos_bound (p + n + 4095) 4096 ltac:(lia)).
  pose proof (Z.div_mod gd 4096 ltac:(lia)) as D2. pose proof (Z.div_mod p 4096 ltac:(lia)) as D3. pose proof (Z.div_mod x 4096 ltac:(lia)) as D4. pose proof (Z.mod_pos_bound x 4096 ltac:(lia)).
  replace ((p - gd + (n + 2 * gd) + 4095) / 4096) with ((p + n + 4095) / 4096 + gd / 4096) by (rewrite <- Z.div_add by lia; f_equal; lia).
  replace ((p - gd) / 4096) with (p / 4096 - gd / 4096) by (apply Z.div_unique_exact; lia).
  set (a := (p + n + 4095) / 4096) in *. set (b := gd / 4096) in *. set (c := p / 4096) in *. set (d := x / 4096) in *. clearbody a b c d. lia.
Qed.
Lemma C21_new_large_l W o t s tid c a s' p n : usable_config g = true -> history g W o t s -> is_init s = true -> calls g W t s tid c a s' -> (releases c = None \/ releases c = Some 0) ->
  handed_out (mkEv tid c a) = Some p -> ~ in_small_area s' p -> usable_size g s' p n ->
  exists gd, 4096 <= gd <= guard_limit g n /\ gd mod 4096 = 0 /\ guarded s' (p - gd) p /\ guarded s' (page_up (p + n)) (page_up (p + n) + gd) /\
    (forall x, p - gd <= x < page_up (p + n) + gd -> ~ mapped s x) /\
    (forall x, mapped s' x <-> mapped s x \/ p - gd <= x < page_up (p + n) + gd).
Proof.
  intros U H Hi K Rl Ho NS US. destruct (history_hinv _ _ _ _ _ U H Hi) as (LL0 & LI0 & HI0).
  pose proof K as (TC & WD & _). pose proof (calls_wp _ _ _ _ _ _ _ _ _ _ K (op_wide s LL0 tid c HI0 TC WD Rl) p Ho) as [Sl|(LL & size & gd & HI & Hin & (G1 & G2 & G3) & T1 & T2)].
  { elim NS. apply small_region, Sl. }
  destruct (region_p g s' LL [] (hi_inv _ _ _ HI) _ Hin) as (P1 & P2 & P3). cbn [rg_p rg_size] in *. change (2 ^ 47) with 140737488355328 in *.
  assert (n = size) as ->.
  { eapply (block_fun g s' LL [] (hi_inv _ _ _ HI)); [|right; exists gd; exact Hin]. apply (usable_block g s' LL p n (or_introl HI)); [change (2 ^ 64) with 18446744073709551616; lia|exact US]. }
  pose proof (gi_reg _ _ _ _ (hi_inv _ _ _ HI) _ Hin) as [K1 K2 K3 K4 K5 K6 K7]. cbn [rg_p rg_size rg_guard] in *.
  pose proof (fun x => span_bytes p size gd x ltac:(lia) G2 P1 ltac:(lia)) as SP.
  assert (page_up (p + size) mod 4096 = 0 /\ p + size <= page_up (p + size) < p + size + 4096) as [PM PU].
  { unfold page_up. rewrite Z.mod_mul by lia. pose proof (Z.div_mod (p + size + 4095) 4096 ltac:(lia)). pose proof (Z.mod_pos_bound (p + size + 4095) 4096 ltac:(lia)). lia. }
  assert (forall x, p - gd <= x < p \/ page_up (p + size) <= x < page_up (p + size) + gd -> inaccessible s' x) as NA.
  { intros x Hx. apply K7; [apply SP; lia|].
    destruct (in_pages p size (page_of x)) eqn:Q; [|reflexivity]. exfalso. apply P_OS.in_pages_spec in Q. unfold page_of in Q. pose proof (Z.div_mod x 4096 ltac:(lia)). pose proof (Z.mod_pos_bound x 4096 ltac:(lia)).
    pose proof (Z.div_mod p 4096 ltac:(lia)). unfold page_up in *. lia. }
  exists gd. split; [unfold guard_limit; lia|]. split; [lia|]. split; [split; [lia|auto]|]. split; [split; [lia|auto]|]. unfold mapped. split.
  - intros x Hx N. apply N. apply T1, SP, Hx.
  - intros x. rewrite T2, SP. reflexivity.
Qed.
End A.

(** ** examples *)
From Verif Require Import P_Demo.
(** a large block shrunk in place keeps the guard of its first size *)
Definition demo_shrink : script := [fun _ => (0, OMalloc 4000000); fun t => (1, ORealloc (ptr 0 t) 150000)].
Definition t_shrink : trace := [mkEv 1 (ORealloc 34360197120 150000) (APtr 34360197120); mkEv 0 (OMalloc 4000000) (APtr 34360197120)].
Definition s_shrink : state := final g0 o0 true demo_shrink.
Definition shrink_before : look := LOther (fun s => forallb (fun i => pageb s (34360197120 - 4096 * i) PNone) (zrange 1 113)).
Definition shrink_edge : look := LOther (fun s => match pages (st_os s) ((34360197120 - 458752 - 1) / 4096) with None => true | _ => false end).
Definition shrink_calm : look := LOther (fun s => forallb (fun i => negb (sa_errno (sysq (st_os s) i) =? ENOMEM)) (seq 0 (sysn (st_os s)))).
Definition shrink_looks : list look := [LUsable 34360197120 163840; shrink_before; shrink_edge; LOther (fun s => st_end s <? 34360197120); LOther is_init; shrink_calm].
Lemma shrink_check : check g0 o0 true demo_shrink t_shrink shrink_looks = true.
Proof. vm_cast_no_check (eq_refl true). Qed.
Lemma shrink_history : history g0 (own_store g0) o0 t_shrink s_shrink.
Proof. exact (proj1 (check_ok _ _ _ _ _ _ shrink_check)). Qed.
Lemma shrink_ok k : In k shrink_looks -> looks g0 true t_shrink s_shrink k.
Proof. exact (proj2 (check_ok _ _ _ _ _ _ shrink_check) k). Qed.
Lemma pages_guarded s p k : p mod 4096 = 0 -> 0 < k -> forallb (fun i => pageb s (p - 4096 * i) PNone) (zrange 1 (k + 1)) = true -> guarded s (p - 4096 * k) p.
Proof.
  intros Pm Hk H. split; [lia|]. intros x Hx. rewrite forallb_forall in H. unfold inaccessible, page_of.
  pose proof (Z.div_mod p 4096 ltac:(lia)). pose proof (Z.div_mod x 4096 ltac:(lia)). pose proof (Z.mod_pos_bound x 4096 ltac:(lia)).
  assert (In (p / 4096 - x / 4096) (zrange 1 (k + 1))) as Hi by (apply in_zrange; lia). apply H, pageb_ok in Hi. unfold page_of in Hi. replace ((p - 4096 * (p / 4096 - x / 4096)) / 4096) with (x / 4096) in Hi; [exact Hi|]. apply Z.div_unique_exact; lia.
Qed.
Lemma shrink_guarded s : lookb g0 true t_shrink s shrink_before = true -> guarded s (34360197120 - 458752) 34360197120.
Proof. intros H. apply (pages_guarded s 34360197120 112); [reflexivity|lia|exact H]. Qed.
Lemma shrink_unmapped s : lookb g0 true t_shrink s shrink_edge = true -> ~ mapped s (34360197120 - 458752 - 1).
Proof. unfold mapped. cbn [lookb shrink_edge]. destruct (pages (st_os s) _); [discriminate|]. intros _ N. apply N. reflexivity. Qed.
Lemma shrink_refutes : exists g o t s p c n gd, usable_config g = true /\ history g (own_store g) o t s /\ In (p, c) (live t) /\ ~ in_small_area s p /\ usable_size g s p n /\
  guarded s (p - gd) p /\ ~ mapped s (p - gd - 1) /\ guard_limit g n < gd.
Proof.
  exists g0, o0, t_shrink, s_shrink, 34360197120, (ORealloc 34360197120 150000), 163840, 458752. pose proof shrink_ok as L.
  split; [reflexivity|]. split; [exact shrink_history|]. split; [left; reflexivity|]. split; [|split; [|split; [|split]]].
  - specialize (L (LOther (fun s => st_end s <? 34360197120)) ltac:(in_list)). cbn [looks] in L. unfold in_small_area. lia.
  - exact (L (LUsable 34360197120 163840) ltac:(in_list)).
  - apply shrink_guarded. exact (L shrink_before ltac:(in_list)).
  - apply shrink_unmapped. exact (L shrink_edge ltac:(in_list)).
  - reflexivity.
Qed.
(** a large block among others *)
Definition demo_large : script := [fun _ => (0, OMalloc 100); fun _ => (1, OMalloc 200000)].
Definition t_large : trace := [mkEv 1 (OMalloc 200000) (APtr 42949701632); mkEv 0 (OMalloc 100) (APtr 25784834800)].
Definition s_large : state := final g0 o0 true demo_large.
Definition large_after (s : state) : bool := match run (op_run g0 0 (OMalloc 400000)) s with
  | Ok (_, s') => (st_end s' <? 51539640320) && (match run (h_malloc_usable_size g0 51539640320) s' with Ok (m, _) => m =? 458752 | _ => false end) | _ => false end.
Definition large_looks : list look := [LOther is_init; LCall 0 (OMalloc 400000) (APtr 51539640320); LOther large_after].
Lemma large_check : check g0 o0 true demo_large t_large large_looks = true.
Proof. vm_cast_no_check (eq_refl true). Qed.
Lemma large_history : history g0 (own_store g0) o0 t_large s_large.
Proof. exact (proj1 (check_ok _ _ _ _ _ _ large_check)). Qed.
Lemma large_ok k : In k large_looks -> looks g0 true t_large s_large k.
Proof. exact (proj2 (check_ok _ _ _ _ _ _ large_check) k). Qed.
Lemma after_ok W t s a s' : large_after s = true -> calls g0 W t s 0 (OMalloc 400000) a s' -> ~ in_small_area s' 51539640320 /\ usable_size g0 s' 51539640320 458752.
Proof.
  unfold large_after. intros H (_ & _ & _ & _ & E). rewrite E in H. rewrite andb_true_iff in H. destruct H as [H1 H2]. split; [unfold in_small_area; lia|].
  unfold usable_size. destruct (run (h_malloc_usable_size g0 51539640320) s') as [[m s2]|] eqn:E2; [|discriminate]. exists s2. assert (m = 458752) as -> by lia. reflexivity.
Qed.
