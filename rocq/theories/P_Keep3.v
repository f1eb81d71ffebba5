(** Interleaved calls: calloc returns zeroed memory. *)
From Coq Require Import String ZArith List Bool Lia ZifyBool Permutation.
From Verif Require Import M_Base M_Config M_SizeClass M_Libdivide M_OS M_Random M_Slab M_Region M_Api M_Hist S_Heap
  P_Base P_Count P_SizeClass P_Libdivide P_Random P_Bitmap P_Bitmap2 P_OS P_Links P_Slab1 P_Slab2 P_Slab3 P_Slab4 P_Slab9 P_Slab10 P_Slab11 P_Path
  P_Region P_Region2 P_Heap1 P_Heap2 P_Heap3 P_Heap4 P_Heap5 P_Heap6 P_Heap7 P_Init P_Heap8 P_Heap9 P_Heap10 P_Heap11 P_Api0 P_Api1 P_Conc1 P_Conc2 P_Conc3 P_Conc4 P_Conc5 P_Keep1.
Import ListNotations.
Open Scope Z_scope.
Ltac Zify.zify_post_hook ::= idtac.

Definition zeros (p n : Z) : kmap := fun y => if (p <=? y) && (y <? p + n) then Some 0 else None.
Lemma zeros_in p n y v : zeros p n y = Some v -> p <= y < p + n /\ v = 0.
Proof. unfold zeros. destruct (_ && _) eqn:Q; [intros [= <-]; split; [lia|auto]|discriminate]. Qed.
Lemma zeros_at p n y : p <= y < p + n -> zeros p n y = Some 0.
Proof. intros H. unfold zeros. replace ((p <=? y) && (y <? p + n)) with true by lia. reflexivity. Qed.

Section M.
Context (g : config) (sz : mode).
Notation md := true.
Notation csafe := (csafe g md sz). Notation csafek := (csafek g md sz). Notation cov := (cov md). Notation mine := (mine md sz). Notation owns := (owns md).
Lemma zeros_cov t p n m : owns t p m -> n <= m -> cov (zeros p n) [t].
Proof. intros O H. apply (cov_lent md (zeros p n) t p m eq_refl O). intros y v Hy. apply zeros_in in Hy. lia. Qed.

Lemma pages_csafek tid size gd E a e kn : In (TI a e) E -> quiet E -> mine tid E -> 0 < size -> 4096 <= gd < 2 ^ 64 -> gd mod 4096 = 0 ->
  csafek tid (p_os (allocate_pages size gd true)) E kn (fun x r' kn' => match x with None => r' = E | Some p => r' = TF (rflight (mkRegion p size gd)) :: E /\ geo (mkRegion p size gd) /\ kn' = zeros p size end).
Proof.
  intros Hi QE ME Hs Hg Gm. unfold allocate_pages, add_guards, add_overflow.
  assert (csafek tid (p_os (do! _ := act (modify (set_errno ENOMEM)) in Ret None)) E kn (fun x r' kn' => match x with None => r' = E | Some p => r' = TF (rflight (mkRegion p size gd)) :: E /\ geo (mkRegion p size gd) /\ kn' = zeros p size end)) as FAIL.
  { apply csafek_zoom_bind. eapply csafek_bind; [apply csafek_lift, (os_errno_csafe g md sz tid ENOMEM E a e Hi ME)|]. intros [] r' kn' ->. reflexivity. }
  destruct (Z.ltb_spec (size + gd) (2 ^ 64)) as [L1|L1]; [|exact FAIL].
  destruct (Z.ltb_spec (size + gd + gd) (2 ^ 64)) as [L2|L2]; [|exact FAIL]. clear FAIL.
  set (L := size + gd + gd) in *.
  apply csafek_zoom_bind. eapply csafek_bind.
  { apply (csafek_own g md sz tid (on_os (memory_map L)) E kn (fun x => match x with None => nokn | Some real => zeros real L end)
      (fun x r' => match x with None => r' = E | Some real => r' = TF (blank real L) :: E /\ real mod 4096 = 0 /\ 4096 <= real /\ real + L + 4095 <= 140737488355328 end)).
    - eapply (os_csafe g md sz); [exact Hi|]. intros o H C. eapply wp_mono; [apply memory_map_wp| |auto]. intros [real|] o1; cbn beta iota.
      2:{ intros ->. exists E. split; [apply os_failed; auto|auto]. }
      intros (-> & Ma & Mb & Mc & Md & Me). unfold ADDR_MAX in Mc. change (2 ^ 47) with 140737488355328 in Mc. rewrite pages_all_spec in Me. exists (TF (blank real L) :: E). split; [|split; [apply mine_TF; auto|]].
      + apply os_gain; auto.
        * intros q Hq. specialize (Me q Hq). destruct (pages o q); [discriminate|auto].
        * apply os_in_chg, os_in_mapped. auto.
        * cbn. intros q ->. auto.
      + split; [reflexivity|]. lia.
    - intros s rest bal _ _ _ _. unfold on_os. apply wp_zoom. eapply wp_mono; [apply memory_map_wp| |intros; exact I]. intros [real|] o1; [|intros _; apply kon_none]. intros (-> & _) y v Hy. apply zeros_in in Hy. destruct Hy as [Hy ->].
      cbn [set_st_os st_os]. unfold mapped_os, zero_pages. cbn [set_mem mem]. rewrite (P_OS.in_pages_addr real L y) by (unfold L; lia). reflexivity.
    - intros [real|] r' H; [|apply cov_none]. destruct H as (-> & _). intros y v Hy. apply zeros_in in Hy. split; [reflexivity|]. right. exists (blank real L). split; [left; reflexivity|]. cbn [blank fl_in]. apply P_OS.in_pages_addr; unfold L in *; lia. }
  intros [real|] r' kn'; cbn beta iota; [|intros (-> & _); reflexivity]. intros ((-> & Ma & Mb & Mc) & ->).
  rewrite (w64_small (real + gd)) by (change (2 ^ 64) with 18446744073709551616; lia). set (r := mkRegion (real + gd) size gd).
  assert (forall q, region_span r q = in_pages real L q) as SP.
  { intros q. unfold region_span, r; cbn [rg_p rg_size rg_guard]. replace (real + gd - gd) with real by lia. replace (size + 2 * gd) with L by (unfold L; lia). reflexivity. }
  assert (forall q, in_pages (real + gd) size q = true -> in_pages real L q = true) as SU by (intros q; apply in_pages_sub; unfold L; lia).
  apply csafek_zoom_bind. eapply csafek_bind.
  { apply (csafek_own g md sz tid (on_os (memory_protect_rw (real + gd) size)) (TF (blank real L) :: E) (zeros real L) (fun b : bool => if b then nokn else zeros (real + gd) size)
      (fun b r' => if b : bool then r' = TF (blank real L) :: E else r' = TF (rflight r) :: E)).
    - eapply (os_csafe g md sz); [right; exact Hi|]. intros o H C. eapply wp_mono; [apply memory_protect_wp| |auto]. intros [] o1; cbn beta iota.
      + intros ->. eexists. split; [apply os_failed; auto|]. split; [apply mine_TF; auto|auto].
      + intros (-> & _ & _). exists (TF (rflight r) :: E). split; [|split; [apply mine_TF; auto|auto]]. apply os_change; auto.
        * intros q. cbn [rflight blank fl_in]. now rewrite SP.
        * apply os_in_chg, os_in_protected. exact SU.
        * intros q Hq. cbn [rflight fl_in fl_prot] in *. rewrite SP in Hq. pose proof (H (blank real L) q (or_introl eq_refl) Hq) as HH. cbn. unfold r; cbn [rg_p rg_size]. destruct (in_pages (real + gd) size q); [auto|exact HH].
    - intros s rest bal _ _ _ N. unfold on_os. apply wp_zoom. eapply wp_mono; [apply memory_protect_wp| |intros; exact I]. intros [|] o1; [intros _; apply kon_none|]. intros (-> & _) y v Hy. apply zeros_in in Hy. destruct Hy as [Hy ->].
      cbn [set_st_os st_os]. change (mem (st_os s) y = 0). apply N. apply zeros_at. unfold L. lia.
    - intros [|] r' ->; [apply cov_none|]. intros y v Hy. apply zeros_in in Hy. split; [reflexivity|]. right. exists (rflight r). split; [left; reflexivity|]. cbn [rflight fl_in]. rewrite SP. apply SU. apply P_OS.in_pages_addr; lia. }
  intros [] r' kn' (-> & ->).
  - apply csafek_zoom_bind. eapply csafek_bind with (Q := fun _ r' _ => r' = E).
    { apply csafek_lift. eapply (os_csafe g md sz); [right; exact Hi|]. intros o H C. eapply wp_mono; [apply memory_unmap_wp| |auto]. intros b o1 W. exists E. split; [|auto]. apply os_lose; auto.
      destruct b; [subst o1; apply os_chg_failed|]. destruct W as (-> & _). apply os_chg_unmapped. auto. }
    intros _ r' kn' ->. reflexivity.
  - cbn. split; [reflexivity|]. split; [|reflexivity]. unfold geo, r; cbn [rg_p rg_size rg_guard]. change (2 ^ 47) with 140737488355328. unfold L in *.
    split; [rewrite Z.add_mod, Ma, Gm by lia; reflexivity|]. split; [auto|]. lia.
Qed.

Lemma insert_kon tid st r E a e : In (TI a e) E -> quiet E -> opens E = [] -> geo r -> forall s rest bal, okst sz s -> P_Conc1.J g md bal s ((TF (rflight r) :: E) ++ rest) -> P_Conc1.others md tid rest -> kon (zeros (rg_p r) (rg_size r)) s ->
  wp (on_ra (insert_section g st (rg_p r) (rg_size r) (rg_guard r))) s (fun _ s' => kon (zeros (rg_p r) (rg_size r)) s') anyf.
Proof.
  intros Hi QE OE G s rest bal T [(LL & U)|D] O N; [|destruct (dn_toks _ _ _ _ _ D (TI a e) ltac:(right; apply in_or_app; auto)) as (i & [=])].
  unfold on_ra. apply wp_zoom. pose proof (up_inv _ _ _ _ _ _ U) as I. pose proof I as I0. rewrite flights_app in I. cbn [flights flat_map app] in I. fold (flights E) in I. rewrite QE in I. cbn [app] in I.
  assert (reg_ok (st_os s) r) as K. { apply geo_reg; [exact G|]. intros q Hq. apply (gi_fl _ _ _ _ I); [left; auto|auto]. }
  rewrite <- (ra_put_get s) in I.
  assert (~ In (rg_p r) (map rg_p (rl_open LL))) as NO. { eapply open_away; [exact U|exact OE|apply O|]. apply span_p, G. }
  pose proof (flight_absent g s (ra_get s) LL (flights rest) r I K NO) as AB.
  eapply wp_mono; [apply (insert_section_wp g s (ra_get s) LL (flights rest) st r I (proj1 T) K AB)| |intros; exact Logic.I].
  intros b rs' (OI & _). assert (calm ((TF (rflight r) :: E) ++ rest) s (ra_put rs' s)) as CM by (eapply (calm_table g s LL [] _ (ra_put rs' s)); [exact I0|exact OI]).
  intros y v Hy. rewrite (CM (rflight r) y); [apply N, Hy|left; reflexivity|]. apply zeros_in in Hy. destruct G as (_ & _ & G1 & G2 & _). cbn [rflight fl_in]. unfold region_span. apply P_OS.in_pages_addr; lia.
Qed.
Lemma large_csafek tid n E a e kn : In (TI a e) E -> quiet E -> opens E = [] -> mine tid E -> 0 <= n < 2 ^ 64 ->
  csafek tid (p_ra (allocate_large g n)) E kn (fun x r' kn' => match x with None => r' = E | Some p => kn' = zeros p (get_large_size_class g n) /\ exists t, r' = t :: E /\ got_large md t p (get_large_size_class g n) /\ get_large_size_class g n <> 0 end).
Proof.
  intros Hi QE OE ME Hn. destruct (large_any g n Hn) as (B1 & _ & B3). unfold allocate_large. set (size := get_large_size_class g n) in *.
  destruct (Z.eqb_spec size 0) as [Z0|Z0].
  { apply csafek_zoom_bind. eapply csafek_bind; [apply csafek_lift, ra_os_csafe, (os_errno_csafe g md sz tid ENOMEM E a e Hi ME)|]. intros _ r' kn' ->. reflexivity. }
  apply csafek_zoom_bind. eapply csafek_bind; [apply csafek_lift, (guard_csafe g md sz tid size E a e Hi ME B1)|]. intros gd r' kn1 (-> & G). pose proof G as (G1 & G2 & G3).
  apply csafek_zoom_bind. eapply csafek_bind; [apply csafek_psys, (pages_csafek tid size gd E a e kn1 Hi QE ME); auto; lia|].
  intros [p|] r' kn2; [|intros ->; reflexivity]. intros (-> & Ge & ->). set (r := mkRegion p size gd) in *.
  apply csafek_zoom_bind. eapply csafek_bind.
  { apply (csafek_own g md sz tid (on_ra (insert_section g true p size gd)) (TF (rflight r) :: E) (zeros p size) (fun _ => zeros p size) _ (insert_csafe g md sz tid true r E a e (or_introl eq_refl) Hi QE OE ME Ge B3 G)).
    - exact (insert_kon tid true r E a e Hi QE OE Ge).
    - intros [|] r'; [intros ->|intros (t & -> & ->)].
      + intros y v Hy. apply zeros_in in Hy. split; [reflexivity|]. right. exists (rflight r). split; [left; reflexivity|]. destruct Ge as (_ & _ & K1 & K2 & _). cbn [r rg_p rg_size rg_guard] in *. cbn [rflight fl_in]. unfold region_span. apply P_OS.in_pages_addr; unfold r; cbn [rg_p rg_size rg_guard]; lia.
      + change (TL r :: E) with ([TL r] ++ E). apply cov_l. apply (zeros_cov (TL r) p size size); [right; exists gd; reflexivity|lia]. }
  intros [] r' kn' (H & ->).
  - subst r'. apply csafek_zoom_bind. destruct Ge as (_ & _ & K1 & K2 & K3 & K4). cbn [r rg_p rg_size rg_guard] in *. change (2 ^ 47) with 140737488355328 in *.
    eapply csafek_bind; [apply csafek_lift, csafe_psys, (deallocate_pages_csafe g md sz tid (rflight r) p size gd E a e Hi QE ME); auto; change (2 ^ 48) with 281474976710656; lia|]. intros _ r' kn' ->. reflexivity.
  - destruct H as (t & -> & ->). cbn. split; [reflexivity|]. exists (TL r). split; [auto|]. split; [|auto]. exists gd. reflexivity.
Qed.
Definition zeroed (size p : Z) : kmap := if (size <=? max_slab_size_class g) && negb (ZERO_ON_FREE g) then nokn else zeros p (grant g size).
Lemma small_csafek tid arena size a e kn : 0 <= arena < N_ARENA g -> 0 <= size <= max_slab_size_class g ->
  csafek tid (allocate_small g arena size) [TI a e] kn (fun x r' kn' => match x with None => r' = [TI a e] | Some p => kn' = zeroed size p /\ exists t, r' = [t; TI a e] /\ got_small md t p (usable_of g (si_class (get_size_info size))) end).
Proof.
  intros Ha Hs. destruct (gsi_class_range g size ltac:(lia)) as (K1 & _ & K3).
  eapply csafek_mono.
  - pose proof (small_csafe g md sz tid arena size a e (or_introl eq_refl) Ha Hs) as SC. unfold allocate_small in *. set (k := si_class (get_size_info size)) in *.
    refine (csafek_own g md sz tid _ [TI a e] kn (fun x => match x with None => nokn | Some p => zeroed size p end) _ SC _ _).
    + intros s rest bal T [(LL & U)|D] O N; [|destruct (dn_toks _ _ _ _ _ D (TI a e) ltac:(left; auto)) as (i & [=])].
      replace (negb (size =? 0)) with (negb (k =? 0)) by (f_equal; destruct (Z.eqb_spec size 0), (Z.eqb_spec k 0); tauto). assert (class_in g arena k) as C by (split; lia).
      pose proof (up_inv _ _ _ _ _ _ U) as I. pose proof (md_clean g md bal s LL _ eq_refl U) as CL. eapply wp_mono; [apply (alloc_class_wp g s LL I arena k C)| |intros; exact Logic.I].
      intros [p|] s'; [|intros _; apply kon_none]. intros (_ & _ & _ & _ & _ & _ & Z0). unfold zeroed. replace (size <=? max_slab_size_class g) with true by lia. destruct (ZERO_ON_FREE g); [|apply kon_none]. intros y v Hy. apply zeros_in in Hy. destruct Hy as [Hy ->].
      apply Z0; auto. unfold grant in Hy. replace (size <=? max_slab_size_class g) with true in Hy by lia. exact Hy.
    + intros [p|] r'; [|intros _; apply cov_none]. intros (t & -> & Ht). change [t; TI a e] with ([t] ++ [TI a e]). apply cov_l. unfold zeroed. destruct (_ && _); [apply cov_none|]. apply (zeros_cov t p _ (usable_of g k)); [apply small_owns, Ht|].
      unfold grant. replace (size <=? max_slab_size_class g) with true by lia. apply Z.le_refl.
  - intros [p|] r' kn' (H & ->); auto.
Qed.
Lemma alloc_csafek tid size kn : 0 <= size < 2 ^ 64 -> csafek tid (alloc g tid size) [] kn (fun x r' kn' => apost g md size x r' /\ match x with None => True | Some p => kn' = zeroed size p end).
Proof.
  intros Hs. unfold alloc. eapply csafek_bind; [apply csafek_lift, init_csafe|]. intros ar r' kn1 (Ha & a & e & ->). unfold allocate, zeroed. destruct (Z.leb_spec size (max_slab_size_class g)) as [S|L].
  - eapply csafek_mono; [apply (small_csafek tid ar size a e kn1 Ha ltac:(lia))|]. intros [p|] r' kn'.
    + intros (-> & t & -> & Ht). split; [|unfold zeroed; replace (size <=? max_slab_size_class g) with true by lia; reflexivity]. exists a, e, t. split; [auto|]. unfold new_block, grant. replace (size <=? max_slab_size_class g) with true by lia.
      split; [apply small_owns, Ht|]. split; [lia|]. unfold got_small in Ht. intros r ->. discriminate.
    + intros ->. split; [exists a, e; reflexivity|exact Logic.I].
  - eapply csafek_mono; [apply (large_csafek tid size [TI a e] a e kn1); auto; [left; auto|reflexivity|apply mine_TI]|]. intros [p|] r' kn'.
    + intros (-> & t & -> & Ht & N0). unfold zeroed. replace (size <=? max_slab_size_class g) with false by lia. cbn [andb]. assert (grant g size = get_large_size_class g size) as EG by (unfold grant; replace (size <=? max_slab_size_class g) with false by lia; reflexivity).
      split; [|rewrite EG; reflexivity]. exists a, e, t. split; [auto|]. unfold new_block. rewrite EG.
      split; [apply got_owns, Ht|]. split; [auto|]. intros r ->. unfold got_large in Ht. destruct (large_any g size Hs) as (_ & L2 & _). specialize (L2 N0). destruct Ht as (gd & [= ->]). cbn. lia.
    + intros ->. split; [exists a, e; reflexivity|exact Logic.I].
Qed.
Lemma calloc_csafek tid m n kn : 0 <= m < 2 ^ 64 -> 0 <= n < 2 ^ 64 -> csafek tid (h_calloc g tid m n) [] kn (fun x r' kn' => given g md (m * n) x r' /\ match x with None => True | Some p => forall y, p <= y < p + m * n -> kn' y = Some 0 end).
Proof.
  intros Hm Hn. unfold h_calloc. destruct (Z.leb_spec (2 ^ 64) (m * n)) as [O|O].
  { eapply csafek_bind; [apply csafek_lift, errno_csafe, mine_nil|]. intros _ r' kn' ->. split; [apply ends_0|exact I]. }
  assert (0 <= m * n < 2 ^ 64) as Ht by nia. set (t := m * n) in *. destruct (adjust_spec g t Ht) as (A1 & A2 & A3). pose proof (grant_ge g t Ht) as GE. set (u := adjust_size_for_canary g t) in *. cbv zeta in GE. fold u in GE.
  assert (forall x r', apost g md u x r' -> given g md t x r') as AG by (intros x r'; apply apost_given; [auto|auto|lia]).
  eapply csafek_bind; [apply (alloc_csafek tid u kn A1)|]. intros [p|] r' kn1 (AP & Z0); [|split; [exact (AG None r' AP)|exact I]]. subst kn1.
  destruct (negb (ZERO_ON_FREE g) && negb (u =? 0) && (u <=? max_slab_size_class g)) eqn:Q.
  - assert (u - canary_size g = t) as Eu. { destruct ((0 <? t) && (t <=? max_slab_size_class g)) eqn:Q2; [lia|]. assert (t = 0 \/ max_slab_size_class g < t) by lia. pose proof (canary_le g). lia. }
    rewrite Eu. specialize (AG _ _ AP). destruct AP as (a & e & tk & -> & Ow & _ & _). assert (In (p, grant g u) (blks [tk; TI a e])) as Hb.
    { destruct Ow as [->|(gd & ->)]; cbn; auto. }
    assert (t <= grant g u) as GT by (apply GE; lia).
    eapply csafek_bind.
    + apply (csafek_own g md sz tid _ [tk; TI a e] (zeroed u p) (fun _ => zeros p t) (fun _ r' => r' = [tk; TI a e])).
      * apply (poke_csafe g md sz tid _ _ a e p (grant g u)); auto; [right; left; auto|eapply mine_own; eauto; left; reflexivity|]. intros o Hh Hrw.
        assert (forall x, p <= x < p + t -> pages o (page_of x) = Some PRW) as RW by (intros x Hx; apply (Hrw p (grant g u)); [auto|lia]).
        apply mem_set_wp; [intros Hp; apply rw_all; [auto|]; intros x Hx; rewrite RW by auto; reflexivity|]. split; [|auto].
        eapply poke_mono; [|apply poke_set; exact RW]. cbn. intros x Hx. lia.
      * intros s rest bal _ _ _ _. unfold on_os. apply wp_zoom. unfold mem_set. apply wp_bind, wp_get. destruct (_ || _); [|apply wp_fail; exact I]. apply wp_put. intros y v Hy. apply zeros_in in Hy. destruct Hy as [Hy ->].
        cbn [set_st_os st_os set_mem mem]. replace ((p <=? y) && (y <? p + t)) with true by lia. reflexivity.
      * intros _ r' ->. change [tk; TI a e] with ([tk] ++ [TI a e]). apply cov_l. eapply zeros_cov; eauto.
    + intros _ r' kn' (-> & ->). split; [exact AG|]. intros y Hy. apply zeros_at, Hy.
  - split; [exact (AG (Some p) r' AP)|]. intros y Hy. unfold zeroed. pose proof (max_slab_bounds g).
    destruct ((u <=? max_slab_size_class g) && negb (ZERO_ON_FREE g)) eqn:Q2.
    + exfalso. destruct (ZERO_ON_FREE g); cbn [negb andb] in *; [rewrite andb_false_r in Q2; discriminate|]. assert (u = 0) by lia. lia.
    + apply zeros_at. destruct (AG (Some p) r' AP) as (tk & m' & _). destruct AP as (a & e & tk' & -> & Ow & Nz & Ft). assert (t <= grant g u); [|lia]. apply GE. destruct (Z_le_dec t (max_slab_size_class g)); [auto|]. left. apply Nz. lia.
Qed.
End M.
