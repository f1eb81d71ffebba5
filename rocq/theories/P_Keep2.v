(** Interleaved calls: realloc carries the bytes of the block along. *)
From Coq Require Import String ZArith List Bool Lia ZifyBool Permutation.
From Verif Require Import M_Base M_Config M_SizeClass M_Libdivide M_OS M_Random M_Slab M_Region M_Api M_Hist S_Heap
  P_Base P_Count P_SizeClass P_Libdivide P_Random P_Bitmap P_Bitmap2 P_OS P_Links P_Slab1 P_Slab2 P_Slab3 P_Slab4 P_Slab9 P_Slab10 P_Slab11 P_Path
  P_Region P_Region2 P_Heap1 P_Heap2 P_Heap3 P_Heap4 P_Heap5 P_Heap6 P_Heap7 P_Init P_Heap8 P_Heap9 P_Heap10 P_Heap11 P_Api0 P_Api1 P_Conc1 P_Conc2 P_Conc3 P_Conc4 P_Conc5 P_Keep1.
Import ListNotations.
Open Scope Z_scope.
Ltac Zify.zify_post_hook ::= idtac.

Definition moved (kn : kmap) (old n : Z) (x : option Z) (kn' : kmap) : Prop :=
  match x with
  | None => forall y v, kn y = Some v -> kn' y = Some v
  | Some q => forall i v, 0 <= i < n -> kn (old + i) = Some v -> kn' (q + i) = Some v
  end.
(** the bytes of [old, old+len) now at q *)
Definition at_new (kn : kmap) (old q len : Z) : kmap := fun y => if (q <=? y) && (y <? q + len) then kn (y - q + old) else None.
Lemma at_new_in kn old q len y v : at_new kn old q len y = Some v -> q <= y < q + len /\ kn (y - q + old) = Some v.
Proof. unfold at_new. destruct (_ && _) eqn:Q; [intros H; split; [lia|exact H]|discriminate]. Qed.
Lemma at_new_moved (kn : kmap) old q len n n0 : (forall y v, kn y = Some v -> old <= y < old + n0) -> Z.min n n0 <= len -> moved kn old n (Some q) (at_new kn old q len).
Proof.
  intros HK HL i v Hi Hv. pose proof (HK _ _ Hv). unfold at_new. replace ((q <=? q + i) && (q + i <? q + len)) with true by lia. replace (q + i - q + old) with (old + i) by lia. exact Hv.
Qed.
Lemma copy_kon (kn : kmap) dst src len s : kon kn s -> wp (on_os (mem_copy dst src len)) s (fun _ s' => kon (at_new kn src dst len) s') anyf.
Proof.
  intros N. unfold on_os. apply wp_zoom. unfold mem_copy. apply wp_bind, wp_get. destruct (_ || _); [|apply wp_fail; exact I]. apply wp_put.
  intros y v Hy. apply at_new_in in Hy. destruct Hy as [Hy Hv]. cbn [set_st_os st_os set_mem mem]. replace ((dst <=? y) && (y <? dst + len)) with true by lia. apply N, Hv.
Qed.

Section M.
Context (g : config) (sz : mode).
Notation md := true.
Notation csafe := (csafe g md sz). Notation csafek := (csafek g md sz). Notation cov := (cov md). Notation mine := (mine md sz). Notation covd := (covd md). Notation owns := (owns md).
Definition reallocedk (t : tok) (old n : Z) (kn : kmap) (x : option Z) (r' : list tok) (kn' : kmap) : Prop := realloced g t n x r' /\ moved kn old n x kn'.
Lemma owns_lent t p n : owns t p n -> lent t p n. Proof. exact (fun H => H). Qed.

Lemma copy_csafek tid old old_size size n t n0 E kn : 0 <= n -> 0 <= size < 2 ^ 64 -> 0 <= old < 2 ^ 64 -> known E -> E <> [] -> old_is g t old n0 old_size E ->
  (forall m, (max_slab_size_class g < size -> m <> 0) -> m = grant g size -> n <= m) ->
  n <= (if (0 <? size) && (size <=? max_slab_size_class g) then size - canary_size g else size) ->
  (forall y v, kn y = Some v -> old <= y < old + n0) ->
  csafek tid (realloc_copy g tid old old_size size) (E ++ [t]) kn (reallocedk t old n kn).
Proof.
  intros Hn Hs Ho KE NE OK Hg NS HK. unfold realloc_copy. pose proof (max_slab_bounds g) as MB. pose proof (canary_le g) as CB.
  assert (lent t old n0) as LT by (destruct OK as [(-> & _)|(gd & -> & _)]; [left; auto|right; eauto]).
  assert (cov kn [t]) as CT by (eapply cov_lent; eauto).
  set (F := E ++ [t]). assert (plain F) as PF by (apply plain_app; [apply plain_known, KE|eapply plain_lent; eauto]). assert (cov kn F) as CF by (apply cov_r, CT).
  assert (forall a e, ends [t] (TI a e :: F)) as ET.
  { intros a e. apply ends_TI. unfold F. eapply ends_perm; [apply Permutation_app_comm|]. apply known_ends; [exact KE|]. destruct LT as [->|(gd & ->)]; (split; [reflexivity|]; split; [reflexivity|]; split; [intros i [[=]|[]]|apply Permutation_refl]). }
  change (E ++ [t]) with ([] ++ F). eapply csafek_bind.
  { eapply (frame_csafek g sz tid F kn (init g tid) [] _ (fun ar r' kn' => kn' = kn /\ 0 <= ar < N_ARENA g /\ exists a e, r' = [TI a e] ++ F)); [exact PF|exact CF|apply init_csafe|]. intros ar r' (Ha & a & e & ->). split; [auto|]. eauto. }
  intros ar r' kn' (-> & Ha & a & e & ->). eapply csafek_bind.
  { eapply (frame_csafek g sz tid F kn (allocate g ar size) [TI a e] _ (fun x r' kn' => kn' = kn /\ match x with None => r' = [TI a e] ++ F | Some q => exists tn, r' = [tn; TI a e] ++ F /\ new_block g md tn q size end)); [exact PF|exact CF|apply (allocate_csafe g md sz tid ar size a e (or_introl eq_refl) Ha Hs)|].
    intros [q|] r'; [intros (tn & -> & Nb); eauto|intros ->; auto]. }
  intros [q|] r' kn' [-> H]; [|subst r'; split; [apply ET|cbn; auto]]. destruct H as (tn & -> & Ow & Nz & Ft). set (m := grant g size) in *.
  pose proof (grant_min g size Hs Nz) as GM. fold m in GM.
  set (cs := if (0 <? Z.min size old_size) && (Z.min size old_size <=? max_slab_size_class g) then Z.min size old_size - canary_size g else Z.min size old_size).
  assert (cs <= n0 /\ (cs <= m \/ cs <= 0) /\ (Z.min n n0 <= cs)) as (C1 & C2 & C3).
  { unfold cs. clear cs. destruct OK as [(_ & _ & V1 & V2 & V3)|(gd & _ & Eo & Bg)].
    - destruct (Z.eqb_spec old_size 0); destruct (Z.leb_spec size (max_slab_size_class g)); destruct (Z.ltb_spec 0 size); cbn [andb] in *; destruct (Z.min_spec size old_size) as [[? ->]|[? ->]]; destruct (_ && _) eqn:Q; lia.
    - subst n0. destruct (Z.leb_spec size (max_slab_size_class g)); destruct (Z.ltb_spec 0 size); cbn [andb] in *; destruct (Z.min_spec size old_size) as [[? ->]|[? ->]]; destruct (_ && _) eqn:Q; lia. }
  set (R := [tn; TI a e] ++ F) in *.
  assert (In (q, m) (blks R) /\ In (old, n0) (blks R)) as [Bq Bo].
  { unfold R, F. rewrite !blks_app, !in_app_iff. split; [left|right; right].
    - destruct Ow as [->|(gd & ->)]; left; reflexivity.
    - destruct LT as [->|(gd & ->)]; left; reflexivity. }
  assert (plain R) as PR. { apply plain_app; [|exact PF]. intros x [<-|[<-|[]]]; [|exact Logic.I]. destruct Ow as [->|(gd & ->)]; exact Logic.I. }
  set (kn2 := at_new kn old q cs). assert (cov kn2 [tn]) as C4. { apply (cov_lent md kn2 tn q m eq_refl Ow). intros y v Hy. apply at_new_in in Hy. lia. }
  eapply csafek_bind.
  { apply (csafek_own g md sz tid _ R kn (fun _ => kn2) (fun _ r' => r' = R)).
    - apply (poke_csafe g md sz tid _ R a e q m); auto; [right; left; auto|apply mine_plain; exact PR|]. intros o Hh Hrw.
      assert (forall x, q <= x < q + cs -> pages o (page_of x) = Some PRW) as RWq by (intros x Hx; apply (Hrw q m); [auto|lia]).
      apply mem_copy_wp.
      + intros Hc. split; apply rw_all; auto; intros x Hx; [rewrite RWq by auto; reflexivity|]. rewrite (Hrw old n0 x Bo ltac:(lia)). reflexivity.
      + split; [|reflexivity]. eapply poke_mono; [|apply poke_copy; exact RWq]. cbn. intros x Hx. lia.
    - intros s rest bal _ _ _ N. apply copy_kon, N.
    - intros b r' ->. unfold R. apply cov_l. change [tn; TI a e] with ([tn] ++ [TI a e]). apply cov_l, C4. }
  intros _ r' kn' (-> & ->). cbv beta.
  eapply csafek_bind with (Q := fun _ r' kn' => ends [tn] r' /\ kn' = kn2).
  2:{ intros _ r' kn' (H & ->). split; [cbn; exists tn, m; split; [exact H|]; split; [exact Ow|]; split; [apply Hg; auto|exact Ft]|]. eapply at_new_moved; eauto. }
  assert (Permutation (((TI a e :: E) ++ [t]) ++ [tn]) R) as PP by (eapply Permutation_trans; [apply Permutation_sym, Permutation_cons_append|]; apply Permutation_refl).
  apply (csafek_perm g md sz tid _ _ _ _ _ PP); [intros _ x y kn' P [Q1 Q2]; split; [eapply ends_perm; [exact P|exact Q1]|exact Q2]|].
  assert (known (TI a e :: E)) as KE' by (intros x [<-|Hx]; [eauto|auto]).
  assert (plain [tn]) as PT by (intros x [<-|[]]; destruct Ow as [->|(gd & ->)]; exact Logic.I).
  destruct OK as [(-> & (a1 & e1 & Hi & Hb) & V1 & V2 & V3)|(gd & -> & Eo & Bg)].
  - replace (old_size <=? max_slab_size_class g) with true by lia.
    eapply (frame_csafek g sz tid [tn] kn2 _ _ (fun _ r' => ends [] r')); [exact PT|exact C4| |intros _ r' H; split; [apply (ends_add [] r' tn q m H Ow)|reflexivity]].
    apply (dsmall_top g md sz tid old n0 None (TI a e :: E)); auto. exists a1, e1. split; [right; exact Hi|exact Hb].
  - replace (old_size <=? max_slab_size_class g) with false by lia.
    eapply (frame_csafek g sz tid [tn] kn2 _ _ (fun _ r' => ends [] r')); [exact PT|exact C4| |intros _ r' H; split; [apply (ends_add [] r' tn q m H Ow)|reflexivity]].
    apply (dlarge_csafe g md sz tid old None [TL (mkRegion old n0 gd)] (TI a e :: E)); auto; [exists n0, gd; auto|discriminate].
Qed.

Lemma shrink_csafek tid r size n E kn : known E -> E <> [] -> geo r -> rg_size r mod 4096 = 0 -> max_slab_size_class g < size < rg_size r -> size mod 4096 = 0 -> n <= size ->
  (forall y v, kn y = Some v -> rg_p r <= y < rg_p r + rg_size r) ->
  csafek tid (realloc_shrink g (rg_p r) (rg_size r) (rg_guard r) size) (E ++ [TL r]) kn (reallocedk (TL r) (rg_p r) n kn).
Proof.
  intros KE NE Ge Szm Hsz Hm Hn HK. destruct (known_in E KE NE) as (a & e & Hi). destruct (known_quiet E KE) as [QE OE]. pose proof (max_slab_bounds g) as MB. pose proof Ge as (A1 & A2 & A3 & A4 & A5 & A6). change (2 ^ 47) with 140737488355328 in *.
  assert (lent (TL r) (rg_p r) (rg_size r)) as LT by (right; exists (rg_guard r); destruct r; reflexivity).
  unfold realloc_shrink. rewrite (w64_small (rg_p r + size)) by (change (2 ^ 64) with 18446744073709551616; lia).
  rewrite (w64_small (rg_p r + size + rg_guard r)), (w64_small (rg_size r - size)) by (change (2 ^ 64) with 18446744073709551616; lia).
  set (knr := at_new kn (rg_p r) (rg_p r) size).
  assert (forall y v, knr y = Some v -> rg_p r <= y < rg_p r + size /\ kn y = Some v) as HR. { intros y v Hy. apply at_new_in in Hy. destruct Hy as [Hy Hv]. replace (y - rg_p r + rg_p r) with y in Hv by lia. auto. }
  set (r1 := mkRegion (rg_p r) size (rg_guard r)). set (F := [TF (rflight r1); TO r]).
  assert (cov kn [TL r]) as CT by (eapply (cov_lent md kn (TL r)); eauto).
  assert (cov knr F) as CF.
  { intros y v Hy. split; [reflexivity|]. right. exists (rflight r1). split; [left; reflexivity|]. destruct (HR y v Hy) as [Hb _]. cbn [rflight fl_in]. unfold region_span, r1. cbn [rg_p rg_size rg_guard]. apply P_OS.in_pages_addr; lia. }
  eapply csafek_bind.
  { apply (csafek_own g md sz tid _ _ kn (fun b : bool => if b then kn else knr) _ (cut_csafe g sz tid r size E a e Hi KE Ge Szm ltac:(lia) Hm)).
    - intros s rest bal _ _ _ N. unfold on_os. apply wp_zoom. eapply wp_mono; [apply memory_map_fixed_wp| |intros; exact I]. intros [|] o1; cbn [set_st_os st_os].
      + intros ->. exact N.
      + intros (-> & M1 & _). intros y v Hy. destruct (HR y v Hy) as [Hb Hv]. rewrite <- (N y v Hv). unfold mapped_os, zero_pages. cbn [set_st_os st_os set_mem mem map_pages set_pages next_sys].
        destruct (in_pages (rg_p r + size) (rg_guard r) (page_of y)) eqn:Q; [|reflexivity]. exfalso. apply P_Heap11.in_pages_addr in Q; [lia|exact M1|exact A2].
    - intros [|] r' ->; [apply cov_r, CT|apply cov_r, CF]. }
  intros [|] r' kn' (-> & ->); [split; [apply (ends_known _ _ _ _ KE LT)|cbn; auto]|]. fold r1. fold F.
  assert (covd F /\ ~ In (TP tid) F /\ (forall t, ~ In (TP t) F) /\ forall p, ~ In (TG p) F) as (F1 & F2 & F3 & F4).
  { split; [|split; [intros [[=]|[[=]|[]]]|split; intros t [[=]|[[=]|[]]]]]. intros x [[=]|[[= <-]|[]]]. split; [auto|]. exists (rflight r1). split; [left; auto|]. cbn [rflight fl_in]. apply (span_p r1). unfold geo, r1. cbn [rg_p rg_size rg_guard]. change (2 ^ 47) with 140737488355328. lia. }
  eapply csafek_bind with (Q := fun _ r' kn' => r' = E ++ F /\ kn' = knr).
  { eapply csafek_mono; [apply (csafek_frame g md sz tid F knr _ F1 F2 F3 F4 CF (TF (tail_of r size) :: E) (fun _ r' => r' = E))|intros _ r' kn' (-> & r0 & -> & ->); auto].
      apply (quarantine_csafe g md sz tid (tail_of r size) _ _ 0 E a e); auto; try (change (2 ^ 47) with 140737488355328; lia); [apply known_mine, KE|].
      intros q. cbn [tail_of fl_in]. f_equal; lia. }
  intros _ r' kn' (-> & ->). eapply csafek_bind.
  { apply (csafek_same g md sz tid _ _ knr _ (resize_csafe g sz tid r size (rg_size r) E a e Hi KE Ge ltac:(lia) Hm)); [apply same_resize|]. intros _ r' ->. apply cov_r. fold r1. apply (cov_lent md knr (TL r1) (rg_p r) size eq_refl); [right; exists (rg_guard r); reflexivity|]. intros y v Hy. apply (HR y v Hy). }
  intros _ r' kn' (-> & ->). split.
  - cbn. exists (TL r1), size.
    split; [apply (ends_known _ (rg_p r1) size _ KE); right; exists (rg_guard r); reflexivity|]. split; [right; exists (rg_guard r); reflexivity|]. split; [auto|]. intros x [= <-]. cbn. lia.
  - eapply at_new_moved; [exact HK|]. lia.
Qed.

Lemma mremap_csafek tid r size n E kn : known E -> E <> [] -> geo r -> rg_size r mod 4096 = 0 -> max_slab_size_class g < size < 2 ^ 64 -> 0 < rg_size r -> n <= size ->
  (forall y v, kn y = Some v -> rg_p r <= y < rg_p r + rg_size r) ->
  csafek tid (realloc_mremap g (rg_p r) (rg_size r) (rg_guard r) size) (E ++ [TL r]) kn (reallocedk (TL r) (rg_p r) n kn).
Proof.
  intros KE NE Ge Szm Hsz Hs0 Hn HK. destruct (known_in E KE NE) as (a & e & Hi). destruct (known_quiet E KE) as [QE OE]. pose proof (max_slab_bounds g) as MB. pose proof Ge as (A1 & A2 & A3 & A4 & A5 & A6). change (2 ^ 47) with 140737488355328 in *.
  assert (lent (TL r) (rg_p r) (rg_size r)) as LT by (right; exists (rg_guard r); destruct r; reflexivity).
  assert (cov kn [TL r]) as CT by (eapply (cov_lent md kn (TL r)); eauto).
  unfold realloc_mremap. eapply csafek_bind.
  { eapply (frame_csafek g sz tid [TL r] kn _ E _ (fun x r' kn' => kn' = kn /\ match x with None => r' = E ++ [TL r] | Some p => exists t, r' = t :: E ++ [TL r] /\ got_large md t p (get_large_size_class g size) /\ get_large_size_class g size <> 0 end)); [intros x [<-|[]]; exact Logic.I|exact CT|apply (allocate_large_csafe g md sz tid size E a e (or_introl eq_refl)); auto|].
    - apply mine_plain, plain_known, KE.
    - lia.
    - intros [p|] r'; cbn beta iota; [intros (t & -> & Ht); split; [reflexivity|exists t; split; [reflexivity|exact Ht]]|intros ->; auto]. }
  intros [new|] r' kn' (-> & H); [|subst r'; split; [apply (ends_known _ _ _ _ KE LT)|cbn; auto]]. destruct H as (t & -> & Ht & N0). unfold got_large in Ht. destruct Ht as (gd2 & ->).
  destruct (large_any g size ltac:(lia)) as (L1 & L2 & L3). specialize (L2 N0). set (m := get_large_size_class g size) in *. set (r2 := mkRegion new m gd2).
  set (E2 := TL r2 :: E). change (TL r2 :: E ++ [TL r]) with (E2 ++ [TL r]).
  assert (In (TI a e) E2) as Hi2 by (right; exact Hi). assert (quiet E2) as QE2 by exact QE. assert (opens E2 = []) as OE2 by exact OE.
  assert (plain E2) as PE2 by (intros x [<-|Hx]; [exact Logic.I|apply (plain_known E KE x Hx)]). assert (mine tid E2) as ME2 by (apply mine_plain, PE2).
  assert (In (TL r2) E2) as H2 by (left; reflexivity).
  set (cs := Z.min size (rg_size r)). set (kn2 := at_new kn (rg_p r) new cs).
  assert (cov kn2 [TL r2]) as C2. { apply (cov_lent md kn2 (TL r2) new m eq_refl); [right; exists gd2; reflexivity|]. intros y v Hy. apply at_new_in in Hy. unfold cs in Hy. lia. }
  assert (moved kn (rg_p r) n (Some new) kn2) as MV by (eapply at_new_moved; [exact HK|unfold cs; lia]).
  assert (reallocedk (TL r) (rg_p r) n kn (Some new) E2 kn2) as FIN.
  { split; [|exact MV]. cbn. exists (TL r2), m. split; [|split; [right; exists gd2; reflexivity|split; [lia|intros x [= <-]; cbn; lia]]].
    eapply ends_perm; [symmetry; apply Permutation_cons_append|]. apply (ends_known _ new m _ KE). right. exists gd2. reflexivity. }
  assert (cov kn [TF (rflight r)]) as CFl.
  { intros y v Hy. split; [reflexivity|]. right. exists (rflight r). split; [left; reflexivity|]. pose proof (HK y v Hy). cbn [rflight fl_in]. unfold region_span. apply P_OS.in_pages_addr; lia. }
  eapply csafek_bind.
  { apply (csafek_same g md sz tid _ _ kn _ (delete_csafe g sz tid r (rg_size r) E2 a e Hi2 QE2 OE2 ME2 ltac:(intros x Hx y [<-|[]]; apply (PE2 x Hx)))); [apply same_delete|]. intros _ r' (-> & _). apply (cov_l md kn [TF (rflight r)] E2 CFl). }
  intros _ r' kn' ((-> & _) & ->).
  eapply csafek_bind.
  { apply (csafek_own g md sz tid _ _ kn (fun b : bool => if b then kn else kn2) _ (remap_csafe g sz tid r r2 size E2 a e Hi2 QE2 ME2 H2 Ge Szm ltac:(cbn [r2 rg_size]; lia) ltac:(cbn [r2 rg_size]; lia))).
    - intros s rest bal _ _ _ N. unfold on_os. apply wp_zoom. eapply wp_mono; [apply memory_remap_fixed_wp| |intros; exact I]. intros [|] o1; cbn [set_st_os st_os].
      + intros ->. exact N.
      + intros (-> & _ & M1 & M2 & _). cbn [r2 rg_p] in *. intros y v Hy. apply at_new_in in Hy. destruct Hy as [Hy Hv]. unfold cs in Hy. cbn [moved_os set_st_os st_os set_mem mem map_pages set_pages next_sys].
        rewrite (P_OS.in_pages_addr new size y) by lia. pose proof (Z.div_mod (rg_size r + 4095) 4096). pose proof (Z.mod_pos_bound (rg_size r + 4095) 4096). replace (y - new <? (rg_size r + 4095) / 4096 * 4096) with true by lia. apply N, Hv.
    - intros [|] r' ->; [apply (cov_l md kn [TF (rflight r)] E2 CFl)|]. change (TF (guards r) :: E2) with ([TF (guards r)] ++ [TL r2] ++ E). apply cov_r, cov_l, C2. }
  assert (forall f, Permutation ((TF f :: E) ++ [TL r2]) (TF f :: E2)) as PF by (intros f; cbn; apply perm_skip; symmetry; apply Permutation_cons_append).
  assert (Permutation (E ++ [TL r2]) E2) as PF0 by (symmetry; apply Permutation_cons_append).
  assert (plain [TL r2]) as PT by (intros x [<-|[]]; exact Logic.I). assert (mine tid E) as ME by (apply mine_plain, plain_known, KE).
  assert (forall (x : unit) u w kn', Permutation u w -> Permutation u E2 /\ kn' = kn2 -> Permutation w E2 /\ kn' = kn2) as PQ by (intros _ u w kn' P [Q1 Q2]; split; [rewrite <- P; exact Q1|exact Q2]).
  assert (forall r', Permutation r' E2 -> reallocedk (TL r) (rg_p r) n kn (Some new) r' kn2) as FIN'.
  { intros r' P. split; [|exact MV]. destruct FIN as [(t & m' & Fe & F2) _]. exists t, m'. split; [|exact F2]. eapply ends_perm; [symmetry; exact P|exact Fe]. }
  intros [|] r' kn' (-> & ->).
  - eapply csafek_bind with (Q := fun _ r' kn' => Permutation r' E2 /\ kn' = kn2); [|intros _ r' kn' (P & ->); apply FIN', P]. eapply csafek_bind.
    + apply (csafek_own g md sz tid _ _ kn (fun _ => kn2) (fun _ r' => r' = TF (rflight r) :: E2)).
      * apply (poke_csafe g md sz tid _ _ a e new m (fun _ r' => r' = TF (rflight r) :: E2) eq_refl); [right; exact Hi2|apply mine_TF, ME2|left; reflexivity|].
        intros o H B. assert (forall x, new <= x < new + m -> pages o (page_of x) = Some PRW) as RW by (intros x Hx; apply (B new m x); [left; reflexivity|exact Hx]).
        apply mem_copy_wp.
        -- intros Hc. split; apply rw_all; auto; intros x Hx; [rewrite RW by lia; reflexivity|]. rewrite (H (rflight r) (page_of x)); [|left; reflexivity|].
           ++ cbn [rflight fl_prot]. rewrite (P_OS.in_pages_addr (rg_p r) (rg_size r) x) by lia. reflexivity.
           ++ cbn [rflight fl_in]. unfold region_span. eapply in_pages_sub; [| |apply (P_OS.in_pages_addr (rg_p r) (rg_size r) x)]; lia.
        -- split; [|reflexivity]. destruct (poke_copy new (rg_p r) (Z.min size (rg_size r)) o) as [x1 x2 x3 x4]; [intros x Hx; apply RW; lia|]. constructor; [exact x1|exact x2|intros x Hx; apply x3; lia|exact x4].
      * intros s rest bal _ _ _ N. apply copy_kon, N.
      * intros _ r' ->. change (TF (rflight r) :: E2) with ([TF (rflight r)] ++ [TL r2] ++ E). apply cov_r, cov_l, C2.
    + intros _ r' kn' (-> & ->). apply (csafek_perm g md sz tid _ _ _ _ _ (PF (rflight r)) PQ).
      eapply (frame_csafek g sz tid [TL r2] kn2 _ _ (fun _ r' => r' = E)); [exact PT|exact C2| |intros _ r' ->; split; [exact PF0|reflexivity]].
      apply (deallocate_pages_csafe g md sz tid (rflight r) _ _ _ E a e); auto; change (2 ^ 48) with 281474976710656; try lia.
  - assert (page_align (rg_size r) = rg_size r) as PA. { rewrite page_align_small by lia. apply Z.mod_divide in Szm; [|lia]. destruct Szm as [z ->]. replace (z * 4096 + 4095) with (4095 + z * 4096) by lia. rewrite Z.div_add by lia. change (4095 / 4096) with 0. lia. }
    rewrite PA, (w64_small (rg_p r - rg_guard r)), (w64_small (rg_p r + rg_size r)) by (change (2 ^ 64) with 18446744073709551616; lia).
    assert ((rg_p r - rg_guard r) mod 4096 = 0) as M6 by (apply mod_sub2; auto). assert ((rg_p r + rg_size r) mod 4096 = 0) as M8 by (apply mod_add2; auto). assert ((rg_size r + 2 * rg_guard r) mod 4096 = 0) as M7 by (replace (2 * rg_guard r) with (rg_guard r + rg_guard r) by lia; apply mod_add2; auto; apply mod_add2; auto).
    assert (forall q, fl_in (guards r) q = ((rg_p r - rg_guard r <=? q * 4096) && (q * 4096 <? rg_p r)) || ((rg_p r + rg_size r <=? q * 4096) && (q * 4096 <? rg_p r + rg_size r + rg_guard r))) as P1.
    { intros q. cbn [guards fl_in]. unfold region_span. rewrite !pg_iff by auto. lia. }
    set (f' := mkFl (fun q => fl_in (guards r) q && negb (in_pages (rg_p r - rg_guard r) (rg_guard r) q)) (fl_prot (guards r))).
    eapply csafek_bind with (Q := fun _ r' kn' => Permutation r' E2 /\ kn' = kn2); [|intros _ r' kn' (P & ->); apply FIN', P].
    apply (csafek_perm g md sz tid _ _ _ _ _ (PF (guards r)) PQ).
    eapply (frame_csafek g sz tid [TL r2] kn2 _ _ (fun _ r' => r' = E)); [exact PT|exact C2| |intros _ r' ->; split; [exact PF0|reflexivity]].
    eapply csafe_bind; [apply (unmap_csafe g sz tid _ _ (guards r) f' E a e); auto|].
    { intros q Hq. rewrite pg_iff in Hq by auto. rewrite P1. lia. }
    intros b r' ->. eapply csafe_bind; [apply (unmap_last g sz tid _ _ (if b then guards r else f') E a e); auto|intros _ r' ->; reflexivity].
    intros q Hq. rewrite pg_iff in Hq by auto. destruct b; [rewrite P1; lia|]. cbn [f' fl_in]. rewrite P1, pg_iff by auto. lia.
Qed.

Lemma realloc_csafek tid old n t n0 kn : 0 <= n < 2 ^ 64 -> 0 < old < 2 ^ 64 -> lent t old n0 -> fit g t -> (forall y v, kn y = Some v -> old <= y < old + n0) ->
  csafek tid (h_realloc g tid old n) [t] kn (reallocedk t old n kn).
Proof.
  intros Hn Ho LT FT HK. pose proof (max_slab_bounds g) as MB. pose proof (canary_le g) as CB. destruct (adjust_spec g n Hn) as (A1 & A2 & A3).
  assert (P_Conc2.loan md t old [t]) as LO by (split; [reflexivity|exists n0; exact LT]). pose proof (loan_mine true sz t old [t] tid LO) as ME.
  assert (cov kn [t]) as CT by (eapply cov_lent; eauto).
  unfold h_realloc. set (v := adjust_size_for_canary g n) in *. replace (old =? 0) with false by lia.
  set (size := if max_slab_size_class g <? v then get_large_size_class g v else v).
  destruct (large_any g v A1) as (G1 & G2 & G3).
  assert (ends [t] [t]) as ES by (apply (ends_known t old n0 []); [intros x []|exact LT]).
  destruct ((max_slab_size_class g <? v) && (size =? 0)) eqn:Q0.
  { eapply csafek_bind; [apply (csafek_same g md sz tid _ [t] kn _ (errno_csafe g md sz tid ENOMEM [t] ME)); [intros s; unfold on_os; apply wp_zoom, wp_modify; reflexivity|intros _ r' ->; exact CT]|]. intros _ r' kn' (-> & ->). split; [exact ES|cbn; auto]. }
  assert (0 <= size < 2 ^ 64) as Hsz by (unfold size; destruct (max_slab_size_class g <? v); lia).
  assert (max_slab_size_class g < v -> v <= size /\ size mod 4096 = 0 /\ max_slab_size_class g < size) as SL.
  { intros H. unfold size in *. replace (max_slab_size_class g <? v) with true in * by lia. cbn [andb] in Q0. assert (v <= get_large_size_class g v) by (apply G2; lia). split; [auto|]. split; [apply G3; lia|lia]. }
  assert (v <= max_slab_size_class g -> size = v) as SS. { intros H. unfold size. replace (max_slab_size_class g <? v) with false by lia. reflexivity. }
  assert (v <= size) as Vs by (destruct (Z_le_gt_dec v (max_slab_size_class g)); [rewrite SS by auto; lia|apply SL; lia]). clearbody size.
  assert (n <= (if (0 <? size) && (size <=? max_slab_size_class g) then size - canary_size g else size)) as NS.
  { destruct ((0 <? n) && (n <=? max_slab_size_class g)) eqn:Q1; destruct ((0 <? size) && (size <=? max_slab_size_class g)) eqn:Q2; lia. }
  assert (forall m, (max_slab_size_class g < size -> m <> 0) -> m = grant g size -> n <= m) as GM.
  { intros m NZ ->. pose proof (grant_min g size Hsz NZ) as GM. destruct (Z.eq_dec size 0) as [->|N]; [|destruct (size <=? max_slab_size_class g) eqn:Q1; destruct (0 <? size) eqn:Q2; cbn [andb] in NS; lia].
    assert (n <= 0) by (cbn [Z.ltb Z.compare andb] in NS; exact NS). unfold grant. replace (0 <=? max_slab_size_class g) with true by lia. change (si_class (get_size_info 0)) with 0. cbn. lia. }
  eapply csafek_bind. { apply (csafek_same g md sz tid _ [t] kn _ (get_loan g true sz tid old t [t] ltac:(lia) ltac:(lia) LO)); [apply same_get|]. intros s r' (E & -> & _). apply cov_r, CT. }
  intros s r' kn' ((E & -> & KE & NE & H) & ->). specialize (NE eq_refl). cbn beta. 
  assert (owns t old n0) as OT by (destruct LT as [->|(gd & ->)]; [left; auto|right; eauto]).
  assert (forall E', known E' -> n <= n0 -> reallocedk t old n kn (Some old) (E' ++ [t]) kn) as SAME.
  { intros E' KE' H'. split; [exists t, n0; split; [apply (ends_known _ _ _ _ KE' LT)|]; auto|]. cbn. auto. }
  destruct (in_slab_region old s) eqn:L.
  - destruct H as (n1 & EE & Et & H). destruct (H eq_refl) as (_ & bal & LL & rest & U). cbn in Et. injection Et as ->. pose proof (up_inv _ _ _ _ _ _ U) as I.
    assert (n1 = n0) as -> by (destruct LT as [[= ->]|(gd & [=])]; reflexivity).
    pose proof (up_tok g true bal s LL _ (TS old n0) eq_refl U ltac:(left; auto)) as K. destruct K as [_ K].
    destruct (slab_old g s LL _ old n0 I K L) as (V1 & V2 & V3). unfold slab_usable_size. set (w := class_size g (snd (slab_size_class g s old))) in *.
    destruct ((size <=? max_slab_size_class g) && (si_size (get_size_info size) =? w)) eqn:Q2.
    + apply SAME; [exact KE|]. destruct (gsi_spec g size ltac:(lia)) as (_ & K2 & _).
      destruct (Z.eqb_spec w 0) as [W|W]; destruct ((0 <? size) && (size <=? max_slab_size_class g)) eqn:Q1; lia.
    + apply (copy_csafek tid old w size n (TS old n0) n0 E); auto; try lia. left. split; [auto|]. split; [|auto]. exists (st_start s), (st_end s). split; [rewrite EE; left; auto|exact L].
  - destruct H as (n1 & gd & Et). injection Et as ->. assert (n1 = n0) as -> by (destruct LT as [[=]|(gd' & [= -> ->])]; reflexivity). set (r := mkRegion old n0 gd) in *.
    pose proof (FT r eq_refl) as BN0. cbn in BN0.
    eapply csafek_bind.
    { refine (csafek_same g md sz tid _ _ kn _ (enforce_csafe g true sz tid (E ++ [TL r]) _ _) same_enforce _).
      - apply mine_plain, plain_app; [apply plain_known, KE|intros x [<-|[]]; exact Logic.I].
      - intros _. destruct (known_in E KE NE) as (a & e & Hi). exists a, e. apply in_or_app. auto.
      - intros _ r' (a & e & ->). apply (cov_r md kn (TI a e :: E) [TL r] CT). }
    intros _ r' kn' ((a & e & ->) & ->). set (E' := TI a e :: E). change (TI a e :: E ++ [TL r]) with (E' ++ [TL r]).
    assert (known E') as KE' by (intros x [<-|Hx]; eauto). assert (E' <> []) as NE' by discriminate.
    eapply csafek_bind. { apply (csafek_same g md sz tid _ _ kn _ (find_csafe g sz tid r E' a e ltac:(left; auto) (plain_known E' KE'))); [apply same_find|]. intros x r' (-> & _). apply cov_r, CT. }
    intros x r' kn' ((-> & -> & Ge & Szm) & ->). cbn [r rg_size rg_guard] in *. fold r.
    assert (16384 < n0) as Hn0 by lia. specialize (Szm Hn0).
    assert (forall os, os = n0 -> csafek tid (realloc_copy g tid old os size) (E' ++ [TL r]) kn (reallocedk (TL r) old n kn)) as COPY.
    { intros os ->. apply (copy_csafek tid old n0 size n (TL r) n0 E'); auto; try lia. right. exists gd. auto. }
    destruct (Z.eqb_spec n0 size) as [En|En]. { apply SAME; [exact KE'|]. subst size. lia. }
    destruct (Z.ltb_spec (max_slab_size_class g) size) as [Lg|Sm]; [|apply COPY; auto].
    assert (size mod 4096 = 0) as Sm4 by (destruct (Z_le_gt_dec v (max_slab_size_class g)) as [V|V]; [rewrite SS in Lg by auto; lia|apply SL; lia]).
    destruct (Z.ltb_spec size n0) as [Sh|Gr].
    + apply (shrink_csafek tid r size n E' kn); auto. lia.
    + destruct (MREMAP_MOVE_THRESHOLD <=? Z.min size n0) eqn:Q3; [|apply COPY; auto]. apply (mremap_csafek tid r size n E' kn); auto; cbn [r rg_size]; lia.
Qed.
End M.
