(** Page level operations (pages.c) against the global invariant. *)
From Coq Require Import String ZArith List Bool Lia ZifyBool Permutation.
From Verif Require Import M_Base M_Config M_SizeClass M_Libdivide M_OS M_Random M_Slab M_Region M_Api
  P_Base P_Count P_SizeClass P_Libdivide P_Random P_Bitmap P_Bitmap2 P_OS P_Links P_Slab1 P_Slab2 P_Slab3 P_Slab4 P_Region P_Region2 P_Heap1.
Import ListNotations.
Open Scope Z_scope.
Ltac Zify.zify_post_hook ::= idtac.

(** ** changes confined to the pages [D] (possibly unmapping them) *)
Record os_chg (D : Z -> Prop) (o o' : os) : Prop := {
  oc_pages : forall q, ~ D q -> pages o' q = pages o q;
  oc_mem : forall x, ~ D (page_of x) -> mem o' x = mem o x;
  oc_sysq : sysq o' = sysq o; oc_sysn : (sysn o <= sysn o')%nat;
  oc_entq : entq o' = entq o; oc_entn : (entn o <= entn o')%nat; oc_fuel : fuel o' = fuel o
}.
Lemma os_chg_refl D o : os_chg D o o. Proof. constructor; auto. Qed.
Lemma os_chg_trans D o1 o2 o3 : os_chg D o1 o2 -> os_chg D o2 o3 -> os_chg D o1 o3.
Proof.
  intros [] []. constructor; auto; try congruence; try lia.
  - intros p Hp. rewrite oc_pages1, oc_pages0 by auto. auto.
  - intros p Hp. rewrite oc_mem1, oc_mem0 by auto. auto.
Qed.
Lemma os_chg_mono (D D' : Z -> Prop) o o' : (forall p, D p -> D' p) -> os_chg D o o' -> os_chg D' o o'.
Proof. intros S []. constructor; auto. Qed.
Lemma os_in_chg D o o' : os_in D o o' -> os_chg D o o'. Proof. intros []. constructor; auto. Qed.
Lemma os_chg_failed D o : os_chg D o (failed_os o). Proof. constructor; cbn; auto. Qed.
Lemma os_chg_errno D o e : os_chg D o (set_errno e o). Proof. constructor; cbn; auto. Qed.
Lemma os_chg_unmapped (D : Z -> Prop) p size o : (forall q, in_pages p size q = true -> D q) -> os_chg D o (unmapped_os p size o).
Proof. intros H. constructor; cbn; auto. intros q Hq. destruct (in_pages p size q) eqn:E; auto. elim Hq. auto. Qed.

Lemma onward_chg D o o' : os_chg D o o' -> onward o o'. Proof. intros []. split; auto. Qed.
Lemma onward_failed o : onward o (failed_os o). Proof. split; cbn; auto. Qed.
Ltac onw := first [apply onward_refl | apply onward_failed | split; cbn; auto; lia].

(** ** flights *)
Definition blank (a l : Z) : fl := mkFl (in_pages a l) (fun _ => PNone).
Definition rflight (r : region) : fl := mkFl (region_span r) (fun q => if in_pages (rg_p r) (rg_size r) q then PRW else PNone).
Lemma cover1 f q : cover [f] q <= 1. Proof. cbn. pose proof (hit_range f q). lia. Qed.

Section S.
Context (g : config) (s : state).
Local Notation GI o LL X := (ginv g (set_st_os o s) LL X).
Lemma set_os_os o o' : set_st_os o' (set_st_os o s) = set_st_os o' s. Proof. reflexivity. Qed.
Lemma gi_same o o' LL X : GI o LL X -> onward o o' -> pages o' = pages o -> mem o' = mem o -> GI o' LL X.
Proof.
  intros I ON P Mm. change (set_st_os o' s) with (set_st_os o' (set_st_os o s)). apply (ginv_flight_step g _ LL [] [] X); [exact I|exact ON|..].
  - intros q _ _. cbn. now rewrite P.
  - intros q _ _. cbn. now rewrite Mm.
  - intros f q [].
  - intros q. cbn. lia.
  - intros q (f & [] & _).
  - intros _ _ q (f & [] & _).
Qed.
Lemma gi_failed o LL X : GI o LL X -> GI (failed_os o) LL X. Proof. intros I. eapply gi_same; eauto. apply onward_failed. Qed.
Lemma gi_errno o LL X e : GI o LL X -> GI (set_errno e o) LL X. Proof. intros I. eapply gi_same; eauto. split; cbn; auto. Qed.

(** any change confined to flights that are dropped *)
Lemma gi_lose o o' LL X1 X : GI o LL (X1 ++ X) -> onward o o' -> (forall q, ~ fl_pages X1 q -> pages o' q = pages o q) ->
  (forall x, ~ fl_pages X1 (page_of x) -> mem o' x = mem o x) ->
  (rl_strict LL = true -> unrefused o' -> forall q, fl_pages X1 q -> pages o' q = None) -> GI o' LL X.
Proof.
  intros I ON P Mm Ht. change (set_st_os o' s) with (set_st_os o' (set_st_os o s)). apply (ginv_flight_step g _ LL X1 [] X); [exact I|exact ON|..].
  - auto.
  - auto.
  - intros f q [].
  - intros q. cbn. lia.
  - intros q (f & [] & _).
  - intros SL Q q Hq _. apply (Ht SL Q q Hq).
Qed.
(** a change of one flight that stays *)
Lemma gi_step o o' LL f f' X : GI o LL (f :: X) -> onward o o' -> (forall q, fl_in f' q = true -> fl_in f q = true) ->
  (forall q, fl_in f q = false -> pages o' q = pages o q) ->
  (forall x, fl_in f (page_of x) = false -> mem o' x = mem o x) ->
  (forall q, fl_in f' q = true -> pages o' q = Some (fl_prot f' q)) ->
  (rl_strict LL = true -> unrefused o' -> forall q, fl_in f q = true -> fl_in f' q = false -> pages o' q = None) -> GI o' LL (f' :: X).
Proof.
  intros I ON S P Mm H Ht. change (set_st_os o' s) with (set_st_os o' (set_st_os o s)). apply (ginv_flight_step g _ LL [f] [f'] X); [exact I|exact ON|..].
  - intros q N _. apply P. destruct (fl_in f q) eqn:E; [|auto]. elim N. exists f. cbn; auto.
  - intros x N _. apply Mm. destruct (fl_in f (page_of x)) eqn:E; [|auto]. elim N. exists f. cbn; auto.
  - intros f0 q [<-|[]]. auto.
  - intros q. apply cover1.
  - intros q (f0 & [<-|[]] & Hq). left. exists f. cbn; auto.
  - intros SL Q q (f0 & [<-|[]] & Hq) N. apply (Ht SL Q q Hq). destruct (fl_in f' q) eqn:E; [|auto]. elim N. exists f'. cbn; auto.
Qed.
Lemma gi_new o o' LL f X : GI o LL X -> onward o o' -> (forall q, fl_in f q = true -> pages o q = None) ->
  (forall q, fl_in f q = false -> pages o' q = pages o q) ->
  (forall x, fl_in f (page_of x) = false -> mem o' x = mem o x) ->
  (forall q, fl_in f q = true -> pages o' q = Some (fl_prot f q)) -> GI o' LL (f :: X).
Proof.
  intros I ON S P Mm H. change (set_st_os o' s) with (set_st_os o' (set_st_os o s)). apply (ginv_flight_step g _ LL [] [f] X); [exact I|exact ON|..].
  - intros q _ N. apply P. destruct (fl_in f q) eqn:E; [|auto]. elim N. exists f. cbn; auto.
  - intros x _ N. apply Mm. destruct (fl_in f (page_of x)) eqn:E; [|auto]. elim N. exists f. cbn; auto.
  - intros f0 q [<-|[]]. auto.
  - intros q. apply cover1.
  - intros q (f0 & [<-|[]] & Hq). right. auto.
  - intros SL Q q (f0 & [] & _).
Qed.

(** a refused request ends the accounting *)
Lemma refused_spent LL o o' : refused o o' -> onward o o' -> spent LL o'.
Proof. intros (t & T1 & T2) [E _] _ Q. apply (Q t); [lia|]. rewrite E. exact T2. Qed.
Lemma spent_onward LL o o' : spent LL o -> onward o o' -> spent LL o'.
Proof. intros H ON SL Q. apply (H SL). eapply unrefused_back; eauto. Qed.
Lemma failed_refused o : sa_errno (sysq o (sysn o)) = ENOMEM -> refused o (failed_os o).
Proof. intros H. exists (sysn o). cbn. split; [lia|auto]. Qed.
Lemma spent_failed LL o : sa_errno (sysq o (sysn o)) = ENOMEM -> spent LL (failed_os o).
Proof. intros H. eapply refused_spent; [apply failed_refused, H|apply onward_failed]. Qed.
Lemma memory_unmap_wp2 p size o :
  wp (memory_unmap p size) o (fun b o' => if b : bool then o' = failed_os o /\ sa_errno (sysq o (sysn o)) = ENOMEM else o' = unmapped_os p size o) sys_fault.
Proof.
  eapply wp_mono; [apply wp_conj; [apply memory_unmap_wp|apply unmap_reason]| |intros ? []; auto].
  intros [] o1 [W R]; cbn beta iota in *; [auto|]. apply W.
Qed.
Lemma gi_drop_failed o LL f X : GI o LL (f :: X) -> sa_errno (sysq o (sysn o)) = ENOMEM -> GI (failed_os o) LL X.
Proof. intros I H. apply (ginv_drop g _ LL [f] X); [apply gi_failed, I|]. apply spent_failed, H. Qed.
Lemma gi_unmap_all o LL f X p l : GI o LL (f :: X) -> (forall q, fl_in f q = in_pages p l q) -> GI (unmapped_os p l o) LL X.
Proof.
  intros I E. eapply (gi_lose o _ LL [f] X I); [onw|..].
  - intros q Nq. cbn [pages unmapped_os map_pages set_pages next_sys]. destruct (in_pages p l q) eqn:F; [|auto]. elim Nq. exists f. split; [left; auto|]. rewrite E. auto.
  - intros; reflexivity.
  - intros _ _ q (f0 & [<-|[]] & Hq). cbn [pages unmapped_os map_pages set_pages next_sys]. rewrite E in Hq. rewrite Hq. auto.
Qed.
Lemma mapped_os_none p l o : forall q, pages (mapped_os p l o) q = if in_pages p l q then Some PNone else pages o q. Proof. reflexivity. Qed.

(** ** allocate_pages, pages.c:12-29 *)
Definition new_pages (o o' : os) : Prop := os_chg (fun q => pages o q = None) o o'.
Lemma new_pages_trans_drop o o1 (D : Z -> Prop) o2 : new_pages o o1 -> (forall q, D q -> pages o q = None) -> os_chg D o1 o2 -> new_pages o o2.
Proof. intros H HD H2. eapply os_chg_trans; [exact H|]. eapply os_chg_mono; [exact HD|exact H2]. Qed.
Definition fresh_zero (p l : Z) (o : os) : Prop := forall x, p <= x < p + l -> mem o x = 0.

Lemma allocate_pages_wp o LL X size gd : GI o LL X -> 0 < size -> 4096 <= gd < 2 ^ 64 -> gd mod 4096 = 0 ->
  wp (run (allocate_pages size gd true)) o (fun r o' => new_pages o o' /\ match r with
    | None => GI o' LL X /\ errno o' = ENOMEM
    | Some p => let r := mkRegion p size gd in GI o' LL (rflight r :: X) /\ reg_ok o' r /\ (forall x, region_span r (page_of x) = true -> mem o' x = 0) /\
                errno o' = errno o /\ (forall q, region_span r q = true -> pages o q = None) /\ (forall q, pages o' q <> None -> pages o q <> None \/ region_span r q = true)
    end) sys_fault.
Proof.
  intros I Hs Hg Gm. unfold allocate_pages, add_guards, add_overflow.
  destruct (Z.ltb_spec (size + gd) (2 ^ 64)) as [L1|L1].
  2:{ apply wp_run_pbind, wp_run_act, wp_modify, wp_run_ret. split; [apply os_chg_errno|]. split; [apply gi_errno; auto|reflexivity]. }
  destruct (Z.ltb_spec (size + gd + gd) (2 ^ 64)) as [L2|L2].
  2:{ apply wp_run_pbind, wp_run_act, wp_modify, wp_run_ret. split; [apply os_chg_errno|]. split; [apply gi_errno; auto|reflexivity]. }
  apply wp_run_pbind, wp_run_act. eapply wp_mono; [apply memory_map_wp| |auto]. intros [real|] o1; cbn beta iota.
  2:{ intros ->. apply wp_run_ret. split; [apply os_chg_failed|]. split; [apply gi_failed; auto|reflexivity]. }
  intros (-> & Ma & Mb & Mc & Md & Me). unfold ADDR_MAX in Mc. rewrite pages_all_spec in Me.
  change (2 ^ 47) with 140737488355328 in Mc. change (2 ^ 63) with 9223372036854775808 in Hg.
  rewrite (w64_small (real + gd)) by (change (2 ^ 64) with 18446744073709551616; lia).
  set (L := size + gd + gd) in *. set (o1 := mapped_os real L o).
  assert (GI o1 LL (blank real L :: X)) as I1.
  { eapply gi_new; [exact I|onw|..]; cbn.
    - intros q Hq. specialize (Me q Hq). destruct (pages o q); [discriminate|auto].
    - intros q ->. auto.
    - intros x ->. auto.
    - intros q ->. auto. }
  assert (new_pages o o1) as N1.
  { apply os_in_chg. apply os_in_mapped. intros q Hq. specialize (Me q Hq). destruct (pages o q); [discriminate|auto]. }
  apply wp_run_pbind, wp_run_act. eapply wp_mono; [apply memory_protect_wp| |auto]. intros [] o2; cbn beta iota.
  - intros ->. apply wp_run_pbind, wp_run_act. eapply wp_mono; [apply memory_unmap_wp2| |auto]. intros b o3 H. apply wp_run_ret.
    assert (new_pages o o3 /\ GI o3 LL X /\ errno o3 = ENOMEM) as K.
    { destruct b.
      - destruct H as [-> R]. split; [eapply os_chg_trans; [exact N1|eapply os_chg_trans; apply os_chg_failed]|]. split; [|reflexivity]. eapply gi_drop_failed; [apply gi_failed, I1|exact R].
      - subst o3. split.
        + eapply os_chg_trans; [eapply os_chg_trans; [exact N1|apply os_chg_failed]|]. apply os_chg_unmapped. intros q Hq. specialize (Me q Hq). destruct (pages o q); [discriminate|auto].
        + split; [|reflexivity]. eapply gi_unmap_all; [apply gi_failed, I1|reflexivity]. }
    exact K.
  - intros (-> & _ & _). apply wp_run_ret. set (o2 := protected_os (real + gd) size PRW o1). set (r := mkRegion (real + gd) size gd).
    assert (forall q, region_span r q = in_pages real L q) as SP.
    { intros q. unfold region_span, r; cbn [rg_p rg_size rg_guard]. replace (real + gd - gd) with real by lia. replace (size + 2 * gd) with L by (unfold L; lia). reflexivity. }
    assert (forall q, in_pages (real + gd) size q = true -> in_pages real L q = true) as SU by (intros q; apply in_pages_sub; unfold L; lia).
    split; [|split; [|split; [|split; [|split]]]].
    + eapply os_chg_trans; [exact N1|]. apply os_in_chg, os_in_protected. intros q Hq. specialize (Me q (SU q Hq)). destruct (pages o q); [discriminate|auto].
    + eapply gi_step; [exact I1|onw|..].
      * intros q. cbn [fl_in rflight blank]. rewrite SP. auto.
      * intros q Hq. cbn in Hq. unfold o2. cbn. destruct (in_pages (real + gd) size q) eqn:E; [|auto]. rewrite (SU q E) in Hq. discriminate.
      * intros x Hx. reflexivity.
      * intros q Hq. cbn in Hq. rewrite SP in Hq. unfold o2, o1. cbn. rewrite Hq. destruct (in_pages (real + gd) size q); reflexivity.
      * intros _ _ q. cbn [fl_in rflight blank]. rewrite SP. congruence.
    + constructor; cbn [rg_p rg_size rg_guard r].
      * rewrite Z.add_mod, Ma, Gm by lia. reflexivity.
      * split; [auto|lia].
      * lia.
      * lia.
      * change (2 ^ 47) with 140737488355328. unfold L in *. lia.
      * intros q Hq. unfold o2. cbn. rewrite Hq. auto.
      * intros q Hq Hn. rewrite SP in Hq. unfold o2, o1. cbn. rewrite Hn, Hq. auto.
    + intros x Hx. rewrite SP in Hx. unfold o2, o1. cbn. rewrite Hx. reflexivity.
    + reflexivity.
    + split.
      * intros q Hq. rewrite SP in Hq. specialize (Me q Hq). destruct (pages o q); [discriminate|auto].
      * intros q. rewrite SP. unfold o2, o1. cbn. destruct (in_pages real L q) eqn:E0; [auto|]. destruct (in_pages (real + gd) size q) eqn:E; [|auto]. apply SU in E. congruence.
Qed.
(** ** deallocate_pages, pages.c:84-88 *)
Lemma deallocate_pages_wp o LL X f p size gd : GI o LL (f :: X) -> 0 <= p - gd -> p < 2 ^ 48 -> 0 <= size < 2 ^ 48 -> 0 <= gd < 2 ^ 48 ->
  (forall q, fl_in f q = in_pages (p - gd) (size + 2 * gd) q) ->
  wp (run (deallocate_pages p size gd)) o (fun _ o' => GI o' LL X /\ os_chg (fun q => fl_in f q = true) o o' /\
    (errno o' = errno o \/ errno o' = ENOMEM) /\
    ((forall q, in_pages (p - gd) (size + 2 * gd) q = true -> pages o' q = None) \/ refused o o' /\ forall q, pages o' q = pages o q)) sys_fault.
Proof.
  change (2 ^ 48) with 281474976710656. intros I H1 H2 H3 H4 H5'. assert (forall q, in_pages (p - gd) (size + 2 * gd) q = true -> fl_in f q = true) as H5 by (intros q; rewrite H5'; auto). unfold deallocate_pages.
  rewrite (w64_small (p - gd)), (w64_small (size + gd * 2)) by (change (2 ^ 64) with 18446744073709551616; lia).
  replace (size + gd * 2) with (size + 2 * gd) by lia.
  apply wp_run_pbind, wp_run_act.
  eapply wp_mono; [apply wp_conj; [apply memory_unmap_wp|apply unmap_reason]| |intros ? []; auto].
  intros [] o1 [W R]; cbn beta iota.
  - subst o1. apply wp_run_pbind, wp_run_act. eapply wp_mono; [apply memory_purge_wp| |auto]. intros b o2 H. apply wp_run_ret.
    assert (refused o (failed_os o)) as RF.
    { exists (sysn o). cbn. split; [lia|]. apply R. reflexivity. }
    destruct b.
    + subst o2. split; [apply gi_failed, (gi_drop_failed o LL f X I), R; reflexivity|]. split; [eapply os_chg_trans; apply os_chg_failed|]. split; [right; reflexivity|].
      right. split; [|reflexivity]. destruct RF as (t & T1 & T2). exists t. cbn in *. split; [lia|auto].
    + destruct H as (-> & _). split; [|split; [|split; [right; reflexivity|]]].
      * eapply (gi_lose o _ LL [f] X I); [onw|..].
        -- intros q Nq. reflexivity.
        -- intros x Nx. cbn. destruct (in_pages p size (page_of x)) eqn:E; [|auto]. elim Nx. exists f. split; [cbn; auto|]. apply H5. eapply in_pages_sub; [| |exact E]; lia.
        -- intros SL Q. elim (spent_failed LL o (R eq_refl) SL). eapply unrefused_back; [|exact Q]. onw.
      * eapply os_chg_trans; [apply os_chg_failed|]. apply os_in_chg, os_in_purged. intros q Hq. apply H5. eapply in_pages_sub; [| |exact Hq]; lia.
      * right. split; [|reflexivity]. destruct RF as (t & T1 & T2). exists t. cbn in *. split; [lia|auto].
  - destruct W as (-> & _). apply wp_run_ret. split; [|split; [|split; [left; reflexivity|]]].
    + eapply gi_unmap_all; [exact I|exact H5'].
    + apply os_chg_unmapped. auto.
    + left. intros q Hq. cbn [pages unmapped_os map_pages set_pages next_sys]. rewrite Hq. auto.
Qed.

(** ** allocate_pages_aligned, pages.c:31-82 *)
Lemma div4096_add a l : a mod 4096 = 0 -> (a + l) / 4096 = a / 4096 + l / 4096.
Proof. intros M. pose proof (Z.div_mod a 4096 ltac:(lia)) as D. rewrite M in D. rewrite D at 1. rewrite Z.add_0_r, Z.mul_comm, Z.div_add_l by lia. lia. Qed.
Lemma in_pages_align a l q : a mod 4096 = 0 -> 0 <= l <= 2 ^ 64 - 4096 -> in_pages a (page_align l) q = in_pages a l q.
Proof.
  intros M H. rewrite page_align_small by lia. unfold in_pages; cbv zeta beta. f_equal. f_equal.
  replace (a + l + 4095) with (a + (l + 4095)) by lia. replace (a + (l + 4095) / 4096 * 4096 + 4095) with (a + (4095 + (l + 4095) / 4096 * 4096)) by lia.
  rewrite !(div4096_add a) by auto. rewrite Z.div_add by lia. reflexivity.
Qed.
Lemma region_span_align p sz gd q : p mod 4096 = 0 -> gd mod 4096 = 0 -> 0 <= sz <= 2 ^ 64 - 4096 ->
  in_pages (p - gd) (page_align sz + 2 * gd) q = in_pages (p - gd) (sz + 2 * gd) q.
Proof.
  intros M1 M2 H. assert ((p + gd) mod 4096 = 0) as M3 by (rewrite Z.add_mod, M1, M2 by lia; reflexivity).
  pose proof (in_pages_align (p + gd) sz q M3 H) as E. unfold in_pages in *; cbv zeta beta in *. f_equal.
  replace (p - gd + (page_align sz + 2 * gd) + 4095) with (p + gd + page_align sz + 4095) by lia.
  replace (p - gd + (sz + 2 * gd) + 4095) with (p + gd + sz + 4095) by lia.
  rewrite page_align_small by lia. f_equal.
  replace (p + gd + sz + 4095) with (p + gd + (sz + 4095)) by lia. replace (p + gd + (sz + 4095) / 4096 * 4096 + 4095) with (p + gd + (4095 + (sz + 4095) / 4096 * 4096)) by lia.
  rewrite !(div4096_add (p + gd)) by auto. rewrite Z.div_add by lia. reflexivity.
Qed.
Lemma align_up_facts u k : 0 <= u -> u mod 4096 = 0 -> 12 <= k ->
  let b := (u + (2 ^ k - 1)) / 2 ^ k * 2 ^ k in u <= b <= u + 2 ^ k - 4096 /\ b mod 2 ^ k = 0 /\ b mod 4096 = 0.
Proof.
  intros Hu Mu Hk b. assert (2 ^ k = 2 ^ (k - 12) * 4096) as E2 by (change 4096 with (2 ^ 12); rewrite <- Z.pow_add_r by lia; f_equal; lia).
  assert (0 < 2 ^ (k - 12)) by (apply Z.pow_pos_nonneg; lia). set (A := 2 ^ k) in *.
  assert (b mod 4096 = 0) as Mb. { unfold b. set (y := (u + (A - 1)) / A). rewrite E2, Z.mul_assoc. apply Z.mod_mul. lia. }
  assert (b mod A = 0) as MA. { unfold b. apply Z.mod_mul. lia. }
  split; [|auto].
  pose proof (Z.div_mod (u + (A - 1)) A ltac:(lia)) as D. pose proof (Z.mod_pos_bound (u + (A - 1)) A ltac:(lia)) as R.
  assert (b = u + (A - 1) - (u + (A - 1)) mod A) as Eb by (unfold b; lia). split; [lia|].
  assert (b < u + A) by lia. pose proof (Z.div_mod b 4096 ltac:(lia)). pose proof (Z.div_mod u 4096 ltac:(lia)). 
  assert (A mod 4096 = 0) as MA2 by (rewrite E2; apply Z.mod_mul; lia). pose proof (Z.div_mod A 4096 ltac:(lia)). lia.
Qed.
Lemma allocate_pages_aligned_wp o LL X size k gd : GI o LL X -> 0 < size < 2 ^ 64 -> 12 < k < 64 -> 4096 <= gd < 2 ^ 64 -> gd mod 4096 = 0 ->
  wp (run (allocate_pages_aligned size (2 ^ k) gd)) o (fun r o' => new_pages o o' /\ match r with
    | None => GI o' LL X /\ errno o' = ENOMEM
    | Some p => let r := mkRegion p size gd in GI o' LL (rflight r :: X) /\ reg_ok o' r /\ (forall x, region_span r (page_of x) = true -> mem o' x = 0) /\
                errno o' = errno o /\ p mod 2 ^ k = 0 /\ (forall q, region_span r q = true -> pages o q = None) /\ (forall q, pages o' q <> None -> pages o q <> None \/ region_span r q = true)
    end) sys_fault.
Proof.
  intros I Hs Hk Hg Gm. unfold allocate_pages_aligned, add_guards, add_overflow. set (us := page_align size).
  destruct (Z.eqb_spec us 0) as [Z0|Z0].
  { apply wp_run_pbind, wp_run_act, wp_modify, wp_run_ret. split; [apply os_chg_errno|]. split; [apply gi_errno; auto|reflexivity]. }
  assert (4096 < 2 ^ k <= 2 ^ 63) as K2. { split; [change 4096 with (2 ^ 12); apply Z.pow_lt_mono_r; lia|apply Z.pow_le_mono_r; lia]. }
  change (2 ^ 63) with 9223372036854775808 in *. unfold PAGE_SIZE.
  rewrite (w64_small (2 ^ k - 4096)) by (change (2 ^ 64) with 18446744073709551616; lia).
  assert (0 < size <= 2 ^ 64 - 4096 /\ us = (size + 4095) / 4096 * 4096) as [Hs2 Eus].
  { change (2 ^ 64) with 18446744073709551616 in *. destruct (Z_le_gt_dec size (2 ^ 64 - 4096)) as [L|L]; change (2 ^ 64) with 18446744073709551616 in *.
    - split; [lia|]. unfold us. apply page_align_small. change (2 ^ 64) with 18446744073709551616. lia.
    - exfalso. apply Z0. unfold us. rewrite page_align_eq by (change (2 ^ 64) with 18446744073709551616; lia). unfold w64.
      replace (size + 4095) with ((size + 4095 - 18446744073709551616) + 1 * 2 ^ 64) by (change (2 ^ 64) with 18446744073709551616; lia). rewrite Z.mod_add by (change (2 ^ 64) with 18446744073709551616; lia).
      rewrite Z.mod_small by (change (2 ^ 64) with 18446744073709551616; lia). rewrite Z.div_small by lia. reflexivity. }
  assert (us mod 4096 = 0) as Um by (rewrite Eus; apply Z.mod_mul; lia).
  assert (size <= us < size + 4096) as Ub.
  { pose proof (Z.div_mod (size + 4095) 4096 ltac:(lia)). pose proof (Z.mod_pos_bound (size + 4095) 4096 ltac:(lia)). lia. }
  destruct (Z.ltb_spec (us + (2 ^ k - 4096)) (2 ^ 64)) as [L0|L0].
  2:{ apply wp_run_pbind, wp_run_act, wp_modify, wp_run_ret. split; [apply os_chg_errno|]. split; [apply gi_errno; auto|reflexivity]. }
  set (AS := us + (2 ^ k - 4096)) in *.
  destruct (Z.ltb_spec (AS + gd) (2 ^ 64)) as [L1|L1].
  2:{ apply wp_run_pbind, wp_run_act, wp_modify, wp_run_ret. split; [apply os_chg_errno|]. split; [apply gi_errno; auto|reflexivity]. }
  destruct (Z.ltb_spec (AS + gd + gd) (2 ^ 64)) as [L2|L2].
  2:{ apply wp_run_pbind, wp_run_act, wp_modify, wp_run_ret. split; [apply os_chg_errno|]. split; [apply gi_errno; auto|reflexivity]. }
  apply wp_run_pbind, wp_run_act. eapply wp_mono; [apply memory_map_wp| |auto]. intros [real|] o1; cbn beta iota.
  2:{ intros ->. apply wp_run_ret. split; [apply os_chg_failed|]. split; [apply gi_failed; auto|reflexivity]. }
  intros (-> & Ma & Mb & Mc & Md & Me). unfold ADDR_MAX in Mc. rewrite pages_all_spec in Me.
  change (2 ^ 47) with 140737488355328 in Mc. change (2 ^ 64) with 18446744073709551616 in *.
  assert (forall q, in_pages real (AS + gd + gd) q = true -> pages o q = None) as Me2. { intros q Hq. specialize (Me q Hq). destruct (pages o q); [discriminate|auto]. }
  clear Me. rewrite (w64_small (real + gd)) by (change (2 ^ 64) with 18446744073709551616; lia).
  set (L := AS + gd + gd) in *. set (u := real + gd).
  assert (u mod 4096 = 0) as Mu by (unfold u; rewrite Z.add_mod, Ma, Gm by lia; reflexivity).
  assert (u + 2 ^ k <= 140737488355328) as Bu by (unfold u, L, AS in *; lia).
  rewrite (c_align_pow2 u k) by (change (2 ^ 64) with 18446744073709551616; unfold u; lia).
  rewrite (w64_small (u + (2 ^ k - 1))) by (change (2 ^ 64) with 18446744073709551616; unfold u in *; lia).
  destruct (align_up_facts u k ltac:(unfold u; lia) Mu ltac:(lia)) as (A1 & A2 & A3).
  set (b := (u + (2 ^ k - 1)) / 2 ^ k * 2 ^ k) in *.
  assert (b <= u + 2 ^ k - 4096 /\ u <= b) as [A1a A1b] by lia. clear A1.
  rewrite (w64_small (b - u)) by (change (2 ^ 64) with 18446744073709551616; lia).
  set (lead := b - u) in *.
  assert (0 <= lead <= 2 ^ k - 4096) as LB by (unfold lead; lia).
  rewrite (w64_small (AS - lead - us)) by (change (2 ^ 64) with 18446744073709551616; unfold AS; lia).
  set (trail := AS - lead - us) in *. assert (trail = 2 ^ k - 4096 - lead) as ET by (unfold trail, AS; lia).
  assert (u + lead = b) as Eb by (unfold lead; lia). rewrite Eb.
  rewrite (w64_small b) by (change (2 ^ 64) with 18446744073709551616; unfold u in *; lia).
  rewrite (w64_small (b + us + gd)) by (change (2 ^ 64) with 18446744073709551616; unfold u, L, AS in *; lia).
  assert (real + lead = b - gd) as Er by (unfold u in *; lia).
  assert (us + 2 * gd + trail + lead = L) as EL by (unfold L, trail; lia).
  set (o1 := mapped_os real L o).
  assert (GI o1 LL (blank real L :: X)) as I1.
  { eapply gi_new; [exact I|onw|..]; cbn [blank fl_in fl_prot].
    - auto.
    - intros q Hq. unfold o1. rewrite mapped_os_none, Hq. auto.
    - intros x Hx. unfold o1. cbn. rewrite Hx. auto.
    - intros q Hq. unfold o1. rewrite mapped_os_none, Hq. auto. }
  assert (new_pages o o1) as N1.
  { apply os_in_chg. apply os_in_mapped. auto. }
  apply wp_run_pbind, wp_run_act. eapply wp_mono; [apply memory_protect_wp| |auto]. intros [] o2; cbn beta iota.
  { intros ->. apply wp_run_pbind, wp_run_act. eapply wp_mono; [apply memory_unmap_wp2| |auto]. intros x o3 H. apply wp_run_ret.
    destruct x.
    - destruct H as [-> R]. split; [eapply os_chg_trans; [exact N1|eapply os_chg_trans; apply os_chg_failed]|]. split; [|reflexivity]. eapply gi_drop_failed; [apply gi_failed, I1|exact R].
    - subst o3. split.
      + eapply os_chg_trans; [eapply os_chg_trans; [exact N1|apply os_chg_failed]|]. apply os_chg_unmapped. auto.
      + split; [|reflexivity]. eapply gi_unmap_all; [apply gi_failed, I1|reflexivity]. }
  intros (-> & _ & _). set (o2 := protected_os b us PRW o1).
  assert (forall q, in_pages b us q = true -> in_pages real L q = true) as SU by (intros q; apply in_pages_sub; unfold u, L, trail, AS in *; lia).
  set (f1 := mkFl (in_pages real L) (fun q => if in_pages b us q then PRW else PNone)).
  assert (GI o2 LL (f1 :: X)) as I2.
  { eapply gi_step; [exact I1|onw|..]; cbn [f1 blank fl_in fl_prot].
    - auto.
    - intros q Hq. unfold o2. cbn. destruct (in_pages b us q) eqn:E; [|auto]. rewrite (SU q E) in Hq. discriminate.
    - intros x Hx. reflexivity.
    - intros q Hq. unfold o2, o1. cbn. rewrite Hq. destruct (in_pages b us q); reflexivity.
    - intros _ _ q. congruence. }
  assert (new_pages o o2) as N2. { eapply os_chg_trans; [exact N1|]. apply os_in_chg, os_in_protected. auto. }
  set (o3 := if lead =? 0 then o2 else unmapped_os real lead o2).
  set (f2 := mkFl (in_pages (real + lead) (L - lead)) (fun q => if in_pages b us q then PRW else PNone)).
  assert (real mod 4096 = 0 /\ lead mod 4096 = 0 /\ (real + lead) mod 4096 = 0) as (_ & Ml & Mrl).
  { split; [auto|]. split; [unfold lead; rewrite Zminus_mod, A3, Mu; reflexivity|]. rewrite Er, Zminus_mod, A3, Gm. reflexivity. }
  assert (forall q, in_pages (real + lead) (L - lead) q = true -> in_pages real L q = true) as S2 by (intros q; apply in_pages_sub; lia).
  assert (forall q, in_pages real lead q = true -> in_pages (real + lead) (L - lead) q = false) as S3 by (intros q; apply in_pages_apart; auto; lia).
  assert (forall q, in_pages real L q = true -> in_pages (real + lead) (L - lead) q = false -> in_pages real lead q = true) as S4.
  { intros q Hq Hn. rewrite !in_pages_spec in *. unfold in_pages in Hn; cbv zeta beta in Hn. apply andb_false_iff in Hn. destruct Hq as [Q1 Q2]. split; [auto|].
    replace (real + lead + (L - lead) + 4095) with (real + L + 4095) in Hn by lia.
    destruct Hn as [Hn|Hn]; [|lia]. assert (q < page_of (real + lead)) by lia. unfold page_of in *.
    assert ((real + lead) / 4096 <= (real + lead + 4095) / 4096) by (apply Z.div_le_mono; lia). lia. }
  assert (GI o3 LL (f2 :: X)) as I3.
  { unfold o3. destruct (Z.eqb_spec lead 0) as [E0|E0].
    - eapply gi_step; [exact I2|onw|exact S2|auto|auto| |].
      + intros q Hq. apply (gi_fl _ _ _ _ I2 f1 q); [left; auto|]. exact (S2 q Hq).
      + intros _ _ q H1 H2. cbn [f1 f2 fl_in] in H1, H2. rewrite E0 in H2. replace (real + 0) with real in H2 by lia. replace (L - 0) with L in H2 by lia. congruence.
    - eapply gi_step; [exact I2|onw|..]; cbn [f1 f2 fl_in fl_prot].
      + auto.
      + intros q Hq. cbn [unmapped_os map_pages pages set_pages]. destruct (in_pages real lead q) eqn:E; [|auto].
        assert (in_pages real L q = true) by (eapply in_pages_sub; [| |exact E]; lia). congruence.
      + intros; reflexivity.
      + intros q Hq. cbn [unmapped_os map_pages pages set_pages]. destruct (in_pages real lead q) eqn:E; [rewrite (S3 q E) in Hq; discriminate|].
        apply (gi_fl _ _ _ _ I2 f1 q); [left; auto|]. exact (S2 q Hq).
      + intros _ _ q H1 H2. cbn [unmapped_os map_pages pages set_pages]. rewrite (S4 q H1 H2). auto. }
  assert (new_pages o o3) as N3.
  { unfold o3. destruct (lead =? 0); [auto|]. eapply os_chg_trans; [exact N2|]. apply os_chg_unmapped. intros q Hq. apply Me2. eapply in_pages_sub; [| |exact Hq]; lia. }
  assert (lead <> 0 -> forall q, in_pages real lead q = true -> pages o3 q = None) as P3.
  { intros NZ q Hq. unfold o3. destruct (Z.eqb_spec lead 0); [lia|]. cbn. rewrite Hq. auto. }
  assert (errno o3 = errno o /\ (forall x, in_pages real L (page_of x) = true -> mem o3 x = 0)) as [Er3 M3].
  { unfold o3. destruct (lead =? 0); cbn; (split; [reflexivity|]); intros x Hx; rewrite Hx; auto. }
  apply wp_run_pbind.
  assert (wp (run (if lead =? 0 then Ret false else act (memory_unmap real lead))) o2 (fun b o' => if b : bool then o' = failed_os o2 /\ sa_errno (sysq o2 (sysn o2)) = ENOMEM else o' = o3) sys_fault) as W.
  { unfold o3. destruct (lead =? 0); [apply wp_run_ret; reflexivity|]. apply wp_run_act. eapply wp_mono; [apply memory_unmap_wp2| |auto]. intros [] o'; auto. }
  eapply wp_mono; [exact W| |auto]. clear W. intros [] o4; cbn beta iota; [intros [-> R]|intros ->].
  { apply wp_run_pbind, wp_run_act. eapply wp_mono; [apply memory_unmap_wp| |auto]. intros x o4 H. apply wp_run_ret.
    destruct x.
    - subst o4. split; [eapply os_chg_trans; [exact N2|eapply os_chg_trans; apply os_chg_failed]|]. split; [|reflexivity]. apply gi_failed. eapply gi_drop_failed; [exact I2|exact R].
    - destruct H as (-> & _). split.
      + eapply os_chg_trans; [eapply os_chg_trans; [exact N2|apply os_chg_failed]|]. apply os_chg_unmapped. auto.
      + split; [|reflexivity]. eapply gi_unmap_all; [apply gi_failed, I2|reflexivity]. }
  set (r := mkRegion b size gd).
  assert (forall q, region_span r q = in_pages (real + lead) (us + 2 * gd) q) as SP.
  { intros q. unfold region_span, r; cbn [rg_p rg_size rg_guard]. rewrite Er. symmetry. apply region_span_align; auto. change (2 ^ 64) with 18446744073709551616. lia. }
  assert (forall q, in_pages b size q = in_pages b us q) as SQ.
  { intros q. symmetry. apply in_pages_align; auto. change (2 ^ 64) with 18446744073709551616. lia. }
  set (o5 := if trail =? 0 then o3 else unmapped_os (b + us + gd) trail o3).
  assert ((b + us + gd) mod 4096 = 0) as Mt by (rewrite Z.add_mod, (Z.add_mod b), A3, Um, Gm by lia; reflexivity).
  assert (forall q, in_pages (real + lead) (us + 2 * gd) q = true -> in_pages (b + us + gd) trail q = false) as S5 by (intros q; apply in_pages_apart; auto; lia).
  assert (forall q, in_pages (real + lead) (us + 2 * gd) q = true -> in_pages (real + lead) (L - lead) q = true) as S6 by (intros q; apply in_pages_sub; lia).
  assert (forall q, in_pages (b + us + gd) trail q = true -> in_pages (real + lead) (L - lead) q = true) as S7 by (intros q; apply in_pages_sub; lia).
  assert (forall q, in_pages (real + lead) (L - lead) q = true -> in_pages (real + lead) (us + 2 * gd) q = false -> in_pages (b + us + gd) trail q = true) as S8.
  { intros q P3q E. rewrite !in_pages_spec in *. unfold in_pages in E; cbv zeta beta in E. apply andb_false_iff in E. destruct P3q as [Q1 Q2].
    replace (b + us + gd + trail + 4095) with (real + lead + (L - lead) + 4095) by lia. split; [|exact Q2].
    destruct E as [E|E]; [lia|]. assert (page_of (real + lead + (us + 2 * gd) + 4095) <= q) as Q3 by (unfold page_of; lia).
    eapply Z.le_trans; [|exact Q3]. unfold page_of. apply Z.div_le_mono; lia. }
  assert (trail = 0 -> forall q, in_pages (b + us + gd) trail q = false) as S9.
  { intros T0 q. destruct (in_pages (b + us + gd) trail q) eqn:Tq; [|auto]. exfalso. rewrite T0 in Tq. rewrite in_pages_spec in Tq. unfold page_of in Tq. apply Z.mod_divide in Mt; [|lia]. destruct Mt as (v & Ev). rewrite Ev in Tq.
    replace (v * 4096 + 0 + 4095) with (4095 + v * 4096) in Tq by lia. rewrite Z.div_add, Z.div_mul, Z.div_small in Tq by lia. lia. }
  assert (GI o5 LL (rflight r :: X) /\ new_pages o o5 /\ errno o5 = errno o /\ (forall x, region_span r (page_of x) = true -> mem o5 x = 0)) as (I5 & N5 & Er5 & M5).
  { assert (forall q, in_pages (real + lead) (us + 2 * gd) q = true -> pages o3 q = Some (if in_pages b us q then PRW else PNone)) as P5.
    { intros q Hq. apply (gi_fl _ _ _ _ I3 f2 q); [left; auto|]. exact (S6 q Hq). }
    unfold o5. destruct (Z.eqb_spec trail 0) as [T0|T0].
    - split; [|split; [auto|split; [auto|]]].
      + eapply gi_step; [exact I3|onw|..]; cbn [f2 rflight fl_in fl_prot].
        * intros q. rewrite SP. auto.
        * auto.
        * auto.
        * intros q. rewrite SP. intros Hq. rewrite (P5 q Hq). cbn [r rg_p rg_size]. rewrite SQ. auto.
        * intros _ _ q H1. rewrite SP. intros H2. pose proof (S8 q H1 H2). rewrite (S9 T0 q) in *. discriminate.
      + intros x. rewrite SP. auto.
    - split; [|split; [|split; [exact Er3|]]].
      + eapply gi_step; [exact I3|onw|..]; cbn [f2 rflight fl_in fl_prot].
        * intros q. rewrite SP. auto.
        * intros q Hq. cbn [unmapped_os map_pages pages set_pages]. destruct (in_pages (b + us + gd) trail q) eqn:E; [|auto]. rewrite (S7 q E) in Hq. discriminate.
        * auto.
        * intros q. rewrite SP. intros Hq. cbn [unmapped_os map_pages pages set_pages]. rewrite (S5 q Hq). change (pages (next_sys o3) q) with (pages o3 q). rewrite (P5 q Hq). cbn [r rg_p rg_size]. rewrite SQ. auto.
        * intros _ _ q H1. rewrite SP. intros H2. cbn [unmapped_os map_pages pages set_pages]. rewrite (S8 q H1 H2). auto.
      + eapply os_chg_trans; [exact N3|]. apply os_chg_unmapped. auto.
      + intros x. rewrite SP. intros Hx. change (mem (unmapped_os (b + us + gd) trail o3) x) with (mem o3 x). auto. }
  apply wp_run_pbind.
  assert (wp (run (if trail =? 0 then Ret false else act (memory_unmap (b + us + gd) trail))) o3 (fun b o' => if b : bool then o' = failed_os o3 /\ sa_errno (sysq o3 (sysn o3)) = ENOMEM else o' = o5) sys_fault) as W.
  { unfold o5. destruct (trail =? 0); [apply wp_run_ret; reflexivity|]. apply wp_run_act. eapply wp_mono; [apply memory_unmap_wp2| |auto]. intros [] o'; auto. }
  eapply wp_mono; [exact W| |auto]. clear W. intros [] o6; cbn beta iota; [intros [-> R]|intros ->].
  { apply wp_run_pbind, wp_run_act. eapply wp_mono; [apply memory_unmap_wp| |auto]. intros x o4 H. apply wp_run_ret.
    destruct x.
    - subst o4. split; [eapply os_chg_trans; [exact N3|eapply os_chg_trans; apply os_chg_failed]|]. split; [|reflexivity]. apply gi_failed. eapply gi_drop_failed; [exact I3|exact R].
    - destruct H as (-> & _). split.
      + eapply os_chg_trans; [eapply os_chg_trans; [exact N3|apply os_chg_failed]|]. apply os_chg_unmapped. auto.
      + split; [|reflexivity]. eapply (gi_lose o3 _ LL [f2] X I3); [onw|..].
        * intros q Nq. cbn [unmapped_os map_pages pages set_pages failed_os set_errno next_sys]. destruct (in_pages real L q) eqn:E; [|auto].
          destruct (in_pages (real + lead) (L - lead) q) eqn:E2; [elim Nq; exists f2; split; [left; auto|exact E2]|].
          symmetry. apply P3; auto. intros Z1. rewrite Z1 in E2. replace (real + 0) with real in E2 by lia. replace (L - 0) with L in E2 by lia. congruence.
        * intros x Nx. reflexivity.
        * intros SL Q. elim (spent_failed LL o3 R SL). eapply unrefused_back; [|exact Q]. onw. }
  apply wp_run_ret. split; [exact N5|]. cbn zeta. split; [exact I5|]. split; [|split; [exact M5|split; [exact Er5|split; [exact A2|]]]].
  - constructor; cbn [rg_p rg_size rg_guard r].
    + auto.
    + split; [auto|lia].
    + lia.
    + lia.
    + change (2 ^ 47) with 140737488355328. lia.
    + intros q Hq. change (pages o5 q) with (pages (st_os (set_st_os o5 s)) q); rewrite (gi_fl _ _ _ _ I5 (rflight r) q); [|left; auto|].
      * cbn [rflight fl_prot r rg_p rg_size]. rewrite Hq. auto.
      * cbn [rflight fl_in]. unfold region_span, r. cbn [rg_p rg_size rg_guard]. eapply in_pages_sub; [| |exact Hq]; lia.
    + intros q Hq Hn. change (pages o5 q) with (pages (st_os (set_st_os o5 s)) q); rewrite (gi_fl _ _ _ _ I5 (rflight r) q); [|left; auto|auto]. cbn [rflight fl_prot r rg_p rg_size]. rewrite Hn. auto.
  - split.
    + intros q. rewrite SP. intros Hq. apply Me2. auto.
    + intros q Hq. rewrite SP. destruct (in_pages (real + lead) (us + 2 * gd) q) eqn:E; [auto|]. left. intros N. apply Hq.
      assert (forall q, in_pages real L q = false -> pages o3 q = pages o q) as O3.
      { intros q0 H0. unfold o3. assert (pages o2 q0 = pages o q0) as O2.
        { unfold o2, o1. cbn. rewrite H0. destruct (in_pages b us q0) eqn:Eb0; [|auto]. apply SU in Eb0. congruence. }
        destruct (lead =? 0); [exact O2|]. cbn. destruct (in_pages real lead q0) eqn:El; [|exact O2].
        assert (in_pages real L q0 = true) by (eapply in_pages_sub; [| |exact El]; lia). congruence. }
      assert (pages o3 q = None \/ in_pages (real + lead) (L - lead) q = true) as [P3q|P3q].
      { destruct (in_pages real L q) eqn:EL0; [|left; rewrite O3; auto]. destruct (in_pages (real + lead) (L - lead) q) eqn:E2; [auto|]. left. apply P3; [|apply S4; auto].
        intros Z1. rewrite Z1 in E2. replace (real + 0) with real in E2 by lia. replace (L - 0) with L in E2 by lia. congruence. }
      * unfold o5. destruct (trail =? 0); [exact P3q|]. cbn. destruct (in_pages (b + us + gd) trail q); auto.
      * pose proof (S8 q P3q E) as Tq. unfold o5. destruct (Z.eqb_spec trail 0) as [T0|T0].
        -- exfalso. rewrite (S9 T0 q) in Tq. discriminate.
        -- cbn. rewrite Tq. auto.
Qed.
End S.
