(** Interleaved calls: realloc in programs whose calls are correct. *)
From Coq Require Import String ZArith List Bool Lia ZifyBool Permutation.
From Verif Require Import M_Base M_Config M_SizeClass M_Libdivide M_OS M_Random M_Slab M_Region M_Api M_Hist S_Heap
  P_Base P_Count P_SizeClass P_Libdivide P_Random P_Bitmap P_Bitmap2 P_OS P_Links P_Slab1 P_Slab2 P_Slab3 P_Slab4 P_Slab9 P_Slab10 P_Slab11 P_Path
  P_Region P_Region2 P_Heap1 P_Heap2 P_Heap3 P_Heap4 P_Heap5 P_Heap6 P_Heap7 P_Init P_Heap8 P_Heap9 P_Heap10 P_Heap11 P_Api1 P_Conc1 P_Conc2 P_Conc3 P_Conc4.
Import ListNotations.
Open Scope Z_scope.
Ltac Zify.zify_post_hook ::= idtac.

Section M.
Context (g : config) (sz : mode).
Notation md := true.
Notation up := (up g md).
Notation J := (J g md).
Notation keep := (keep md).
Notation csafe := (csafe g md sz).
Notation efault := (efault md sz).
Notation mine := (mine md sz).
Notation others := (others md).
Notation covd := (covd md).
Notation owns := (owns md).

Lemma ends_add X r t p n : ends X r -> owns t p n -> ends (X ++ [t]) (r ++ [t]).
Proof.
  intros (A & B & C & D) H. destruct (owns_facts _ _ _ _ H) as (O1 & O2 & O3 & O4). split; [rewrite flights_app, A, O3; reflexivity|]. split; [rewrite opens_app, B, O4; reflexivity|]. split.
  - intros i Hi. apply in_app_iff in Hi. destruct Hi as [Hi|[Hi|[]]]; [elim (C i Hi)|elim (O2 i); auto].
  - unfold bts. rewrite filter_app. apply Permutation_app; [exact D|]. cbn. rewrite O1. apply Permutation_refl.
Qed.
Lemma plain_frame tid F : (forall t, In t F -> match t with TO _ | TP _ | TG _ => False | _ => True end) -> covd F /\ ~ In (TP tid) F /\ (forall t, ~ In (TP t) F) /\ forall p, ~ In (TG p) F.
Proof. intros H. split; [intros r Hr; elim (H _ Hr)|]. split; [intros Hr; elim (H _ Hr)|split; intros t Hr; elim (H _ Hr)]. Qed.
Definition plain (F : list tok) : Prop := forall t, In t F -> match t with TO _ | TP _ | TG _ => False | _ => True end.
Lemma plain_app a b : plain a -> plain b -> plain (a ++ b). Proof. intros A B t H. apply in_app_iff in H. destruct H as [H|H]; [exact (A t H)|exact (B t H)]. Qed.
Lemma plain_known E : known E -> plain E. Proof. intros K t Ht. destruct (K t Ht) as (a & e & ->). exact Logic.I. Qed.
Lemma plain_lent t p n : lent t p n -> plain [t]. Proof. intros [->|(gd & ->)] x [<-|[]]; exact Logic.I. Qed.
Lemma frame_csafe {A} tid F (p : prog state A) r (Q Q' : A -> list tok -> Prop) : plain F -> csafe tid p r Q -> (forall a r', Q a r' -> Q' a (r' ++ F)) -> csafe tid p (r ++ F) Q'.
Proof.
  intros P H K. destruct (plain_frame tid F P) as (A1 & A2 & A3 & A4). eapply csafe_mono; [apply (csafe_frame g md sz tid F p A1 A2 A3 A4 r Q H)|]. intros a r' (r0 & -> & HQ). auto.
Qed.

(** ** allocate, copy, free *)
Definition realloced (t : tok) (n : Z) (x : option Z) (r' : list tok) : Prop :=
  match x with None => ends [t] r' | Some q => given g md n (Some q) r' end.
Definition old_is (t : tok) (old n0 old_size : Z) (E : list tok) : Prop :=
  (t = TS old n0 /\ (exists a e, In (TI a e) E /\ (old <? e) && (a <=? old) = true) /\ 0 <= old_size <= max_slab_size_class g /\ n0 = (if old_size =? 0 then 0 else old_size - canary_size g) /\ (old_size <> 0 -> 16 <= old_size)) \/
  (exists gd, t = TL (mkRegion old n0 gd) /\ old_size = n0 /\ max_slab_size_class g < n0).
Lemma copy_csafe tid old old_size size n t n0 E : 0 <= n -> 0 <= size < 2 ^ 64 -> 0 <= old < 2 ^ 64 -> known E -> E <> [] -> old_is t old n0 old_size E ->
  (forall m, (max_slab_size_class g < size -> m <> 0) -> m = grant g size -> n <= m) ->
  csafe tid (realloc_copy g tid old old_size size) (E ++ [t]) (realloced t n).
Proof.
  intros Hn Hs Ho KE NE OK Hg. unfold realloc_copy. pose proof (max_slab_bounds g) as MB. pose proof (canary_le g) as CB.
  assert (lent t old n0) as LT by (destruct OK as [(-> & _)|(gd & -> & _)]; [left; auto|right; eauto]).
  set (F := E ++ [t]). assert (plain F) as PF by (apply plain_app; [apply plain_known, KE|eapply plain_lent; eauto]).
  assert (owns t old n0) as OT by (destruct LT as [->|(gd & ->)]; [left; auto|right; eauto]).
  assert (forall a e, ends [t] (TI a e :: F)) as ET.
  { intros a e. apply ends_TI. unfold F. eapply ends_perm; [apply Permutation_app_comm|]. apply known_ends; [exact KE|]. destruct LT as [->|(gd & ->)]; (split; [reflexivity|]; split; [reflexivity|]; split; [intros i [[=]|[]]|apply Permutation_refl]). }
  change (E ++ [t]) with ([] ++ F). eapply csafe_bind.
  { eapply (frame_csafe tid F (init g tid) [] _ (fun ar r' => 0 <= ar < N_ARENA g /\ exists a e, r' = [TI a e] ++ F)); [exact PF|apply init_csafe|]. intros ar r' (Ha & a & e & ->). eauto. }
  intros ar r' (Ha & a & e & ->). eapply csafe_bind.
  { eapply (frame_csafe tid F (allocate g ar size) [TI a e] _ (fun x r' => match x with None => r' = [TI a e] ++ F | Some q => exists tn, r' = [tn; TI a e] ++ F /\ new_block g md tn q size end)); [exact PF|apply (allocate_csafe g md sz tid ar size a e (or_introl eq_refl) Ha Hs)|].
    intros [q|] r'; [intros (tn & -> & Nb); eauto|intros ->; auto]. }
  intros [q|] r'; [|intros ->; apply ET]. intros (tn & -> & Ow & Nz & Ft). set (m := grant g size) in *.
  pose proof (grant_min g size Hs Nz) as GM. fold m in GM.
  set (cs := if (0 <? Z.min size old_size) && (Z.min size old_size <=? max_slab_size_class g) then Z.min size old_size - canary_size g else Z.min size old_size).
  assert (cs <= n0 /\ (cs <= m \/ cs <= 0)) as (C1 & C2).
  { unfold cs. clear cs. destruct OK as [(_ & _ & V1 & V2 & V3)|(gd & _ & Eo & Bg)].
    - destruct (Z.eqb_spec old_size 0); destruct (Z.leb_spec size (max_slab_size_class g)); destruct (Z.ltb_spec 0 size); cbn [andb] in *; destruct (Z.min_spec size old_size) as [[? ->]|[? ->]]; destruct (_ && _) eqn:Q; lia.
    - subst n0. destruct (Z.leb_spec size (max_slab_size_class g)); destruct (Z.ltb_spec 0 size); cbn [andb] in *; destruct (Z.min_spec size old_size) as [[? ->]|[? ->]]; destruct (_ && _) eqn:Q; lia. }
  set (R := [tn; TI a e] ++ F) in *.
  assert (In (q, m) (blks R) /\ In (old, n0) (blks R)) as [Bq Bo].
  { unfold R, F. rewrite !blks_app, !in_app_iff. split; [left|right; right].
    - destruct Ow as [->|(gd & ->)]; left; reflexivity.
    - destruct LT as [->|(gd & ->)]; left; reflexivity. }
  assert (plain R) as PR. { apply plain_app; [|exact PF]. intros x [<-|[<-|[]]]; [|exact Logic.I]. destruct Ow as [->|(gd & ->)]; exact Logic.I. }
  eapply csafe_bind with (Q := fun _ r' => r' = R).
  { apply (poke_csafe g md sz tid _ R a e q m); auto; [right; left; auto|apply mine_plain; exact PR|]. intros o Hh Hrw.
    assert (forall x, q <= x < q + cs -> pages o (page_of x) = Some PRW) as RWq by (intros x Hx; apply (Hrw q m); [auto|lia]).
    apply mem_copy_wp.
    - intros Hc. split; apply rw_all; auto; intros x Hx; [rewrite RWq by auto; reflexivity|]. rewrite (Hrw old n0 x Bo ltac:(lia)). reflexivity.
    - split; [|reflexivity]. eapply poke_mono; [|apply poke_copy; exact RWq]. cbn. intros x Hx. lia. }
  intros _ r' ->. cbv beta.
  eapply csafe_bind with (Q := fun _ r' => ends [tn] r').
  2:{ intros _ r' H. cbn. exists tn, m. split; [exact H|]. split; [exact Ow|]. split; [apply Hg; auto|exact Ft]. }
  assert (Permutation (((TI a e :: E) ++ [t]) ++ [tn]) R) as PP by (eapply Permutation_trans; [apply Permutation_sym, Permutation_cons_append|]; apply Permutation_refl).
  apply (csafe_perm g md sz tid _ _ _ _ PP); [intros _ x y P; apply ends_perm, P|].
  assert (known (TI a e :: E)) as KE' by (intros x [<-|Hx]; [eauto|auto]).
  assert (plain [tn]) as PT by (intros x [<-|[]]; destruct Ow as [->|(gd & ->)]; exact Logic.I).
  destruct OK as [(-> & (a1 & e1 & Hi & Hb) & V1 & V2 & V3)|(gd & -> & Eo & Bg)].
  - replace (old_size <=? max_slab_size_class g) with true by lia.
    eapply (frame_csafe tid [tn] _ _ (fun _ r' => ends [] r')); [exact PT| |intros _ r' H; apply (ends_add [] r' tn q m H Ow)].
    apply (dsmall_top g md sz tid old n0 None (TI a e :: E)); auto. exists a1, e1. split; [right; exact Hi|exact Hb].
  - replace (old_size <=? max_slab_size_class g) with false by lia.
    eapply (frame_csafe tid [tn] _ _ (fun _ r' => ends [] r')); [exact PT| |intros _ r' H; apply (ends_add [] r' tn q m H Ow)].
    apply (dlarge_csafe g md sz tid old None [TL (mkRegion old n0 gd)] (TI a e :: E)); auto; [exists n0, gd; auto|discriminate].
Qed.

(** ** the table entry of a block *)
Lemma up_region bal s LL T r : up bal s LL T -> In (TL r) T -> In r (rl_own LL) /\ geo r /\ (16384 < rg_size r -> rg_size r mod 4096 = 0).
Proof.
  intros U Hr. pose proof (up_tok g md bal s LL T (TL r) eq_refl U Hr) as K. cbn in K. split; [exact K|]. split; [apply (geo_ok (st_os s)), (gi_reg _ _ _ _ (up_inv _ _ _ _ _ _ U)), K|]. apply (up_sized _ _ _ _ _ _ U), K.
Qed.
Lemma entry_only s LL X r sz2 gd2 : ginv g s LL X -> In r (rl_all LL) -> In (mkRegion (rg_p r) sz2 gd2) (rl_all LL) -> mkRegion (rg_p r) sz2 gd2 = r.
Proof. intros I H1 H2. eapply (NoDup_map_inj rg_p); [apply (gi_nd _ _ _ _ I)|exact H2|exact H1|reflexivity]. Qed.
Lemma find_csafe tid r E a e : In (TI a e) E -> plain E -> csafe tid (act (on_ra (realloc_find (rg_p r)))) (E ++ [TL r])
  (fun x r' => r' = E ++ [TL r] /\ x = (rg_size r, rg_guard r) /\ geo r /\ (16384 < rg_size r -> rg_size r mod 4096 = 0)).
Proof.
  intros Hi PE. apply (csafe_up g md sz tid _ _ a e); [apply in_or_app; auto|]. intros s rest bal LL T U O Es Ee. pose proof (up_inv _ _ _ _ _ _ U) as I. unfold on_ra. apply wp_zoom. unfold realloc_find. apply wp_bind.
  destruct (up_region bal s LL _ r U ltac:(apply in_or_app; left; apply in_or_app; right; left; auto)) as (Hr & Ge & Sz). assert (In r (rl_all LL)) as Hall by (apply in_or_app; auto).
  apply (find_wp g s (ra_get s) LL (flights ((E ++ [TL r]) ++ rest))); [rewrite ra_put_get; exact I| |].
  - intros i sz2 gd2 Hin Hb _ Hc. apply wp_bind, wp_gets. rewrite Hc, (entry_only _ _ _ _ _ _ I Hall Hin). apply wp_ret. rewrite ra_put_get. exists (E ++ [TL r]). split; [eauto|]. split; [apply keep_refl|]. split; [|auto].
    apply mine_plain. apply plain_app; [exact PE|]. intros x [<-|[]]; exact Logic.I.
  - intros N. elim N. apply in_map. exact Hall.
Qed.

(** ** shrinking in place *)
Lemma flight_apart s LL f0 X f q : ginv g s LL (f0 :: X) -> In f X -> fl_in f q = true -> fl_in f0 q <> true.
Proof.
  intros I Hf Hq H0. pose proof (gi_apart _ _ _ _ I q) as AP. unfold spans in AP. cbn [map] in AP. rewrite !cover_app in AP. cbn [cover] in AP. unfold hit at 1 in AP. rewrite H0 in AP.
  pose proof (cover_In (map fl_in X) (fl_in f) q ltac:(apply in_map; auto) Hq). pose proof (cover_nonneg (fixed g s) q). pose proof (cover_nonneg (map region_span (rl_own LL)) q). pose proof (cover_nonneg (qspans (st_ra s)) q). rewrite ?cover_app in *. lia.
Qed.
Lemma known_bts E : known E -> bts E = [].
Proof. induction E as [|t E IH]; intros K; [auto|]. destruct (K t ltac:(left; auto)) as (a & e & ->). apply IH. intros x Hx. apply K. right. auto. Qed.
Lemma bts_app a b : bts (a ++ b) = bts a ++ bts b. Proof. apply filter_app. Qed.
Lemma known_TI E a e r : known E -> E <> [] -> (forall a0 e0, ~ In (TI a0 e0) r) -> In (TI a e) (E ++ r) -> In (TI a e) E.
Proof. intros _ _ N H. apply in_app_iff in H. destruct H as [H|H]; [auto|elim (N _ _ H)]. Qed.
Definition tail_of (r : region) (size : Z) : fl := mkFl (in_pages (rg_p r + size + rg_guard r) (rg_size r - size)) (fl_prot (rflight r)).
Lemma cut_csafe tid r size E a e : In (TI a e) E -> known E -> geo r -> rg_size r mod 4096 = 0 -> 16384 < size < rg_size r -> size mod 4096 = 0 ->
  let r1 := mkRegion (rg_p r) size (rg_guard r) in
  csafe tid (act (on_os (memory_map_fixed (rg_p r + size) (rg_guard r)))) (E ++ [TL r])
    (fun b r' => if b : bool then r' = E ++ [TL r] else r' = (TF (tail_of r size) :: E) ++ [TF (rflight r1); TO r]).
Proof.
  intros Hi KE Ge Szm Hsz Hm r1. apply (csafe_up g md sz tid _ _ a e); [apply in_or_app; auto|]. intros s rest bal LL T U O Es Ee. pose proof (up_inv _ _ _ _ _ _ U) as I. unfold on_os. apply wp_zoom.
  destruct (known_quiet E KE) as [QE OE]. unfold quiet in QE.
  destruct (up_region bal s LL _ r U ltac:(apply in_or_app; left; apply in_or_app; right; left; auto)) as (Hin & _ & _).
  assert (plain (E ++ [TL r])) as PL by (apply plain_app; [apply plain_known, KE|intros x [<-|[]]; exact Logic.I]).
  assert (flights ((E ++ [TL r]) ++ rest) = flights rest) as EF by (rewrite !flights_app, QE; reflexivity).
  assert (opens ((E ++ [TL r]) ++ rest) = opens rest) as EO by (rewrite !opens_app, OE; reflexivity).
  eapply wp_mono; [apply memory_map_fixed_wp| |apply sys_e]. intros [|] o1.
  { intros ->. exists (E ++ [TL r]). destruct (up_os g md bal s LL (E ++ [TL r]) (E ++ [TL r]) rest (failed_os (st_os s)) U) as [U' K']; [|split; [eauto|]; split; [auto|]; split; [apply mine_plain; exact PL|auto]].
    apply os_failed.
    - intros f q Hf. rewrite flights_app, QE in Hf. destruct Hf.
    - intros q. rewrite flights_app, QE. cbn. lia. }
  intros (-> & M1 & _ & M2). destruct r as [old sz0 gd]. set (r := mkRegion old sz0 gd) in *. cbn [rg_p rg_size rg_guard] in *. set (o1 := mapped_os (old + size) gd (st_os s)).
  pose proof (gi_reg _ _ _ _ I r Hin) as K. pose proof K as [kp [kg kg2] ks klo khi krw kno]. destruct (region_len _ _ K) as (N1 & N2 & N3). cbn [r rg_p rg_size rg_guard] in *. change (2 ^ 47) with 140737488355328 in *.
  set (F := tail_of r size). rewrite EF in I.
  assert ((old + size) mod 4096 = 0) as M3 by (apply mod_add2; auto). assert ((old + size + gd) mod 4096 = 0) as M4 by (apply mod_add2; auto). assert ((sz0 - size) mod 4096 = 0) as M5 by (apply mod_sub2; auto).
  assert ((old - gd) mod 4096 = 0) as M6 by (apply mod_sub2; auto). assert ((sz0 + 2 * gd) mod 4096 = 0) as M7 by (replace (2 * gd) with (gd + gd) by lia; apply mod_add2; auto; apply mod_add2; auto).
  assert ((size + 2 * gd) mod 4096 = 0) as M8 by (replace (2 * gd) with (gd + gd) by lia; apply mod_add2; auto; apply mod_add2; auto).
  assert (forall q, fl_in (rflight r) q = (old - gd <=? q * 4096) && (q * 4096 <? old + sz0 + gd)) as P1. { intros q. cbn [rflight fl_in]. unfold region_span. cbn [r rg_p rg_size rg_guard]. rewrite pg_iff by auto. f_equal. lia. }
  assert (forall q, fl_in (rflight r1) q = (old - gd <=? q * 4096) && (q * 4096 <? old + size + gd)) as P2. { intros q. cbn [rflight fl_in]. unfold region_span. cbn [r1 r rg_p rg_size rg_guard]. rewrite pg_iff by auto. f_equal. lia. }
  assert (forall q, fl_in F q = (old + size + gd <=? q * 4096) && (q * 4096 <? old + sz0 + gd)) as P3. { intros q. cbn [F tail_of fl_in r rg_p rg_size rg_guard]. rewrite pg_iff by auto. f_equal. lia. }
  assert (forall q, pages o1 q = if in_pages (old + size) gd q then Some PNone else pages (st_os s) q) as PO by reflexivity.
  assert (forall q, in_pages (old + size) gd q = (old + size <=? q * 4096) && (q * 4096 <? old + size + gd)) as P4 by (intros q; apply pg_iff; auto).
  pose proof (ginv_open g s LL _ r I Hin) as I1.
  assert (forall q, fl_in (rflight r) q = true -> pages (st_os s) q = Some (fl_prot (rflight r) q)) as PR by (intros q; apply (gi_fl _ _ _ _ I1); left; reflexivity).
  set (f1 := mkFl (region_span r) (fun q => if in_pages (old + size) gd q then PNone else fl_prot (rflight r) q)).
  assert (ginv g (set_st_os o1 s) (opened r LL) (f1 :: flights rest)) as I2.
  { apply (gi_step g s (st_os s) o1 (opened r LL) (rflight r) f1 (flights rest)); auto; [|onw|..].
    - replace (set_st_os (st_os s) s) with s by (destruct s; reflexivity). exact I1.
    - intros q Hq. rewrite PO. rewrite P1 in Hq. rewrite P4. destruct ((old + size <=? q * 4096) && (q * 4096 <? old + size + gd)) eqn:Q; [lia|auto].
    - intros x Hx. rewrite P1 in Hx. unfold o1, mapped_os, zero_pages. cbn [mem set_mem map_pages set_pages next_sys]. rewrite P4. destruct ((old + size <=? page_of x * 4096) && (page_of x * 4096 <? old + size + gd)) eqn:Q; [lia|auto].
    - intros q Hq. rewrite PO. cbn [f1 fl_prot fl_in] in *. destruct (in_pages (old + size) gd q); [reflexivity|]. apply PR. exact Hq.
    - intros _ _ q H1 H2. cbn [f1 fl_in] in H2. change (fl_in (rflight r) q) with (region_span r q) in H1. congruence. }
  assert (ginv g (set_st_os o1 s) (opened r LL) (F :: rflight r1 :: flights rest)) as I3.
  { eapply ginv_refly; [exact I2| | |].
    - assert (forall q, fl_in f1 q = true -> pages o1 q = Some (fl_prot f1 q)) as G1 by (intros q; apply (gi_fl _ _ _ _ I2); left; reflexivity).
      change (fl_in f1) with (fl_in (rflight r)) in G1. intros f q [<-|[<-|Hf]] Hq.
      + rewrite P3 in Hq. cbn [set_st_os st_os]. rewrite G1 by (rewrite P1; lia). cbn [f1 F tail_of fl_prot]. rewrite P4. replace (_ && _) with false by lia. reflexivity.
      + rewrite P2 in Hq. cbn [set_st_os st_os]. rewrite G1 by (rewrite P1; lia). cbn [f1 rflight fl_prot]. f_equal. rewrite P4. cbn [r r1 rg_p rg_size]. rewrite !pg_iff by auto.
        destruct ((old + size <=? q * 4096) && (q * 4096 <? old + size + gd)) eqn:Q1; destruct ((old <=? q * 4096) && (q * 4096 <? old + size)) eqn:Q2; destruct ((old <=? q * 4096) && (q * 4096 <? old + sz0)) eqn:Q3; try reflexivity; lia.
      + apply (gi_fl _ _ _ _ I2); [right; auto|auto].
    - intros q. cbn [map cover]. change (fl_in f1) with (fl_in (rflight r)). unfold hit. rewrite P1, P2, P3. destruct (_ && _) eqn:Q1, (_ && _) eqn:Q2 in |- *, (_ && _) eqn:Q3 in |- *; lia.
    - intros q. cbn [map cover]. change (fl_in f1) with (fl_in (rflight r)). unfold hit. rewrite P1, P2, P3. destruct (_ && _) eqn:Q1, (_ && _) eqn:Q2 in |- *, (_ && _) eqn:Q3 in |- *; lia. }
  exists ((TF F :: E) ++ [TF (rflight r1); TO r]).
  edestruct (up_step g md bal s LL (set_st_os o1 s) (opened r LL) (Some old) None (E ++ [TL r]) (E ++ [TF F; TF (rflight r1); TO r]) rest [TL r] [] []) as [U' K'].
  + exact U.
  + apply (large_hstep g s (set_st_os o1 s) LL (opened r LL) (Some old) None _ I); [reflexivity|reflexivity|..].
    * apply os_in_chg. cbn [set_st_os st_os]. unfold o1. apply os_in_mapped. intros q Hq Hk. rewrite kept_drop in Hk. rewrite P4 in Hq.
      apply (user_away g s (opened r LL) (rflight r :: flights rest) (fl_in (rflight r)) q I1); [right; apply in_or_app; right; left; reflexivity|rewrite P1; lia|exact Hk].
    * intros q n gd0. cbn [opened rl_own r rg_p]. rewrite out_In. cbn [rg_p]. split; [intros [H N]; left; split; [auto|congruence]|intros [[H N]|[=]]; split; [auto|congruence]].
    * intros q [= <-]. apply in_map_iff. exists r. auto.
    * discriminate.
    * intros O0. split; discriminate.
  + constructor; reflexivity.
  + reflexivity.
  + rewrite flights_app, QE. exact I3.
  + rewrite opens_app, OE. cbn [opened rl_open]. pose proof (up_open _ _ _ _ _ _ U) as UO. rewrite EO in UO. cbn. constructor. exact UO.
  + intros x Hx0. cbn [opened rl_own] in Hx0. apply out_In in Hx0. apply (up_sized _ _ _ _ _ _ U). tauto.
  + intros a0 e0 Ha. apply (up_init _ _ _ _ _ _ U). apply in_or_app. left. apply in_or_app. left. apply in_app_iff in Ha. destruct Ha as [Ha|[[=]|[[=]|[[=]|[]]]]]; auto.
  + intros x Hx0 N. cbn [opened rl_own r rg_p]. apply out_In. split; [auto|congruence].
  + intros q [= <-]. exists sz0. right. exists gd. exact Hin.
  + split; [right|left; auto]. exists (TL r), old, sz0. auto.
  + rewrite bts_app, (known_bts E KE). apply Permutation_refl.
  + rewrite bts_app, (known_bts E KE). apply Permutation_refl.
  + intros f x Hf Hq. cbn [set_st_os st_os]. unfold o1, mapped_os, zero_pages. cbn [mem set_mem map_pages set_pages next_sys]. destruct (in_pages (old + size) gd (page_of x)) eqn:Q; [|reflexivity]. exfalso. rewrite P4 in Q.
    apply (flight_apart s (opened r LL) (rflight r) (flights rest) f (page_of x) I1 Hf Hq). rewrite P1. lia.
  + split.
    { exists (opened r LL). eapply up_perm; [|exact U']. apply Permutation_app_tail. change (E ++ [TF F; TF (rflight r1); TO r]) with (E ++ [TF F] ++ [TF (rflight r1); TO r]). rewrite app_assoc. apply Permutation_app_tail. symmetry. apply Permutation_cons_append. }
    split; [auto|]. split; [|reflexivity]. split.
    * intros x [[=]|Hx]. split; [auto|]. apply in_app_iff in Hx. destruct Hx as [Hx|[[=]|[[= <-]|[]]]]; [destruct (KE _ Hx) as (? & ? & [=])|].
      exists (rflight r1). split; [right; apply in_or_app; right; left; auto|]. rewrite P2. cbn [r rg_p]. pose proof (pg_of old). apply Z.mod_divide in kp; [|lia]. destruct kp as [z Ez]. lia.
    * split; intros i [[=]|Hx]; apply in_app_iff in Hx; (destruct Hx as [Hx|[[=]|[[=]|[]]]]; destruct (KE _ Hx) as (? & ? & [=])).
Qed.
Lemma resize_csafe tid r size old_size E a e : In (TI a e) E -> known E -> geo r -> 16384 < size < rg_size r -> size mod 4096 = 0 ->
  let r1 := mkRegion (rg_p r) size (rg_guard r) in
  csafe tid (act (on_ra (realloc_resize g (rg_p r) old_size size))) (E ++ [TF (rflight r1); TO r]) (fun _ r' => r' = E ++ [TL r1]).
Proof.
  intros Hi KE Ge Hsz Hm r1. apply (csafe_up g md sz tid _ _ a e); [apply in_or_app; auto|]. intros s rest bal LL T U O Es Ee. pose proof (up_inv _ _ _ _ _ _ U) as I. unfold on_ra. apply wp_zoom.
  destruct (known_quiet E KE) as [QE OE]. unfold quiet in QE. pose proof (up_open _ _ _ _ _ _ U) as UO.
  assert (flights ((E ++ [TF (rflight r1); TO r]) ++ rest) = rflight r1 :: flights rest) as EF by (rewrite !flights_app, QE; reflexivity).
  assert (opens ((E ++ [TF (rflight r1); TO r]) ++ rest) = r :: opens rest) as EO by (rewrite !opens_app, OE; reflexivity). rewrite EF in I. rewrite EO in UO.
  set (LL2 := mkRegs (rl_own LL) (r :: opens rest) (rl_strict LL) (rl_base LL)). assert (ginv g s LL2 (rflight r1 :: flights rest)) as I2 by (eapply ginv_regs; [exact I|auto|reflexivity|exact UO]).
  assert (In r (rl_all LL2)) as Hall by (apply in_or_app; right; left; auto).
  assert (geo r1) as Ge1. { destruct Ge as (A1 & A2 & A3 & A4 & A5 & A6). unfold geo, r1. cbn [rg_p rg_size rg_guard]. change (2 ^ 47) with 140737488355328 in *. lia. }
  unfold realloc_resize. apply wp_bind. apply (find_wp g s (ra_get s) LL2 (rflight r1 :: flights rest)); [rewrite ra_put_get; exact I2| |].
  2:{ intros N. elim N. apply in_map. exact Hall. }
  intros i sz2 gd2 Hin Hb N0 Hc. rewrite (entry_only _ _ _ _ _ _ I2 Hall Hin) in Hc. apply wp_bind.
  eapply (set_size_open_wp g s (ra_get s) (rl_own LL) (opens rest) _ _ r size (flights rest) i); [rewrite ra_put_get; exact I2|exact Hb|exact Hc|exact N0| |].
  { apply geo_reg; [exact Ge1|]. intros q Hq. apply (gi_fl _ _ _ _ I2); [left; auto|exact Hq]. }
  intros rs3 I3 E3 _. cbn [ra_get rs_os] in E3. fold r1 in I3. set (LL' := mkRegs (r1 :: rl_own LL) (opens rest) (rl_strict LL) (rl_base LL)) in *.
  assert (forall rs4, rs_os rs4 = st_os s -> ginv g (ra_put rs4 s) LL' (flights rest) ->
    exists r', (exists LL', up bal (ra_put rs4 s) LL' (r' ++ rest)) /\ keep rest s (ra_put rs4 s) /\ mine tid r' /\ r' = E ++ [TL r1]) as DONE.
  { intros rs4 E4 I4. exists (E ++ [TL r1]).
    edestruct (up_step g md bal s LL (ra_put rs4 s) LL' None (Some (rg_p r1, rg_size r1)) (E ++ [TF (rflight r1); TO r]) (E ++ [TL r1]) rest [] [TL r1] []) as [U' K'].
    + exact U.
    + apply (large_hstep g s (ra_put rs4 s) LL LL' None (Some r1) _ I); [reflexivity|reflexivity|..].
      * cbn [ra_put st_os set_st_os set_st_ra]. rewrite E4. apply os_chg_refl.
      * intros p n gd. cbn [LL' rl_own]. split; [intros [H|H]; [right; rewrite H; reflexivity|left; split; [auto|discriminate]]|intros [[H _]|H]; [right; auto|left; congruence]].
      * discriminate.
      * intros r0 [= <-]. split.
        -- assert (In r1 (rl_own LL')) as Hr1 by (left; auto). destruct (region_p g _ _ _ I4 _ Hr1) as (Bp & _). exact (region_not_slab g (ra_put rs4 s) LL' (flights rest) I4 r1 Hr1 (rg_p r1) ltac:(lia)).
        -- intros Hp. pose proof (gi_nd _ _ _ _ I2) as ND. unfold rl_all in ND. cbn [LL2 rl_own rl_open] in ND. rewrite map_app in ND. apply NoDup_app_inv in ND. destruct ND as (_ & _ & ND). elim (ND _ Hp). left. reflexivity.
      * intros O0. exfalso. rewrite O0 in UO. apply Permutation_nil in UO. discriminate.
    + constructor; reflexivity.
    + reflexivity.
    + rewrite flights_app, QE. exact I4.
    + rewrite opens_app, OE. apply Permutation_refl.
    + intros x [<-|Hx]; [intros _; exact Hm|apply (up_sized _ _ _ _ _ _ U), Hx].
    + intros a0 e0 Ha. apply (up_init _ _ _ _ _ _ U). apply in_or_app. left. apply in_or_app. left. apply in_app_iff in Ha. destruct Ha as [Ha|[[=]|[]]]; auto.
    + intros x Hx _. right. exact Hx.
    + discriminate.
    + split; [left; auto|right]. exists (TL r1), (rg_p r1), (rg_size r1). repeat (split; [reflexivity|]). left. reflexivity.
    + rewrite bts_app, (known_bts E KE). apply Permutation_refl.
    + rewrite bts_app, (known_bts E KE). apply Permutation_refl.
    + intros f x _ _. cbn [ra_put st_os set_st_os set_st_ra]. rewrite E4. reflexivity.
    + split; [eauto|]. split; [auto|]. split; [|reflexivity]. apply mine_plain. apply plain_app; [apply plain_known, KE|intros x [<-|[]]; exact Logic.I]. }
  unfold stats_large_deallocate. destruct (STATS g).
  - apply wp_modify. apply (DONE (set_rs_ra _ rs3)); [exact E3|]. eapply gi_ra_misc; [exact I3|reflexivity..|]. apply (rq_rng _ _ (gi_rq _ _ _ _ I3)).
  - apply wp_ret. apply (DONE rs3); auto.
Qed.
Lemma known_in E : known E -> E <> [] -> exists a e, In (TI a e) E.
Proof. intros K N. destruct E as [|t E]; [congruence|]. destruct (K t ltac:(left; auto)) as (a & e & ->). exists a, e. left. auto. Qed.
Lemma ends_known t p n E : known E -> lent t p n -> ends [t] (E ++ [t]).
Proof.
  intros KE LT. eapply ends_perm; [apply Permutation_app_comm|]. apply known_ends; [exact KE|]. destruct LT as [->|(gd & ->)]; (split; [reflexivity|]; split; [reflexivity|]; split; [intros i [[=]|[]]|apply Permutation_refl]).
Qed.
Lemma shrink_csafe tid r size n E : known E -> E <> [] -> geo r -> rg_size r mod 4096 = 0 -> max_slab_size_class g < size < rg_size r -> size mod 4096 = 0 -> n <= size ->
  csafe tid (realloc_shrink g (rg_p r) (rg_size r) (rg_guard r) size) (E ++ [TL r]) (realloced (TL r) n).
Proof.
  intros KE NE Ge Szm Hsz Hm Hn. destruct (known_in E KE NE) as (a & e & Hi). destruct (known_quiet E KE) as [QE OE]. pose proof (max_slab_bounds g) as MB. pose proof Ge as (A1 & A2 & A3 & A4 & A5 & A6). change (2 ^ 47) with 140737488355328 in *.
  assert (lent (TL r) (rg_p r) (rg_size r)) as LT by (right; exists (rg_guard r); destruct r; reflexivity).
  unfold realloc_shrink. rewrite (w64_small (rg_p r + size)) by (change (2 ^ 64) with 18446744073709551616; lia).
  rewrite (w64_small (rg_p r + size + rg_guard r)), (w64_small (rg_size r - size)) by (change (2 ^ 64) with 18446744073709551616; lia).
  eapply csafe_bind; [apply (cut_csafe tid r size E a e); auto; lia|]. intros [|] r' ->; [apply (ends_known _ _ _ _ KE LT)|].
  set (r1 := mkRegion (rg_p r) size (rg_guard r)). set (F := [TF (rflight r1); TO r]).
  assert (covd F /\ ~ In (TP tid) F /\ (forall t, ~ In (TP t) F) /\ forall p, ~ In (TG p) F) as (F1 & F2 & F3 & F4).
  { split; [|split; [intros [[=]|[[=]|[]]]|split; intros t [[=]|[[=]|[]]]]]. intros x [[=]|[[= <-]|[]]]. split; [auto|]. exists (rflight r1). split; [left; auto|]. cbn [rflight fl_in]. apply (span_p r1). unfold geo, r1. cbn [rg_p rg_size rg_guard]. change (2 ^ 47) with 140737488355328. lia. }
  eapply csafe_bind with (Q := fun _ r' => r' = E ++ F).
  { eapply csafe_mono; [apply (csafe_frame g md sz tid F _ F1 F2 F3 F4 (TF (tail_of r size) :: E) (fun _ r' => r' = E))|intros _ r' (r0 & -> & ->); reflexivity].
      apply (quarantine_csafe g md sz tid (tail_of r size) _ _ 0 E a e); auto; try (change (2 ^ 47) with 140737488355328; lia); [apply known_mine, KE|].
      intros q. cbn [tail_of fl_in]. f_equal; lia. }
  intros _ r' ->. eapply csafe_bind; [apply (resize_csafe tid r size (rg_size r) E a e); auto; lia|]. intros _ r' ->. cbn. exists (TL r1), size.
  split; [apply (ends_known _ (rg_p r1) size _ KE); right; exists (rg_guard r); reflexivity|]. split; [right; exists (rg_guard r); reflexivity|]. split; [auto|]. intros x [= <-]. cbn. lia.
Qed.

(** ** moving by mremap *)
Lemma delete_csafe tid r old_size E a e : In (TI a e) E -> quiet E -> opens E = [] -> mine tid E -> (forall x, In x E -> plain [x]) ->
  csafe tid (act (on_ra (realloc_delete g (rg_p r) old_size))) (E ++ [TL r]) (fun _ r' => r' = TF (rflight r) :: E /\ geo r).
Proof.
  intros Hi QE OE ME PE. unfold quiet in QE. apply (csafe_up g md sz tid _ _ a e); [apply in_or_app; auto|]. intros s rest bal LL T U O Es Ee. pose proof (up_inv _ _ _ _ _ _ U) as I. unfold on_ra. apply wp_zoom.
  assert (flights ((E ++ [TL r]) ++ rest) = flights rest) as EF by (rewrite !flights_app, QE; reflexivity). rewrite EF in I.
  assert (opens ((E ++ [TL r]) ++ rest) = opens rest) as EO by (rewrite !opens_app, OE; reflexivity).
  destruct (up_region bal s LL _ r U ltac:(apply in_or_app; left; apply in_or_app; right; left; auto)) as (Hr & Ge & Sz).
  pose proof (ginv_open g s LL (flights rest) r I Hr) as I2. assert (In r (rl_all (opened r LL))) as Hall by (unfold rl_all; apply in_or_app; right; left; reflexivity).
  unfold realloc_delete. apply wp_bind. apply (find_wp g s (ra_get s) (opened r LL) (rflight r :: flights rest)); [rewrite ra_put_get; exact I2| |].
  2:{ intros N. elim N. apply in_map. exact Hall. }
  intros i sz2 gd2 Hin Hb N0 Hc. rewrite (entry_only _ _ _ _ _ _ I2 Hall Hin) in Hc. apply wp_bind.
  eapply (delete_open_wp g s (ra_get s) (out (rg_p r) (rl_own LL)) (rl_open LL) _ _ r (rflight r :: flights rest) i); [rewrite ra_put_get; exact I2|exact Hb|exact Hc|exact N0|].
  intros rs3 I3 E3 _ _. cbn [ra_get rs_os] in E3. change (mkRegs (out (rg_p r) (rl_own LL)) (rl_open LL) (rl_strict LL) (rl_base LL)) with (drop (rg_p r) LL) in I3. 
  assert (forall rs4, rs_os rs4 = st_os s -> ginv g (ra_put rs4 s) (drop (rg_p r) LL) (rflight r :: flights rest) ->
    exists r', (exists LL', up bal (ra_put rs4 s) LL' (r' ++ rest)) /\ keep rest s (ra_put rs4 s) /\ mine tid r' /\ r' = TF (rflight r) :: E /\ geo r) as DONE.
  { intros rs4 E4 I4. exists (TF (rflight r) :: E).
    edestruct (up_step g md bal s LL (ra_put rs4 s) (drop (rg_p r) LL) (Some (rg_p r)) None (E ++ [TL r]) (TF (rflight r) :: E) rest [TL r] [] (bts E)) as [U' K'].
    + exact U.
    + apply (large_hstep g s (ra_put rs4 s) LL (drop (rg_p r) LL) (Some (rg_p r)) None _ I); [reflexivity|reflexivity|..].
      * cbn [ra_put st_os set_st_os set_st_ra]. rewrite E4. apply os_chg_refl.
      * intros p n gd. cbn [drop rl_own]. rewrite out_In. cbn [rg_p]. split; [intros [H N]; left; split; [auto|congruence]|intros [[H N]|[=]]; split; [auto|congruence]].
      * intros q [= <-]. apply in_map. auto.
      * discriminate.
      * intros O0. split; discriminate.
    + constructor; reflexivity.
    + reflexivity.
    + cbn [flights flat_map app]. fold (flights E). rewrite QE. exact I4.
    + cbn [opens flat_map app]. fold (opens E). rewrite OE. cbn [drop rl_open]. pose proof (up_open _ _ _ _ _ _ U) as UO. rewrite EO in UO.
      replace (out (rg_p r) (rl_open LL)) with (rl_open LL); [exact UO|]. symmetry. apply out_absent. pose proof (gi_nd _ _ _ _ I) as ND. unfold rl_all in ND. rewrite map_app in ND. apply NoDup_app_inv in ND. destruct ND as (_ & _ & ND). intros H. apply (ND (rg_p r)); [apply in_map, Hr|exact H].
    + intros x Hx0. cbn [drop rl_own] in Hx0. apply out_In in Hx0. apply (up_sized _ _ _ _ _ _ U). tauto.
    + intros a0 e0 [[=]|Ha]. apply (up_init _ _ _ _ _ _ U). apply in_or_app. left. apply in_or_app. auto.
    + intros x Hx N. cbn [drop rl_own]. apply out_In. split; [auto|congruence].
    + intros q [= <-]. exists (rg_size r). right. exists (rg_guard r). destruct r; exact Hr.
    + split; [right|left; auto]. exists (TL r), (rg_p r), (rg_size r). auto.
    + rewrite bts_app. apply Permutation_app_comm.
    + rewrite bts_TF. apply Permutation_refl.
    + intros f x _ _. cbn [ra_put st_os set_st_os set_st_ra]. rewrite E4. reflexivity.
    + split; [eauto|]. split; [auto|]. split; [apply mine_TF, ME|auto]. }
  unfold stats_large_deallocate. destruct (STATS g).
  - apply wp_modify. apply (DONE (set_rs_ra _ rs3)); [exact E3|]. eapply gi_ra_misc; [exact I3|reflexivity..|]. apply (rq_rng _ _ (gi_rq _ _ _ _ I3)).
  - apply wp_ret. apply (DONE rs3); auto.
Qed.
Definition guards (r : region) : fl := mkFl (fun q => region_span r q && negb (in_pages (rg_p r) (rg_size r) q)) (fun _ => PNone).
Lemma keep_trans md rest s1 s2 s3 : P_Conc1.keep md rest s1 s2 -> P_Conc1.keep md rest s2 s3 -> P_Conc1.keep md rest s1 s3.
Proof.
  intros [K1 C1] [K2 C2]. split; [intros Em p n x Hp Hx; rewrite (K2 Em p n x Hp Hx); apply (K1 Em p n x Hp Hx)|].
  intros f x Hf Hq. rewrite (C2 f x Hf Hq). apply (C1 f x Hf Hq).
Qed.
Lemma remap_csafe tid r r2 size E a e : In (TI a e) E -> quiet E -> mine tid E -> In (TL r2) E -> geo r -> rg_size r mod 4096 = 0 -> size <= rg_size r2 -> 16384 < rg_size r2 ->
  csafe tid (act (on_os (memory_remap_fixed (rg_p r) (rg_size r) (rg_p r2) size))) (TF (rflight r) :: E)
    (fun b r' => if b : bool then r' = TF (rflight r) :: E else r' = TF (guards r) :: E).
Proof.
  intros Hi QE ME H2 Ge Szm Hs Hl. apply (csafe_up g md sz tid _ _ a e); [right; auto|]. intros s rest bal LL T U O Es Ee. unfold on_os. apply wp_zoom. pose proof (up_inv _ _ _ _ _ _ U) as I.
  destruct (up_region bal s LL _ r2 U ltac:(right; apply in_or_app; auto)) as (Hr2 & Ge2 & Mm). specialize (Mm Hl). pose proof (gi_reg _ _ _ _ I r2 Hr2) as K2.
  pose proof Ge as (A1 & A2 & A3 & A4 & A5 & A6). pose proof Ge2 as (B1 & B2 & B3 & B4 & B5 & B6). change (2 ^ 47) with 140737488355328 in *.
  set (R := TF (rflight r) :: E). assert (held R (st_os s)) as HR. { intros f q Hf. apply (gi_fl _ _ _ _ I). change (In f (flights (R ++ rest))). rewrite flights_app. apply in_or_app. auto. }
  eapply wp_mono; [apply memory_remap_fixed_wp| |apply sys_e]. intros [|] o5.
  - intros ->. exists R. destruct (up_os g md bal s LL R R rest (failed_os (st_os s)) U) as [U' K'].
    + apply os_failed; [exact HR|]. intros q. unfold R. cbn [flights flat_map app]. fold (flights E). unfold quiet in QE. rewrite QE. apply cover1.
    + split; [eauto|]. split; [auto|]. split; [apply mine_TF, ME|reflexivity].
  - intros (-> & _). set (o := st_os s) in *. set (oP := set_mem (mem (moved_os (rg_p r) (rg_size r) (rg_p r2) size o)) o).
    assert (forall q, in_pages (rg_p r2) size q = true -> in_pages (rg_p r2) (rg_size r2) q = true) as SI by (intros q; apply in_pages_sub; lia).
    assert (forall x, mem oP x <> mem o x -> pages o (page_of x) = Some PRW) as D1.
    { intros x. cbn [oP moved_os set_mem mem]. destruct (in_pages (rg_p r2) size (page_of x)) eqn:Q; [|intros H; elim H; reflexivity]. intros _. apply (rk_rw _ _ K2). auto. }
    assert (forall x, mem oP x <> mem o x -> exists p n, In (p, n) (blks R) /\ p <= x < p + n) as D2.
    { intros x. cbn [oP moved_os set_mem mem]. destruct (in_pages (rg_p r2) size (page_of x)) eqn:Q; [|intros H; elim H; reflexivity]. intros _. exists (rg_p r2), (rg_size r2). split.
      - apply in_blks. exists (TL r2). split; [right; exact H2|left; reflexivity].
      - apply in_pages_addr; auto. }
    assert (up bal (set_st_os oP s) LL (R ++ rest)) as UP.
    { apply up_poke; [exact U|split; cbn; auto|reflexivity|exact D1|]. intros _ x Hx. destruct (D2 x Hx) as (p & n & Hb & Hp). exists p, n. split; [rewrite blks_app; apply in_or_app; auto|auto]. }
    assert (keep rest s (set_st_os oP s)) as KP by (eapply keep_poke; [reflexivity|exact U|exact D2]).
    set (o5 := moved_os (rg_p r) (rg_size r) (rg_p r2) size o).
    assert (forall q, pages o5 q = if in_pages (rg_p r2) size q then Some PRW else if in_pages (rg_p r) (rg_size r) q then None else pages o q) as P5.
    { intros q. unfold o5, moved_os. cbn [map_pages set_pages set_mem next_sys pages mem]. reflexivity. }
    assert (forall q, in_pages (rg_p r2) size q = true -> region_span r q = false) as AW.
    { intros q Hq. destruct (region_span r q) eqn:Q; [|reflexivity]. exfalso. eapply (user_away g s LL _ (fl_in (rflight r)) q I).
      - right. apply in_or_app. right. left. reflexivity.
      - exact Q.
      - right. exists r2. split; [exact Hr2|]. unfold region_span. eapply in_pages_sub; [| |exact (SI q Hq)]; lia. }
    destruct (up_os g md bal (set_st_os oP s) LL R (TF (guards r) :: E) rest o5 UP) as [U' K'].
    + apply os_change; [exact QE|intros q; cbn [guards fl_in rflight]; destruct (region_span r q); auto|..].
      * constructor; cbn [oP o5 moved_os map_pages set_pages set_mem next_sys pages mem sysq sysn entq entn fuel set_st_os st_os]; auto.
        intros q Hq. destruct (in_pages (rg_p r2) size q) eqn:Q1; [symmetry; apply (rk_rw _ _ K2); auto|].
        destruct (in_pages (rg_p r) (rg_size r) q) eqn:Q2; [|reflexivity]. elim Hq. cbn [rflight fl_in]. unfold region_span. eapply in_pages_sub; [| |exact Q2]; lia.
      * intros q Hq. cbn [guards fl_in fl_prot] in Hq. rewrite P5. destruct (in_pages (rg_p r2) size q) eqn:Q1; [rewrite (AW q Q1) in Hq; discriminate|].
        destruct (in_pages (rg_p r) (rg_size r) q) eqn:Q2; [rewrite andb_false_r in Hq; discriminate|]. cbn [guards fl_prot].
        rewrite (HR (rflight r) q); [cbn [rflight fl_prot]; rewrite Q2; reflexivity|left; reflexivity|]. cbn [rflight fl_in]. destruct (region_span r q); [reflexivity|discriminate].
    + exists (TF (guards r) :: E). split; [eauto|]. split; [exact (keep_trans _ _ _ _ _ KP K')|]. split; [apply mine_TF, ME|reflexivity].
Qed.
Lemma unmap_csafe tid x n f f' E a e : In (TI a e) E -> quiet E -> mine tid E -> (forall q, in_pages x n q = true -> fl_in f q = true) ->
  (forall q, fl_in f' q = fl_in f q && negb (in_pages x n q)) -> fl_prot f' = fl_prot f ->
  csafe tid (act (on_os (memory_unmap x n))) (TF f :: E) (fun b r' => r' = TF (if b : bool then f else f') :: E).
Proof.
  intros Hi QE ME Hin F1 F2. eapply os_csafe; [right; exact Hi|]. intros o H C. eapply wp_mono; [apply memory_unmap_wp| |auto]. intros [|] o1; cbn beta iota.
  - intros ->. exists (TF f :: E). split; [apply os_failed; auto|]. split; [apply mine_TF, ME|reflexivity].
  - intros (-> & _). exists (TF f' :: E). split; [|split; [apply mine_TF, ME|reflexivity]]. apply os_change; [exact QE|intros q; rewrite F1; destruct (fl_in f q); auto| |].
    + apply os_chg_unmapped. exact Hin.
    + intros q Hq. rewrite F1 in Hq. rewrite F2. unfold unmapped_os. cbn [map_pages set_pages next_sys pages]. destruct (in_pages x n q) eqn:Q; [rewrite andb_false_r in Hq; discriminate|]. apply (H f q); [left; reflexivity|]. destruct (fl_in f q); auto.
Qed.
Lemma unmap_last tid x n f E a e : In (TI a e) E -> quiet E -> mine tid E -> (forall q, in_pages x n q = true -> fl_in f q = true) ->
  csafe tid (act (on_os (memory_unmap x n))) (TF f :: E) (fun _ r' => r' = E).
Proof.
  intros Hi QE ME Hin. eapply os_csafe; [right; exact Hi|]. intros o H C. eapply wp_mono; [apply memory_unmap_wp| |auto]. intros b o1 Ho. exists E. split; [|split; [exact ME|reflexivity]]. apply os_lose; [exact QE|].
  destruct b; [subst o1; apply os_chg_failed|destruct Ho as (-> & _); apply os_chg_unmapped; exact Hin].
Qed.
Lemma mremap_csafe tid r size n E : known E -> E <> [] -> geo r -> rg_size r mod 4096 = 0 -> max_slab_size_class g < size < 2 ^ 64 -> 0 < rg_size r -> n <= size ->
  csafe tid (realloc_mremap g (rg_p r) (rg_size r) (rg_guard r) size) (E ++ [TL r]) (realloced (TL r) n).
Proof.
  intros KE NE Ge Szm Hsz Hs0 Hn. destruct (known_in E KE NE) as (a & e & Hi). destruct (known_quiet E KE) as [QE OE]. pose proof (max_slab_bounds g) as MB. pose proof Ge as (A1 & A2 & A3 & A4 & A5 & A6). change (2 ^ 47) with 140737488355328 in *.
  assert (lent (TL r) (rg_p r) (rg_size r)) as LT by (right; exists (rg_guard r); destruct r; reflexivity).
  unfold realloc_mremap. eapply csafe_bind.
  { apply (allocate_large_csafe g md sz tid size (E ++ [TL r]) a e (or_introl eq_refl)); [apply in_or_app; auto|..].
    - unfold quiet in *. rewrite flights_app, QE. reflexivity.
    - rewrite opens_app, OE. reflexivity.
    - apply mine_plain. apply plain_app; [apply plain_known, KE|intros x [<-|[]]; exact Logic.I].
    - lia. }
  intros [new|] r'; cbn beta iota; [|intros ->; apply (ends_known _ _ _ _ KE LT)]. intros (t & -> & Ht & N0). unfold got_large in Ht. destruct Ht as (gd2 & ->).
  destruct (large_any g size ltac:(lia)) as (L1 & L2 & L3). specialize (L2 N0). set (m := get_large_size_class g size) in *. set (r2 := mkRegion new m gd2).
  set (E2 := TL r2 :: E). change (TL r2 :: E ++ [TL r]) with (E2 ++ [TL r]).
  assert (In (TI a e) E2) as Hi2 by (right; exact Hi). assert (quiet E2) as QE2 by exact QE. assert (opens E2 = []) as OE2 by exact OE.
  assert (plain E2) as PE2 by (intros x [<-|Hx]; [exact Logic.I|apply (plain_known E KE x Hx)]). assert (mine tid E2) as ME2 by (apply mine_plain, PE2).
  assert (In (TL r2) E2) as H2 by (left; reflexivity).
  assert (realloced (TL r) n (Some new) E2) as FIN.
  { cbn. exists (TL r2), m. split; [|split; [right; exists gd2; reflexivity|split; [lia|intros x [= <-]; cbn; lia]]].
    eapply ends_perm; [symmetry; apply Permutation_cons_append|]. apply (ends_known _ new m _ KE). right. exists gd2. reflexivity. }
  eapply csafe_bind; [apply (delete_csafe tid r (rg_size r) E2 a e); auto; intros x Hx y [<-|[]]; apply (PE2 x Hx)|]. intros _ r' (-> & _).
  eapply csafe_bind; [apply (remap_csafe tid r r2 size E2 a e); auto; cbn [r2 rg_size]; lia|]. intros [|] r' ->.
  - eapply csafe_bind with (Q := fun _ r' => r' = E2); [|intros _ r' ->; exact FIN]. eapply csafe_bind.
    + apply (poke_csafe g md sz tid _ _ a e new m (fun _ r' => r' = TF (rflight r) :: E2) eq_refl); [right; exact Hi2|apply mine_TF, ME2|left; reflexivity|].
      intros o H B. assert (forall x, new <= x < new + m -> pages o (page_of x) = Some PRW) as RW by (intros x Hx; apply (B new m x); [left; reflexivity|exact Hx]).
      apply mem_copy_wp.
      * intros Hc. split; apply rw_all; auto; intros x Hx; [rewrite RW by lia; reflexivity|]. rewrite (H (rflight r) (page_of x)); [|left; reflexivity|].
        -- cbn [rflight fl_prot]. rewrite (P_OS.in_pages_addr (rg_p r) (rg_size r) x) by lia. reflexivity.
        -- cbn [rflight fl_in]. unfold region_span. eapply in_pages_sub; [| |apply (P_OS.in_pages_addr (rg_p r) (rg_size r) x)]; lia.
      * split; [|reflexivity]. destruct (poke_copy new (rg_p r) (Z.min size (rg_size r)) o) as [x1 x2 x3 x4]; [intros x Hx; apply RW; lia|]. constructor; [exact x1|exact x2|intros x Hx; apply x3; lia|exact x4].
    + intros _ r' ->. apply (deallocate_pages_csafe g md sz tid (rflight r) _ _ _ E2 a e); auto; change (2 ^ 48) with 281474976710656; try lia.
  - assert (page_align (rg_size r) = rg_size r) as PA. { rewrite page_align_small by lia. apply Z.mod_divide in Szm; [|lia]. destruct Szm as [z ->]. replace (z * 4096 + 4095) with (4095 + z * 4096) by lia. rewrite Z.div_add by lia. change (4095 / 4096) with 0. lia. }
    rewrite PA, (w64_small (rg_p r - rg_guard r)), (w64_small (rg_p r + rg_size r)) by (change (2 ^ 64) with 18446744073709551616; lia).
    assert ((rg_p r - rg_guard r) mod 4096 = 0) as M6 by (apply mod_sub2; auto). assert ((rg_p r + rg_size r) mod 4096 = 0) as M8 by (apply mod_add2; auto). assert ((rg_size r + 2 * rg_guard r) mod 4096 = 0) as M7 by (replace (2 * rg_guard r) with (rg_guard r + rg_guard r) by lia; apply mod_add2; auto; apply mod_add2; auto).
    assert (forall q, fl_in (guards r) q = ((rg_p r - rg_guard r <=? q * 4096) && (q * 4096 <? rg_p r)) || ((rg_p r + rg_size r <=? q * 4096) && (q * 4096 <? rg_p r + rg_size r + rg_guard r))) as P1.
    { intros q. cbn [guards fl_in]. unfold region_span. rewrite !pg_iff by auto. lia. }
    set (f' := mkFl (fun q => fl_in (guards r) q && negb (in_pages (rg_p r - rg_guard r) (rg_guard r) q)) (fl_prot (guards r))).
    eapply csafe_bind with (Q := fun _ r' => r' = E2); [|intros _ r' ->; exact FIN]. eapply csafe_bind; [apply (unmap_csafe tid _ _ (guards r) f' E2 a e); auto|].
    { intros q Hq. rewrite pg_iff in Hq by auto. rewrite P1. lia. }
    intros b r' ->. eapply csafe_bind; [apply (unmap_last tid _ _ (if b then guards r else f') E2 a e); auto|intros _ r' ->; reflexivity].
    intros q Hq. rewrite pg_iff in Hq by auto. destruct b; [rewrite P1; lia|]. cbn [f' fl_in]. rewrite P1, pg_iff by auto. lia.
Qed.

(** ** realloc of a live block *)
Lemma slab_old s LL X old n0 : ginv g s LL X -> block g s LL old n0 -> in_slab_region old s = true ->
  let v := class_size g (snd (slab_size_class g s old)) in 0 <= v <= max_slab_size_class g /\ n0 = (if v =? 0 then 0 else v - canary_size g) /\ (v <> 0 -> 16 <= v).
Proof.
  intros I B L. destruct (slab_block' g s LL X old n0 I L B) as (a & k & i & j & SB & ->). destruct (sblk_loc g s LL X I _ _ _ _ _ SB) as [_ E]. rewrite E. cbn [snd].
  pose proof (class_facts_all g k ltac:(apply SB)) as []. rewrite cf_size. unfold usable_of. destruct (Z.eqb_spec k 0); cbv zeta.
  - pose proof (max_slab_bounds g). cbn. lia.
  - replace (slot_size g k =? 0) with false by lia. lia.
Qed.
Lemma realloc_csafe tid old n t n0 : 0 <= n < 2 ^ 64 -> 0 < old < 2 ^ 64 -> lent t old n0 -> fit g t -> csafe tid (h_realloc g tid old n) [t] (realloced t n).
Proof.
  intros Hn Ho LT FT. pose proof (max_slab_bounds g) as MB. pose proof (canary_le g) as CB. destruct (adjust_spec g n Hn) as (A1 & A2 & A3).
  assert (P_Conc2.loan md t old [t]) as LO by (split; [reflexivity|exists n0; exact LT]). pose proof (loan_mine true sz t old [t] tid LO) as ME.
  unfold h_realloc. set (v := adjust_size_for_canary g n) in *. replace (old =? 0) with false by lia.
  set (size := if max_slab_size_class g <? v then get_large_size_class g v else v).
  destruct (large_any g v A1) as (G1 & G2 & G3).
  assert (ends [t] [t]) as ES by (apply (ends_known t old n0 []); [intros x []|exact LT]).
  destruct ((max_slab_size_class g <? v) && (size =? 0)) eqn:Q0.
  { eapply csafe_bind; [apply errno_csafe, ME|]. intros _ r' ->. exact ES. }
  assert (0 <= size < 2 ^ 64) as Hsz by (unfold size; destruct (max_slab_size_class g <? v); lia).
  assert (max_slab_size_class g < v -> v <= size /\ size mod 4096 = 0 /\ max_slab_size_class g < size) as SL.
  { intros H. unfold size in *. replace (max_slab_size_class g <? v) with true in * by lia. cbn [andb] in Q0. assert (v <= get_large_size_class g v) by (apply G2; lia). split; [auto|]. split; [apply G3; lia|lia]. }
  assert (v <= max_slab_size_class g -> size = v) as SS. { intros H. unfold size. replace (max_slab_size_class g <? v) with false by lia. reflexivity. }
  assert (v <= size) as Vs by (destruct (Z_le_gt_dec v (max_slab_size_class g)); [rewrite SS by auto; lia|apply SL; lia]). clearbody size.
  assert (n <= (if (0 <? size) && (size <=? max_slab_size_class g) then size - canary_size g else size)) as NS.
  { destruct ((0 <? n) && (n <=? max_slab_size_class g)) eqn:Q1; destruct ((0 <? size) && (size <=? max_slab_size_class g)) eqn:Q2; lia. }
  assert (forall m, (max_slab_size_class g < size -> m <> 0) -> m = grant g size -> n <= m) as GM.
  { intros m NZ ->. pose proof (grant_min g size Hsz NZ) as GM. destruct (Z.eq_dec size 0) as [->|N]; [|destruct (size <=? max_slab_size_class g) eqn:Q1; destruct (0 <? size) eqn:Q2; cbn [andb] in NS; lia].
    assert (n <= 0) by (cbn [Z.ltb Z.compare andb] in NS; exact NS). unfold grant. replace (0 <=? max_slab_size_class g) with true by lia. change (si_class (get_size_info 0)) with 0. cbn. lia. }
  eapply csafe_bind; [apply (get_loan g true sz tid old t [t]); auto; lia|]. intros s r' (E & -> & KE & NE & H). specialize (NE eq_refl). cbn beta. 
  assert (owns t old n0) as OT by (destruct LT as [->|(gd & ->)]; [left; auto|right; eauto]).
  assert (forall E', known E' -> n <= n0 -> realloced t n (Some old) (E' ++ [t])) as SAME.
  { intros E' KE' H'. exists t, n0. split; [apply (ends_known _ _ _ _ KE' LT)|]. auto. }
  destruct (in_slab_region old s) eqn:L.
  - destruct H as (n1 & EE & Et & H). destruct (H eq_refl) as (_ & bal & LL & rest & U). cbn in Et. injection Et as ->. pose proof (up_inv _ _ _ _ _ _ U) as I.
    assert (n1 = n0) as -> by (destruct LT as [[= ->]|(gd & [=])]; reflexivity).
    pose proof (up_tok g true bal s LL _ (TS old n0) eq_refl U ltac:(left; auto)) as K. destruct K as [_ K].
    destruct (slab_old s LL _ old n0 I K L) as (V1 & V2 & V3). unfold slab_usable_size. set (w := class_size g (snd (slab_size_class g s old))) in *.
    destruct ((size <=? max_slab_size_class g) && (si_size (get_size_info size) =? w)) eqn:Q2.
    + apply SAME; [exact KE|]. destruct (gsi_spec g size ltac:(lia)) as (_ & K2 & _).
      destruct (Z.eqb_spec w 0) as [W|W]; destruct ((0 <? size) && (size <=? max_slab_size_class g)) eqn:Q1; lia.
    + apply (copy_csafe tid old w size n (TS old n0) n0 E); auto; try lia. left. split; [auto|]. split; [|auto]. exists (st_start s), (st_end s). split; [rewrite EE; left; auto|exact L].
  - destruct H as (n1 & gd & Et). injection Et as ->. assert (n1 = n0) as -> by (destruct LT as [[=]|(gd' & [= -> ->])]; reflexivity). set (r := mkRegion old n0 gd) in *.
    pose proof (FT r eq_refl) as BN0. cbn in BN0.
    eapply csafe_bind.
    { apply (enforce_csafe g true sz tid (E ++ [TL r])); [apply mine_plain, plain_app; [apply plain_known, KE|intros x [<-|[]]; exact Logic.I]|]. intros _. destruct (known_in E KE NE) as (a & e & Hi). exists a, e. apply in_or_app. auto. }
    intros _ r' (a & e & ->). set (E' := TI a e :: E). change (TI a e :: E ++ [TL r]) with (E' ++ [TL r]).
    assert (known E') as KE' by (intros x [<-|Hx]; eauto). assert (E' <> []) as NE' by discriminate.
    eapply csafe_bind; [apply (find_csafe tid r E' a e); [left; auto|apply plain_known, KE']|]. intros x r' (-> & -> & Ge & Szm). cbn [r rg_size rg_guard] in *. fold r.
    assert (16384 < n0) as Hn0 by lia. specialize (Szm Hn0).
    assert (forall os, os = n0 -> csafe tid (realloc_copy g tid old os size) (E' ++ [TL r]) (realloced (TL r) n)) as COPY.
    { intros os ->. apply (copy_csafe tid old n0 size n (TL r) n0 E'); auto; try lia. right. exists gd. auto. }
    destruct (Z.eqb_spec n0 size) as [En|En]. { apply SAME; [exact KE'|]. subst size. lia. }
    destruct (Z.ltb_spec (max_slab_size_class g) size) as [Lg|Sm]; [|apply COPY; auto].
    assert (size mod 4096 = 0) as Sm4 by (destruct (Z_le_gt_dec v (max_slab_size_class g)) as [V|V]; [rewrite SS in Lg by auto; lia|apply SL; lia]).
    destruct (Z.ltb_spec size n0) as [Sh|Gr].
    + apply (shrink_csafe tid r size n E'); auto. lia.
    + destruct (MREMAP_MOVE_THRESHOLD <=? Z.min size n0) eqn:Q3; [|apply COPY; auto]. apply (mremap_csafe tid r size n E'); auto; cbn [r rg_size]; lia.
Qed.
Lemma realloc_new tid n : 0 <= n < 2 ^ 64 -> csafe tid (h_realloc g tid 0 n) [] (given g md n).
Proof. intros Hn. exact (malloc_csafe g true sz tid n (or_introl eq_refl) Hn). Qed.
End M.
