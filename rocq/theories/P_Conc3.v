(** Interleaved calls: large blocks. *)
From Coq Require Import String ZArith List Bool Lia ZifyBool Permutation.
From Verif Require Import M_Base M_Config M_SizeClass M_Libdivide M_OS M_Random M_Slab M_Region M_Api M_Hist S_Heap
  P_Base P_Count P_SizeClass P_Libdivide P_Random P_Bitmap P_Bitmap2 P_OS P_Links P_Slab1 P_Slab2 P_Slab3 P_Slab4 P_Slab9 P_Slab10 P_Slab11 P_Path
  P_Region P_Region2 P_Heap1 P_Heap2 P_Heap3 P_Heap4 P_Heap5 P_Heap6 P_Heap7 P_Init P_Heap8 P_Heap9 P_Heap10 P_Conc1 P_Conc2.
Import ListNotations.
Open Scope Z_scope.
Ltac Zify.zify_post_hook ::= idtac.

Section M.
Context (g : config) (md : bool) (sz : mode).
Notation up := (up g md).
Notation J := (J g md).
Notation keep := (keep md).
Notation csafe := (csafe g md sz).
Notation efault := (efault md sz).
Notation mine := (mine md sz).
Notation others := (others md).
Notation covd := (covd md).
Notation owns := (owns md).
Notation gone := (gone md).

Lemma sys_e f : sys_fault f -> efault f. Proof. left. auto. Qed.
Lemma rng_e f : rng_fault f -> efault f. Proof. right. left. auto. Qed.

(** ** steps that change no blocks *)
Lemma up_calm bal s LL s' r r' rest : up bal s LL (r ++ rest) -> same_place s s' -> st_cls s' = st_cls s ->
  os_chg (fun q => ~ user g s LL q) (st_os s) (st_os s') -> ginv g s' LL (flights r' ++ flights rest) ->
  opens r' = opens r -> bts r' = bts r -> (forall a e, In (TI a e) r' -> In (TI a e) r) -> calm rest s s' -> up bal s' LL (r' ++ rest) /\ keep rest s s'.
Proof.
  intros U SP Ec C I Eo Eb HT CM. pose proof U as [UI UO US UC UA UT UG].
  eapply (up_step g md bal s LL s' LL None None r r' rest [] [] (bts r)); auto.
  - eapply (large_hstep g s s' LL LL None None); [exact UI|auto|reflexivity|..].
    + eapply os_chg_mono; [|exact C]. intros q Hq. rewrite kept_user. exact Hq.
    + intros p n gd. split; [intros H; left; split; [auto|discriminate]|intros [[H _]|[=]]; auto].
    + discriminate.
    + discriminate.
    + intros O0. split; [auto|discriminate].
  - rewrite Eo, <- opens_app. exact UO.
  - intros a e Ha. apply UT. apply in_or_app. left. auto.
  - discriminate.
  - unfold gch. destruct md; auto.
  - rewrite Eb. apply Permutation_refl.
Qed.

(** one system call on pages in the hands of the thread, or new ones *)
Record os_step (r r' : list tok) (o o' : os) : Prop := {
  ot_chg : os_chg (fun q => fl_pages (flights r) q \/ pages o q = None /\ fl_pages (flights r') q) o o';
  ot_prot : forall f q, In f (flights r') -> fl_in f q = true -> pages o' q = Some (fl_prot f q);
  ot_apart : forall q, cover (map fl_in (flights r')) q <= 1;
  ot_from : forall q, fl_pages (flights r') q -> fl_pages (flights r) q \/ pages o q = None;
  ot_open : opens r' = opens r;
  ot_bts : bts r' = bts r;
  ot_ti : forall a e, In (TI a e) r' -> In (TI a e) r }.
Lemma up_os bal s LL r r' rest o' : up bal s LL (r ++ rest) -> os_step r r' (st_os s) o' -> up bal (set_st_os o' s) LL (r' ++ rest) /\ keep rest s (set_st_os o' s).
Proof.
  intros U [C P A F O B T]. pose proof (up_inv _ _ _ _ _ _ U) as I. rewrite flights_app in I.
  apply (up_calm bal s LL _ r r' rest U); auto.
  - constructor; reflexivity.
  - eapply os_chg_mono; [|exact C]. intros q [(f & Hf & Hq)|[N _]] Hu.
    + eapply (user_away g s LL _ (fl_in f) q I); [|exact Hq|exact Hu]. right. apply in_or_app. right. apply in_map, in_or_app. auto.
    + exact (user_mapped _ _ _ _ _ I Hu N).
  - eapply (ginv_flight_step g s LL (flights r) (flights r') (flights rest)); [exact I|eapply onward_chg; exact C|..]; auto.
    + intros q N1 N2. apply (oc_pages _ _ _ C). intros [|[_ ?]]; auto.
    + intros x N1 N2. apply (oc_mem _ _ _ C). intros [|[_ ?]]; auto.
    + intros SL. pose proof (up_loose _ _ _ _ _ _ U). congruence.
  - intros f x Hf Hq. apply (oc_mem _ _ _ C). intros [(f0 & Hf0 & Hq0)|[N _]].
    + pose proof (gi_apart _ _ _ _ I (page_of x)) as AP. unfold spans in AP. rewrite map_app in AP. rewrite !app_assoc in AP. rewrite !cover_app in AP.
      pose proof (cover_nonneg (fixed g s) (page_of x)). pose proof (cover_nonneg (map region_span (rl_own LL)) (page_of x)). pose proof (cover_nonneg (qspans (st_ra s)) (page_of x)).
      pose proof (cover_In (map fl_in (flights rest)) (fl_in f) _ ltac:(apply in_map; auto) Hq). pose proof (cover_In (map fl_in (flights r)) (fl_in f0) _ ltac:(apply in_map; auto) Hq0). rewrite ?cover_app in *. lia.
    + rewrite (gi_fl _ _ _ _ I f (page_of x)) in N; [discriminate|apply in_or_app; auto|exact Hq].
Qed.
Lemma calm_table s LL r rest s' : ginv g s LL (flights (r ++ rest)) -> os_in (table_pages g (st_ra s)) (st_os s) (st_os s') -> calm rest s s'.
Proof.
  intros I O f x Hf Hq. apply (oi_mem _ _ _ O). intros D. apply table_in_meta in D; [|apply I|apply I].
  assert (In (fl_in f) (map region_span (rl_own LL) ++ qspans (st_ra s) ++ map fl_in (flights (r ++ rest)))) as Hin.
  { apply in_or_app. right. apply in_or_app. right. apply in_map. rewrite flights_app. apply in_or_app. auto. }
  destruct (fixed_rest _ _ _ _ _ _ I Hin Hq). congruence.
Qed.
Lemma calm_in rest s s' : os_in (fun _ => False) (st_os s) (st_os s') -> calm rest s s'.
Proof. intros O f x _ _. apply (oi_mem _ _ _ O). auto. Qed.
Definition held (r : list tok) (o : os) : Prop := forall f q, In f (flights r) -> fl_in f q = true -> pages o q = Some (fl_prot f q).
Lemma os_csafe_ob {A} tid (m : M os A) r a e (Q : A -> list tok -> Prop) : In (TI a e) r ->
  (forall o, (m_ob sz -> obliged o) -> held r o -> (forall q, cover (map fl_in (flights r)) q <= 1) -> wp m o (fun b o' => exists r', os_step r r' o o' /\ mine tid r' /\ Q b r') sys_fault) -> csafe tid (p_os (act m)) r Q.
Proof.
  intros Hi H. change (csafe tid (act (on_os m)) r Q). eapply csafe_up; [exact Hi|]. intros s rest bal LL T U O Es Ee. apply wp_zoom.
  pose proof (up_inv _ _ _ _ _ _ U) as I. rewrite flights_app in I.
  eapply wp_mono; [apply (H (st_os s) (proj2 T))| |apply sys_e].
  - intros f q Hf. apply (gi_fl _ _ _ _ I). apply in_or_app. auto.
  - intros q. pose proof (gi_apart _ _ _ _ I q) as AP. unfold spans in AP. rewrite map_app in AP. rewrite !app_assoc in AP. rewrite !cover_app in AP.
    pose proof (cover_nonneg (fixed g s) q). pose proof (cover_nonneg (map region_span (rl_own LL)) q). pose proof (cover_nonneg (qspans (st_ra s)) q). pose proof (cover_nonneg (map fl_in (flights rest)) q).
    rewrite ?cover_app in *. lia.
  - intros b o' (r' & S & Mr & HQ). destruct (up_os bal s LL r r' rest o' U S) as [U' K']. exists r'. split; [eauto|]. auto.
Qed.
Lemma os_csafe {A} tid (m : M os A) r a e (Q : A -> list tok -> Prop) : In (TI a e) r ->
  (forall o, held r o -> (forall q, cover (map fl_in (flights r)) q <= 1) -> wp m o (fun b o' => exists r', os_step r r' o o' /\ mine tid r' /\ Q b r') sys_fault) -> csafe tid (p_os (act m)) r Q.
Proof. intros Hi H. eapply os_csafe_ob; [exact Hi|]. intros o _. apply H. Qed.

(** the thread holds pages [X] and other tokens *)
Definition quiet (E : list tok) : Prop := flights E = [].
Lemma os_same r o o' : held r o -> (forall q, cover (map fl_in (flights r)) q <= 1) -> os_chg (fun q => fl_pages (flights r) q) o o' -> pages o' = pages o -> os_step r r o o'.
Proof.
  intros H C O P. constructor; auto.
  - eapply os_chg_mono; [|exact O]. auto.
  - intros f q Hf Hq. rewrite P. auto.
Qed.
Lemma os_gain f E o o' : quiet E -> (forall q, fl_in f q = true -> pages o q = None) -> os_chg (fun q => fl_in f q = true) o o' ->
  (forall q, fl_in f q = true -> pages o' q = Some (fl_prot f q)) -> os_step E (TF f :: E) o o'.
Proof.
  intros QE N C P. constructor; cbn [flights flat_map app]; fold (flights E); rewrite ?QE; auto.
  - eapply os_chg_mono; [|exact C]. intros q Hq. right. split; [auto|]. exists f. cbn. auto.
  - intros f' q [<-|[]]. auto.
  - intros q. apply cover1.
  - intros q (f' & [<-|[]] & Hq). auto.
  - intros a e [[=]|H]; auto.
Qed.
Lemma os_change f f' E o o' : quiet E -> (forall q, fl_in f' q = true -> fl_in f q = true) -> os_chg (fun q => fl_in f q = true) o o' ->
  (forall q, fl_in f' q = true -> pages o' q = Some (fl_prot f' q)) -> os_step (TF f :: E) (TF f' :: E) o o'.
Proof.
  intros QE S C P. constructor; cbn [flights flat_map app]; fold (flights E); rewrite ?QE; auto.
  - eapply os_chg_mono; [|exact C]. intros q Hq. left. exists f. cbn. auto.
  - intros f0 q [<-|[]]. auto.
  - intros q. apply cover1.
  - intros q (f0 & [<-|[]] & Hq). left. exists f. cbn. auto.
  - intros a e [[=]|H]; right; auto.
Qed.
Lemma os_lose f E o o' : quiet E -> os_chg (fun q => fl_in f q = true) o o' -> os_step (TF f :: E) E o o'.
Proof.
  intros QE C. constructor; cbn [flights flat_map app]; fold (flights E); rewrite ?QE; auto.
  - eapply os_chg_mono; [|exact C]. intros q Hq. left. exists f. cbn. auto.
  - intros f0 q [].
  - intros q. cbn. lia.
  - intros q (f0 & [] & _).
  - intros a e H. right. auto.
Qed.
Lemma mine_TF tid f E : mine tid E -> mine tid (TF f :: E). Proof. apply mine_cons. exact Logic.I. Qed.
Lemma os_failed r o : held r o -> (forall q, cover (map fl_in (flights r)) q <= 1) -> os_step r r o (failed_os o).
Proof. intros H C. apply os_same; auto. apply os_chg_failed. Qed.

(** ** pages.c *)
Definition geo (r : region) : Prop := rg_p r mod 4096 = 0 /\ rg_guard r mod 4096 = 0 /\ 4096 <= rg_guard r /\ 0 < rg_size r /\ 4096 <= rg_p r - rg_guard r /\ rg_p r + rg_size r + rg_guard r + 4095 <= 2 ^ 47.
Lemma geo_ok o r : reg_ok o r -> geo r. Proof. intros []. unfold geo. tauto. Qed.
Lemma geo_reg o r : geo r -> (forall q, fl_in (rflight r) q = true -> pages o q = Some (fl_prot (rflight r) q)) -> reg_ok o r.
Proof.
  intros (A & B & C & D & E & F) H. constructor; auto.
  - intros q Hq. assert (region_span r q = true) as S by (unfold region_span; eapply in_pages_sub; [| |exact Hq]; lia). rewrite (H q S). cbn. rewrite Hq. auto.
  - intros q S Hq. rewrite (H q S). cbn. rewrite Hq. auto.
Qed.
Lemma set_errno_step r o e : held r o -> (forall q, cover (map fl_in (flights r)) q <= 1) -> os_step r r o (set_errno e o).
Proof. intros H C. apply os_same; auto. apply os_chg_errno. Qed.
Lemma os_errno_csafe tid e r a b : In (TI a b) r -> mine tid r -> csafe tid (p_os (act (modify (set_errno e)))) r (fun _ r' => r' = r).
Proof. intros Hi Mr. eapply os_csafe; [exact Hi|]. intros o H C. apply wp_modify. exists r. split; [apply set_errno_step; auto|auto]. Qed.
Lemma allocate_pages_csafe tid size gd E a e : In (TI a e) E -> quiet E -> mine tid E -> 0 < size -> 4096 <= gd < 2 ^ 64 -> gd mod 4096 = 0 ->
  csafe tid (p_os (allocate_pages size gd true)) E (fun x r' => match x with None => r' = E | Some p => r' = TF (rflight (mkRegion p size gd)) :: E /\ geo (mkRegion p size gd) end).
Proof.
  intros Hi QE ME Hs Hg Gm. unfold allocate_pages, add_guards, add_overflow.
  assert (csafe tid (p_os (do! _ := act (modify (set_errno ENOMEM)) in Ret None)) E (fun x r' => match x with None => r' = E | Some p => r' = TF (rflight (mkRegion p size gd)) :: E /\ geo (mkRegion p size gd) end)) as FAIL.
  { apply csafe_zoom_bind. eapply csafe_bind; [apply (os_errno_csafe tid ENOMEM E a e Hi ME)|]. intros [] r' ->. reflexivity. }
  destruct (Z.ltb_spec (size + gd) (2 ^ 64)) as [L1|L1]; [|exact FAIL].
  destruct (Z.ltb_spec (size + gd + gd) (2 ^ 64)) as [L2|L2]; [|exact FAIL]. clear FAIL.
  apply csafe_zoom_bind. eapply csafe_bind with (Q := fun x r' => match x with None => r' = E | Some real => r' = TF (blank real (size + gd + gd)) :: E /\ real mod 4096 = 0 /\ 4096 <= real /\ real + (size + gd + gd) + 4095 <= 140737488355328 end).
  { eapply os_csafe; [exact Hi|]. intros o H C. eapply wp_mono; [apply memory_map_wp| |auto]. intros [real|] o1; cbn beta iota.
    2:{ intros ->. exists E. split; [apply os_failed; auto|auto]. }
    intros (-> & Ma & Mb & Mc & Md & Me). unfold ADDR_MAX in Mc. change (2 ^ 47) with 140737488355328 in Mc. rewrite pages_all_spec in Me. exists (TF (blank real (size + gd + gd)) :: E). split; [|split; [apply mine_TF; auto|]].
    - apply os_gain; auto.
      + intros q Hq. specialize (Me q Hq). destruct (pages o q); [discriminate|auto].
      + apply os_in_chg, os_in_mapped. auto.
      + cbn. intros q ->. auto.
    - split; [reflexivity|]. lia. }
  intros [real|] r'; [|intros ->; reflexivity]. intros (-> & Ma & Mb & Mc).
  rewrite (w64_small (real + gd)) by (change (2 ^ 64) with 18446744073709551616; lia). set (L := size + gd + gd) in *. set (r := mkRegion (real + gd) size gd).
  assert (forall q, region_span r q = in_pages real L q) as SP.
  { intros q. unfold region_span, r; cbn [rg_p rg_size rg_guard]. replace (real + gd - gd) with real by lia. replace (size + 2 * gd) with L by (unfold L; lia). reflexivity. }
  assert (forall q, in_pages (real + gd) size q = true -> in_pages real L q = true) as SU by (intros q; apply in_pages_sub; unfold L; lia).
  apply csafe_zoom_bind. eapply csafe_bind with (Q := fun b r' => if b : bool then r' = TF (blank real L) :: E else r' = TF (rflight r) :: E).
  { eapply os_csafe; [right; exact Hi|]. intros o H C. eapply wp_mono; [apply memory_protect_wp| |auto]. intros [] o1; cbn beta iota.
    - intros ->. eexists. split; [apply os_failed; auto|]. split; [apply mine_TF; auto|auto].
    - intros (-> & _ & _). exists (TF (rflight r) :: E). split; [|split; [apply mine_TF; auto|auto]]. apply os_change; auto.
      + intros q. cbn [rflight blank fl_in]. now rewrite SP.
      + apply os_in_chg, os_in_protected. exact SU.
      + intros q Hq. cbn [rflight fl_in fl_prot] in *. rewrite SP in Hq. pose proof (H (blank real L) q (or_introl eq_refl) Hq) as HH. cbn. unfold r; cbn [rg_p rg_size]. destruct (in_pages (real + gd) size q); [auto|exact HH]. }
  intros [] r' ->.
  - apply csafe_zoom_bind. eapply csafe_bind with (Q := fun _ r' => r' = E).
    { eapply os_csafe; [right; exact Hi|]. intros o H C. eapply wp_mono; [apply memory_unmap_wp| |auto]. intros b o1 W. exists E. split; [|auto]. apply os_lose; auto.
      destruct b; [subst o1; apply os_chg_failed|]. destruct W as (-> & _). apply os_chg_unmapped. auto. }
    intros _ r' ->. reflexivity.
  - cbn. split; [reflexivity|]. unfold geo, r; cbn [rg_p rg_size rg_guard]. change (2 ^ 47) with 140737488355328. unfold L in *.
    split; [rewrite Z.add_mod, Ma, Gm by lia; reflexivity|]. split; [auto|]. lia.
Qed.
(** with a kernel that never refuses, allocate_pages_aligned gives back only its own pages *)
Lemma allocate_pages_aligned_csafe tid size k gd E a e : m_ob sz -> In (TI a e) E -> quiet E -> mine tid E -> 0 < size < 2 ^ 64 -> 12 < k < 64 -> 4096 <= gd < 2 ^ 64 -> gd mod 4096 = 0 ->
  csafe tid (p_os (allocate_pages_aligned size (2 ^ k) gd)) E (fun x r' => match x with None => r' = E | Some p => r' = TF (rflight (mkRegion p size gd)) :: E /\ geo (mkRegion p size gd) /\ p mod 2 ^ k = 0 end).
Proof.
  intros OB Hi QE ME Hs Hk Hg Gm. unfold allocate_pages_aligned, add_guards, add_overflow. set (us := page_align size).
  set (Q := fun _ _ => _).
  assert (csafe tid (p_os (do! _ := act (modify (set_errno ENOMEM)) in Ret None)) E Q) as FAIL.
  { apply csafe_zoom_bind. eapply csafe_bind; [apply (os_errno_csafe tid ENOMEM E a e Hi ME)|]. intros [] r' ->. reflexivity. }
  destruct (Z.eqb_spec us 0) as [Z0|Z0]; [exact FAIL|].
  assert (4096 < 2 ^ k <= 2 ^ 63) as K2. { split; [change 4096 with (2 ^ 12); apply Z.pow_lt_mono_r; lia|apply Z.pow_le_mono_r; lia]. }
  change (2 ^ 63) with 9223372036854775808 in *. unfold PAGE_SIZE.
  rewrite (w64_small (2 ^ k - 4096)) by (change (2 ^ 64) with 18446744073709551616; lia).
  assert (0 < size <= 2 ^ 64 - 4096 /\ us = (size + 4095) / 4096 * 4096) as [Hs2 Eus].
  { change (2 ^ 64) with 18446744073709551616 in *. destruct (Z_le_gt_dec size (2 ^ 64 - 4096)) as [L|L]; change (2 ^ 64) with 18446744073709551616 in *.
    - split; [lia|]. unfold us. apply page_align_small. change (2 ^ 64) with 18446744073709551616. lia.
    - exfalso. apply Z0. unfold us. rewrite page_align_eq by (change (2 ^ 64) with 18446744073709551616; lia). unfold w64.
      replace (size + 4095) with ((size + 4095 - 18446744073709551616) + 1 * 2 ^ 64) by (change (2 ^ 64) with 18446744073709551616; lia). rewrite Z.mod_add by (change (2 ^ 64) with 18446744073709551616; lia).
      rewrite Z.mod_small by (change (2 ^ 64) with 18446744073709551616; lia). rewrite Z.div_small by lia. reflexivity. }
  assert (us mod 4096 = 0) as Um by (rewrite Eus; apply Z.mod_mul; lia).
  assert (size <= us < size + 4096) as Ub.
  { pose proof (Z.div_mod (size + 4095) 4096 ltac:(lia)). pose proof (Z.mod_pos_bound (size + 4095) 4096 ltac:(lia)). lia. }
  destruct (Z.ltb_spec (us + (2 ^ k - 4096)) (2 ^ 64)) as [L0|L0]; [|exact FAIL].
  set (AS := us + (2 ^ k - 4096)) in *.
  destruct (Z.ltb_spec (AS + gd) (2 ^ 64)) as [L1|L1]; [|exact FAIL].
  destruct (Z.ltb_spec (AS + gd + gd) (2 ^ 64)) as [L2|L2]; [|exact FAIL]. clear FAIL.
  set (L := AS + gd + gd) in *.
  apply csafe_zoom_bind. eapply csafe_bind with (Q := fun x r' => match x with None => r' = E | Some real => r' = TF (blank real L) :: E /\ real mod 4096 = 0 /\ 4096 <= real /\ real + L + 4095 <= 140737488355328 end).
  { eapply os_csafe; [exact Hi|]. intros o H C. eapply wp_mono; [apply memory_map_wp| |auto]. intros [real|] o1; cbn beta iota.
    2:{ intros ->. exists E. split; [apply os_failed; auto|auto]. }
    intros (-> & Ma & Mb & Mc & Md & Me). unfold ADDR_MAX in Mc. change (2 ^ 47) with 140737488355328 in Mc. rewrite pages_all_spec in Me. exists (TF (blank real L) :: E). split; [|split; [apply mine_TF; auto|]].
    - apply os_gain; auto.
      + intros q Hq. specialize (Me q Hq). destruct (pages o q); [discriminate|auto].
      + apply os_in_chg, os_in_mapped. auto.
      + cbn. intros q ->. auto.
    - split; [reflexivity|]. lia. }
  intros [real|] r'; [|intros ->; reflexivity]. intros (-> & Ma & Mb & Mc).
  change (2 ^ 64) with 18446744073709551616 in *.
  rewrite (w64_small (real + gd)) by (change (2 ^ 64) with 18446744073709551616; lia).
  set (u := real + gd).
  assert (u mod 4096 = 0) as Mu by (unfold u; rewrite Z.add_mod, Ma, Gm by lia; reflexivity).
  assert (u + 2 ^ k <= 140737488355328) as Bu by (unfold u, L, AS in *; lia).
  rewrite (c_align_pow2 u k) by (change (2 ^ 64) with 18446744073709551616; unfold u; lia).
  rewrite (w64_small (u + (2 ^ k - 1))) by (change (2 ^ 64) with 18446744073709551616; unfold u in *; lia).
  destruct (align_up_facts u k ltac:(unfold u; lia) Mu ltac:(lia)) as (A1 & A2 & A3).
  set (b := (u + (2 ^ k - 1)) / 2 ^ k * 2 ^ k) in *.
  assert (b <= u + 2 ^ k - 4096 /\ u <= b) as [A1a A1b] by lia. clear A1.
  rewrite (w64_small (b - u)) by (change (2 ^ 64) with 18446744073709551616; lia).
  set (lead := b - u) in *.
  assert (0 <= lead <= 2 ^ k - 4096) as LB by (unfold lead; lia).
  rewrite (w64_small (AS - lead - us)) by (change (2 ^ 64) with 18446744073709551616; unfold AS; lia).
  set (trail := AS - lead - us) in *. assert (trail = 2 ^ k - 4096 - lead) as ET by (unfold trail, AS; lia).
  assert (u + lead = b) as Eb by (unfold lead; lia). rewrite Eb.
  rewrite (w64_small b) by (change (2 ^ 64) with 18446744073709551616; unfold u in *; lia).
  rewrite (w64_small (b + us + gd)) by (change (2 ^ 64) with 18446744073709551616; unfold u, L, AS in *; lia).
  assert (real + lead = b - gd) as Er by (unfold u in *; lia).
  assert (us + 2 * gd + trail + lead = L) as EL by (unfold L, trail; lia).
  assert (forall q, in_pages b us q = true -> in_pages real L q = true) as SU by (intros q; apply in_pages_sub; unfold u, L, trail, AS in *; lia).
  set (f1 := mkFl (in_pages real L) (fun q => if in_pages b us q then PRW else PNone)).
  set (f2 := mkFl (in_pages (real + lead) (L - lead)) (fun q => if in_pages b us q then PRW else PNone)).
  apply csafe_zoom_bind. eapply csafe_bind with (Q := fun b r' => if b : bool then r' = TF (blank real L) :: E else r' = TF f1 :: E).
  { eapply os_csafe; [right; exact Hi|]. intros o H C. eapply wp_mono; [apply memory_protect_wp| |auto]. intros [] o1; cbn beta iota.
    - intros ->. eexists. split; [apply os_failed; auto|]. split; [apply mine_TF; auto|auto].
    - intros (-> & _ & _). exists (TF f1 :: E). split; [|split; [apply mine_TF; auto|auto]]. apply os_change; auto.
      + apply os_in_chg, os_in_protected. exact SU.
      + intros q Hq. cbn [f1 fl_in fl_prot] in *. pose proof (H (blank real L) q (or_introl eq_refl) Hq) as HH. cbn. destruct (in_pages b us q); [auto|exact HH]. }
  intros [] r' ->.
  { apply csafe_zoom_bind. eapply csafe_bind with (Q := fun _ r' => r' = E).
    { eapply os_csafe; [right; exact Hi|]. intros o H C. eapply wp_mono; [apply memory_unmap_wp| |auto]. intros x o1 W. exists E. split; [|auto]. apply os_lose; auto.
      destruct x; [subst o1; apply os_chg_failed|]. destruct W as (-> & _). apply os_chg_unmapped. auto. }
    intros _ r' ->. reflexivity. }
  assert (real mod 4096 = 0 /\ lead mod 4096 = 0 /\ (real + lead) mod 4096 = 0) as (_ & Ml & Mrl).
  { split; [auto|]. split; [unfold lead; rewrite Zminus_mod, A3, Mu; reflexivity|]. rewrite Er, Zminus_mod, A3, Gm. reflexivity. }
  assert (forall q, in_pages (real + lead) (L - lead) q = true -> in_pages real L q = true) as S2 by (intros q; apply in_pages_sub; lia).
  assert (forall q, in_pages real lead q = true -> in_pages (real + lead) (L - lead) q = false) as S3 by (intros q; apply in_pages_apart; auto; lia).
  set (r := mkRegion b size gd).
  assert (forall q, region_span r q = in_pages (real + lead) (us + 2 * gd) q) as SP.
  { intros q. unfold region_span, r; cbn [rg_p rg_size rg_guard]. rewrite Er. symmetry. apply region_span_align; auto. change (2 ^ 64) with 18446744073709551616. lia. }
  assert (forall q, in_pages b size q = in_pages b us q) as SQ.
  { intros q. symmetry. apply in_pages_align; auto. change (2 ^ 64) with 18446744073709551616. lia. }
  assert ((b + us + gd) mod 4096 = 0) as Mt by (rewrite Z.add_mod, (Z.add_mod b), A3, Um, Gm by lia; reflexivity).
  assert (forall q, in_pages (real + lead) (us + 2 * gd) q = true -> in_pages (b + us + gd) trail q = false) as S5 by (intros q; apply in_pages_apart; auto; lia).
  assert (forall q, in_pages (real + lead) (us + 2 * gd) q = true -> in_pages (real + lead) (L - lead) q = true) as S6 by (intros q; apply in_pages_sub; lia).
  set (f3 := if trail =? 0 then rflight r else f2).
  assert (forall q, (fl_in f3 q = true -> in_pages (real + lead) (L - lead) q = true) /\ fl_prot f3 q = if in_pages b us q then PRW else PNone) as F3.
  { intros q. unfold f3. destruct (trail =? 0); [|split; [auto|reflexivity]]. cbn [rflight fl_in fl_prot r rg_p rg_size]. rewrite SP, SQ. auto. }
  apply csafe_zoom_bind. eapply csafe_bind with (Q := fun x r' => x = false /\ r' = TF f3 :: E).
  { destruct (Z.eqb_spec lead 0) as [E0|E0].
    { split; [auto|]. unfold f3. destruct (Z.eqb_spec trail 0); [lia|]. unfold f1, f2. rewrite E0. replace (real + 0) with real by lia. replace (L - 0) with L by lia. reflexivity. }
    eapply os_csafe_ob; [right; exact Hi|]. intros o HO H C. eapply wp_mono; [apply memory_unmap_wp2| |auto]. intros [] o1; [intros [_ R]; elim (HO OB _ R)|]. intros ->.
    exists (TF f3 :: E). split; [|split; [apply mine_TF; auto|auto]]. apply os_change; auto.
    - intros q Hq. apply S2, F3, Hq.
    - apply os_chg_unmapped. intros q Hq. cbn [f1 fl_in]. eapply in_pages_sub; [| |exact Hq]; lia.
    - intros q Hq. destruct (F3 q) as [F3a F3b]. rewrite F3b. apply F3a in Hq. cbn [unmapped_os map_pages pages set_pages]. destruct (in_pages real lead q) eqn:Eq; [rewrite (S3 q Eq) in Hq; discriminate|].
      exact (H f1 q (or_introl eq_refl) (S2 q Hq)). }
  intros x r' (-> & ->).
  apply csafe_zoom_bind. eapply csafe_bind with (Q := fun x r' => x = false /\ (r' = TF (rflight r) :: E)).
  { destruct (Z.eqb_spec trail 0) as [E0|E0].
    { split; [auto|]. unfold f3. destruct (Z.eqb_spec trail 0); [reflexivity|lia]. }
    eapply os_csafe_ob; [right; exact Hi|]. intros o HO H0 C. assert (held (TF f2 :: E) o) as H by (revert H0; unfold f3; destruct (Z.eqb_spec trail 0); [lia|auto]). clear H0. eapply wp_mono; [apply memory_unmap_wp2| |auto]. intros [] o1; [intros [_ R]; elim (HO OB _ R)|]. intros ->.
    exists (TF (rflight r) :: E). split; [|split; [apply mine_TF; auto|auto]]. replace f3 with f2 by (unfold f3; destruct (Z.eqb_spec trail 0); [lia|auto]). apply os_change; auto.
    - cbn [rflight f2 fl_in]. intros q. rewrite SP. auto.
    - apply os_chg_unmapped. intros q Hq. cbn [f2 fl_in]. eapply in_pages_sub; [| |exact Hq]; lia.
    - intros q Hq. cbn [rflight fl_in fl_prot] in *. rewrite SP in Hq. cbn [unmapped_os map_pages pages set_pages]. rewrite (S5 q Hq).
      change (pages (next_sys o) q) with (pages o q). rewrite (H f2 q (or_introl eq_refl) (S6 q Hq)). cbn [f2 fl_prot r rg_p rg_size]. now rewrite SQ. }
  intros x r' (-> & ->). unfold Q. cbn. split; [reflexivity|]. split; [|exact A2]. unfold geo, r; cbn [rg_p rg_size rg_guard]. change (2 ^ 47) with 140737488355328. split; [auto|]. split; [auto|]. lia.
Qed.
Lemma deallocate_pages_csafe tid f p size gd E a e : In (TI a e) E -> quiet E -> mine tid E -> 0 <= p - gd -> p < 2 ^ 48 -> 0 <= size < 2 ^ 48 -> 0 <= gd < 2 ^ 48 ->
  (forall q, in_pages (p - gd) (size + 2 * gd) q = true -> fl_in f q = true) ->
  csafe tid (p_os (deallocate_pages p size gd)) (TF f :: E) (fun _ r' => r' = E).
Proof.
  change (2 ^ 48) with 281474976710656. intros Hi QE ME H1 H2 H3 H4 H5. unfold deallocate_pages.
  rewrite (w64_small (p - gd)), (w64_small (size + gd * 2)) by (change (2 ^ 64) with 18446744073709551616; lia).
  replace (size + gd * 2) with (size + 2 * gd) by lia.
  apply csafe_zoom_bind. eapply csafe_bind with (Q := fun b r' => if b : bool then r' = TF f :: E else r' = E).
  { eapply os_csafe; [right; exact Hi|]. intros o H C. eapply wp_mono; [apply memory_unmap_wp| |auto]. intros [] o1; cbn beta iota.
    - intros ->. eexists. split; [apply os_failed; auto|]. split; [apply mine_TF; auto|auto].
    - intros (-> & _). exists E. split; [|auto]. apply os_lose; auto. apply os_chg_unmapped. auto. }
  intros [] r' ->; [|reflexivity]. apply csafe_zoom_bind. eapply csafe_bind with (Q := fun _ r' => r' = E); [|intros _ r' ->; reflexivity].
  eapply os_csafe; [right; exact Hi|]. intros o H C. eapply wp_mono; [apply memory_purge_wp| |auto]. intros b o1 W. exists E. split; [|auto]. apply os_lose; auto.
  destruct b; [subst o1; apply os_chg_failed|]. destruct W as (-> & _). apply os_in_chg, os_in_purged. intros q Hq. apply H5. eapply in_pages_sub; [| |exact Hq]; lia.
Qed.

(** ** the table of large blocks *)
Lemma place_ra t s : same_place s (ra_put t s). Proof. constructor; reflexivity. Qed.
Lemma guard_csafe tid size E a e : In (TI a e) E -> mine tid E -> 0 <= size < 2 ^ 64 ->
  csafe tid (p_ra (act (get_guard_size g size))) E (fun gd r' => r' = E /\ guard_ok g size gd).
Proof.
  intros Hi ME Hs. change (csafe tid (act (on_ra (get_guard_size g size))) E (fun gd r' => r' = E /\ guard_ok g size gd)). eapply csafe_up; [exact Hi|]. intros s rest bal LL T U O Es Ee. apply wp_zoom.
  pose proof (up_inv _ _ _ _ _ _ U) as I. rewrite <- (ra_put_get s) in I.
  eapply wp_mono; [apply (guard_wp g s (ra_get s) LL _ size I Hs)| |apply rng_e]. intros gd rs' (G & I' & R & _). exists E.
  edestruct (up_calm bal s LL (ra_put rs' s) E E rest U) as [U' K']; auto using place_ra.
  - apply os_in_chg, os_in_rel. exact R.
  - rewrite <- flights_app. exact I'.
  - apply calm_in, os_in_rel. exact R.
  - split; [eauto|]. auto.
Qed.
(** entries of other threads are away from pages in the thread's hands *)
Lemma open_away bal s LL f E rest p : up bal s LL ((TF f :: E) ++ rest) -> opens E = [] -> covd rest -> fl_in f (page_of p) = true -> ~ In p (map rg_p (rl_open LL)).
Proof.
  intros U OE CR Hf H. apply in_map_iff in H. destruct H as (r0 & <- & H). apply (Permutation_in r0 (up_open _ _ _ _ _ _ U)) in H. rewrite opens_app in H. cbn [opens flat_map app] in H. fold (opens E) in H. rewrite OE in H. cbn [app] in H.
  apply in_opens in H. destruct (CR r0 H) as (_ & f0 & F1 & F2). apply in_flights in F1.
  pose proof (gi_apart _ _ _ _ (up_inv _ _ _ _ _ _ U) (page_of (rg_p r0))) as AP. unfold spans in AP. rewrite flights_app in AP. cbn [flights flat_map app] in AP. fold (flights E) in AP.
  rewrite !cover_app in AP. cbn [map cover] in AP. unfold hit at 1 in AP. rewrite Hf in AP. rewrite map_app, cover_app in AP.
  pose proof (cover_In (map fl_in (flights rest)) (fl_in f0) _ ltac:(apply in_map; auto) F2). pose proof (cover_nonneg (map fl_in (flights E)) (page_of (rg_p r0))).
  pose proof (cover_nonneg (fixed g s) (page_of (rg_p r0))). pose proof (cover_nonneg (map region_span (rl_own LL)) (page_of (rg_p r0))). pose proof (cover_nonneg (qspans (st_ra s)) (page_of (rg_p r0))).
  rewrite ?cover_app in *. lia.
Qed.
Lemma span_p r : geo r -> region_span r (page_of (rg_p r)) = true.
Proof.
  intros (A & B & C & D & E & F). unfold region_span. rewrite in_pages_spec. unfold page_of. split; [apply Z.div_le_mono; lia|].
  apply Z.lt_le_trans with (rg_p r / 4096 + 1); [lia|]. rewrite <- Z.div_add by lia. apply Z.div_le_mono; lia.
Qed.
Lemma bts_TF f E : bts (TF f :: E) = bts E. Proof. reflexivity. Qed.
Lemma insert_csafe tid st r E a e : may_own md sz -> In (TI a e) E -> quiet E -> opens E = [] -> mine tid E -> geo r -> (16384 < rg_size r -> rg_size r mod 4096 = 0) -> guard_ok g (rg_size r) (rg_guard r) ->
  csafe tid (p_ra (act (insert_section g st (rg_p r) (rg_size r) (rg_guard r)))) (TF (rflight r) :: E)
    (fun failed r' => if failed : bool then r' = TF (rflight r) :: E else exists t, r' = t :: E /\ if md then t = TL r else t = TG (rg_p r)).
Proof.
  intros MO Hi QE OE ME G Sz GO. set (Q := fun _ _ => _). change (csafe tid (act (on_ra (insert_section g st (rg_p r) (rg_size r) (rg_guard r)))) (TF (rflight r) :: E) Q). eapply csafe_up; [right; exact Hi|].
  intros s rest bal LL T U O Es Ee. apply wp_zoom. pose proof (up_inv _ _ _ _ _ _ U) as I. rewrite flights_app in I. cbn [flights flat_map app] in I. fold (flights E) in I. rewrite QE in I. cbn [app] in I.
  assert (reg_ok (st_os s) r) as K. { apply geo_reg; [exact G|]. intros q Hq. apply (gi_fl _ _ _ _ I); [left; auto|auto]. }
  rewrite <- (ra_put_get s) in I.
  assert (~ In (rg_p r) (map rg_p (rl_open LL))) as NO. { eapply open_away; [exact U|exact OE|apply O|]. apply span_p, G. }
  pose proof (flight_absent g s (ra_get s) LL (flights rest) r I K NO) as AB.
  assert (forall q, region_span r q = true -> ~ user g s LL q) as AW.
  { intros q Hq. pose proof (user_away _ _ _ _ (fl_in (rflight r)) q I) as W. rewrite (ra_put_get s) in W. apply W; [|exact Hq]. right. apply in_or_app. right. left. reflexivity. }
  assert (forall q, table_pages g (st_ra s) q -> ~ user g s LL q) as AT.
  { intros q Hq. pose proof (user_away _ _ _ _ (meta_span g s) q I) as W. rewrite (ra_put_get s) in W. apply W; [left; reflexivity|]. rewrite (ra_put_get s) in I. apply table_in_meta; [apply I|apply I|exact Hq]. }
  eapply wp_mono; [apply (insert_section_wp g s (ra_get s) LL (flights rest) st r I (proj1 T) K AB)| |apply sys_e].
  intros [] rs' (OI & H).
  - destruct H as (I' & _). exists (TF (rflight r) :: E). edestruct (up_calm bal s LL (ra_put rs' s) (TF (rflight r) :: E) (TF (rflight r) :: E) rest U) as [U' K']; auto using place_ra.
    + eapply os_chg_mono; [exact AT|]. apply os_in_chg. exact OI.
    + cbn [flights flat_map app]. fold (flights E). rewrite QE. exact I'.
    + eapply (calm_table s LL _ rest (ra_put rs' s)); [apply U|exact OI].
    + split; [eauto|]. split; [auto|]. split; [apply mine_TF; auto|reflexivity].
  - destruct H as (I' & _). set (t := if md then TL r else TG (rg_p r)). exists (t :: E).
    assert (is_bt t = true /\ flights (t :: E) = flights E /\ opens (t :: E) = opens E /\ bts (t :: E) = t :: bts E /\ forall a e, In (TI a e) (t :: E) -> In (TI a e) E) as (B1 & B2 & B3 & B4 & B5).
    { unfold t. destruct md; (split; [reflexivity|split; [reflexivity|split; [reflexivity|split; [reflexivity|]]]]); intros ? ? [[=]|]; auto. }
    edestruct (up_step g md bal s LL (ra_put rs' s) (push r LL) None (Some (rg_p r, rg_size r)) (TF (rflight r) :: E) (t :: E) rest [] [t] (bts E)) as [U' K'].
    + exact U.
    + apply (large_hstep g s (ra_put rs' s) LL (push r LL) None (Some r) _ (up_inv _ _ _ _ _ _ U)); [reflexivity|reflexivity|..].
      * eapply os_chg_mono; [|apply os_in_chg; exact OI]. intros q Hq. rewrite kept_user. apply AT. exact Hq.
      * intros p n gd. cbn [push rl_own]. split; [intros [->|H]; [auto|left; split; [auto|discriminate]]|intros [[H _]|[= <-]]; cbn; auto].
      * discriminate.
      * intros r0 [= <-]. split.
        -- assert (In r (rl_own (push r LL))) as Hr by (left; auto). pose proof (region_not_slab g (ra_put rs' s) (push r LL) (flights rest) I' r Hr (rg_p r)) as W. change (in_slab_region (rg_p r) s) with (in_slab_region (rg_p r) (ra_put rs' s)). apply W. destruct G. lia.
        -- intros Hp. elim AB. unfold rl_all. rewrite map_app. apply in_or_app. left. exact Hp.
      * intros O0. split; [auto|]. intros r0 [= <-]. left. exact GO.
    + apply place_ra.
    + reflexivity.
    + rewrite B2, QE. exact I'.
    + rewrite B3, OE. cbn [push rl_open app]. eapply Permutation_trans; [apply (up_open _ _ _ _ _ _ U)|]. rewrite opens_app. cbn [opens flat_map app]. fold (opens E). rewrite OE. apply Permutation_refl.
    + intros x [<-|Hx]; [exact Sz|]. apply (up_sized _ _ _ _ _ _ U); auto.
    + intros a0 e0 Ha. apply (up_init _ _ _ _ _ _ U). right. apply in_or_app. left. auto.
    + intros x Hx _. right. exact Hx.
    + discriminate.
    + unfold gch, t. destruct md.
      * split; [left; auto|]. right. exists (TL r), (rg_p r), (rg_size r). split; [auto|]. split; [auto|]. split; [auto|]. split; [auto|]. left. auto.
      * auto.
    + rewrite bts_TF. apply Permutation_refl.
    + rewrite B4. apply Permutation_refl.
    + eapply (calm_table s LL _ rest (ra_put rs' s)); [apply U|exact OI].
    + split; [eauto|]. split; [auto|]. split.
      * apply mine_cons; [|auto]. unfold t. destruct MO as [MO|MO]; [rewrite MO; exact Logic.I|]. destruct md; [exact Logic.I|exact MO].
      * exists t. split; [auto|]. unfold t. destruct md; auto.
Qed.
Definition lent_large (p : Z) (l : list tok) : Prop := if md then exists n gd, l = [TL (mkRegion p n gd)] else l = [].
Lemma opens_none tid E rest : md = false -> mine tid E -> others tid rest -> opens (E ++ rest) = [].
Proof.
  intros Em [M _] [O _]. destruct (opens (E ++ rest)) as [|r0 l] eqn:Q; [auto|]. exfalso. assert (In r0 (opens (E ++ rest))) as H by (rewrite Q; left; auto).
  apply in_opens, in_app_iff in H. destruct H as [H|H]; [destruct (M r0 H)|destruct (O r0 H)]; congruence.
Qed.
Lemma NoDup_map_inj {A B} (h : A -> B) l x y : NoDup (map h l) -> In x l -> In y l -> h x = h y -> x = y.
Proof.
  induction l as [|c l IH]; cbn; [tauto|]. intros ND Hx Hy E. inversion ND as [|? ? N1 N2]; subst. destruct Hx as [->|Hx], Hy as [->|Hy]; auto.
  - elim N1. rewrite E. apply in_map. auto.
  - elim N1. rewrite <- E. apply in_map. auto.
Qed.
Lemma remove_csafe tid p ex l E a e : In (TI a e) E -> quiet E -> opens E = [] -> mine tid E -> lent_large p l -> (ex = None \/ m_sz sz = true) ->
  csafe tid (p_ra (act (remove_section g p ex))) (l ++ E) (fun sg r' => let r := mkRegion p (fst sg) (snd sg) in r' = TF (rflight r) :: gone p ++ E /\ geo r).
Proof.
  intros Hi QE OE ME HL Hx. set (Q := fun _ _ => _). change (csafe tid (act (on_ra (remove_section g p ex))) (l ++ E) Q). apply (csafe_up g md sz tid _ _ a e); [apply in_or_app; right; exact Hi|].
  intros s rest bal LL T U O Es Ee. apply wp_zoom. pose proof (up_inv _ _ _ _ _ _ U) as I.
  assert (flights l = [] /\ opens l = [] /\ mine tid (l ++ E)) as (L1 & L2 & L3).
  { unfold lent_large in HL. destruct md; [destruct HL as (n & gd & ->)|subst l]; (split; [reflexivity|split; [reflexivity|]]); [|exact ME]. apply mine_cons; [exact Logic.I|exact ME]. }
  assert (flights (gone p) = [] /\ opens (gone p) = [] /\ bts (gone p) = gone p /\ (forall t, ~ In (TI a t) (gone p)) /\ forall r0, ~ In (TO r0) (gone p)) as (G1 & G2 & G3 & G4 & G5).
  { unfold gone. destruct md; (split; [reflexivity|split; [reflexivity|split; [reflexivity|]]]); split; intros t Ht; [destruct Ht..| |]; destruct Ht as [[=]|[]]. }
  assert (md = true -> exists n gd, l = [TL (mkRegion p n gd)] /\ In (mkRegion p n gd) (rl_own LL)) as HO.
  { intros Em. unfold lent_large in HL. rewrite Em in HL. destruct HL as (n & gd & ->). exists n, gd. split; [auto|]. pose proof (up_ghost _ _ _ _ _ _ U) as G. unfold ghost in G. rewrite Em in G. destruct G as (_ & G & _).
    exact (G (TL (mkRegion p n gd)) ltac:(left; auto)). }
  assert (~ In p (map rg_p (rl_open LL))) as NO.
  { destruct (md_dec md) as [Em|Em].
    - destruct (HO Em) as (n & gd & _ & Hr). intros H. pose proof (gi_nd _ _ _ _ I) as ND. unfold rl_all in ND. rewrite map_app in ND. apply NoDup_app_inv in ND. destruct ND as (_ & _ & ND). apply (ND p); [|exact H]. apply in_map_iff. exists (mkRegion p n gd). auto.
    - intros H. apply in_map_iff in H. destruct H as (r0 & _ & H). apply (Permutation_in r0 (up_open _ _ _ _ _ _ U)) in H. rewrite (opens_none tid _ _ Em L3 O) in H. destruct H. }
  rewrite <- (ra_put_get s) in I.
  eapply wp_mono; [apply (remove_section_wp g s (ra_get s) LL _ p ex I NO)| |].
  2:{ intros f [[-> H]|[-> (e0 & s0 & gd0 & Hex & _)]].
      - destruct (md_dec md) as [Em|Em]; [|apply fatal_ok, Em]. destruct (HO Em) as (n & gd & _ & Hr). elim H. apply in_map_iff. exists (mkRegion p n gd). auto.
      - right. right. right. left. destruct Hx as [->|Hz]; [discriminate|]. split; [auto|]. right. reflexivity. }
  intros sg rs' (r & Er & Hr & I' & E1 & L1' & _). rewrite (ra_put_get s) in I.
  assert (md = true -> l = [TL r]) as El.
  { intros Em. destruct (HO Em) as (n & gd & -> & Hr0). f_equal. f_equal. pose proof (NoDup_own _ _ _ _ I) as ND. eapply (NoDup_map_inj rg_p); [exact ND|exact Hr0|exact Hr|]. rewrite Er. reflexivity. }
  exists (TF (rflight r) :: gone p ++ E).
  edestruct (up_step g md bal s LL (ra_put rs' s) (drop p LL) (Some p) None (l ++ E) (TF (rflight r) :: gone p ++ E) rest l (gone p) (bts E)) as [U' K'].
  + exact U.
  + apply (large_hstep g s (ra_put rs' s) LL (drop p LL) (Some p) None _ I); [reflexivity|reflexivity|..].
    * cbn [ra_put st_os set_st_os set_st_ra]. rewrite E1. apply os_chg_refl.
    * intros q n gd. cbn [drop rl_own]. rewrite out_In. cbn [rg_p]. split; [intros [H N]; left; split; [auto|congruence]|intros [[H N]|[=]]; split; [auto|congruence]].
    * intros q [= <-]. apply in_map_iff. exists r. rewrite Er. split; [auto|]. rewrite <- Er. exact Hr.
    * discriminate.
    * intros O0. split; discriminate.
  + apply place_ra.
  + reflexivity.
  + cbn [flights flat_map app]. fold (flights (gone p ++ E)). rewrite flights_app, G1, QE. cbn [app]. rewrite !flights_app, L1, QE in I'. exact I'.
  + cbn [opens flat_map app]. fold (opens (gone p ++ E)). rewrite opens_app, G2, OE. cbn [app drop rl_open]. pose proof (up_open _ _ _ _ _ _ U) as UO. rewrite !opens_app, L2, OE in UO. cbn [app] in UO.
    replace (out p (rl_open LL)) with (rl_open LL); [exact UO|]. symmetry. apply out_absent. exact NO.
  + intros x Hx0. cbn [drop rl_own] in Hx0. apply out_In in Hx0. apply (up_sized _ _ _ _ _ _ U). tauto.
  + intros a0 e0 [[=]|Ha]. apply in_app_iff in Ha. destruct Ha as [Ha|Ha]; [|apply (up_init _ _ _ _ _ _ U); apply in_or_app; left; apply in_or_app; auto].
    unfold gone in Ha. destruct md; [destruct Ha|destruct Ha as [[=]|[]]].
  + intros x Hx0 N. cbn [drop rl_own]. apply out_In. split; [auto|congruence].
  + intros q [= <-]. exists (fst sg). right. exists (snd sg). rewrite <- Er. exact Hr.
  + unfold gch, gone. destruct (md_dec md) as [Em|Em]; [pose proof (El Em) as El'; rewrite Em|unfold lent_large in HL; rewrite Em in *].
    * split; [right|left; auto]. exists (TL r), p, (rg_size r). rewrite Er. cbn. split; [rewrite <- Er; exact El'|auto].
    * auto.
  + unfold bts at 1. rewrite filter_app. fold (bts E). apply Permutation_app_tail. destruct (md_dec md) as [Em|Em]; [rewrite (El Em); apply Permutation_refl|unfold lent_large in HL; rewrite Em in HL; subst l; apply Permutation_refl].
  + rewrite bts_TF. unfold bts at 1. rewrite filter_app. fold (bts E) (bts (gone p)). rewrite G3. apply Permutation_refl.
  + intros f x _ _. cbn [ra_put st_os set_st_os set_st_ra]. rewrite E1. reflexivity.
  + split; [eauto|]. split; [auto|]. split.
    * apply mine_TF. unfold gone. destruct md; [exact ME|apply mine_cons; [exact Logic.I|exact ME]].
    * unfold Q. rewrite <- Er. split; [auto|]. apply (geo_ok (st_os s)). apply (gi_reg _ _ _ _ I). exact Hr.
Qed.

(** ** the quarantine for large blocks *)
Lemma pass_csafe tid f x E a e : In (TI a e) E -> quiet E -> mine tid E -> (forall q, fl_in f q = in_pages (fst x) (snd x) q) -> fst x <> 0 ->
  csafe tid (p_ra (act (region_quarantine_pass g x))) (TF f :: E)
    (fun t r' => if fst t =? 0 then r' = E else exists f', r' = TF f' :: E /\ forall q, fl_in f' q = in_pages (fst t) (snd t) q).
Proof.
  intros Hi QE ME Hf NZ. set (Q := fun _ _ => _). change (csafe tid (act (on_ra (region_quarantine_pass g x))) (TF f :: E) Q). apply (csafe_up g md sz tid _ _ a e); [right; exact Hi|].
  intros s rest bal LL T U O Es Ee. apply wp_zoom. pose proof (up_inv _ _ _ _ _ _ U) as I. rewrite flights_app in I. cbn [flights flat_map app] in I. fold (flights E) in I. rewrite QE in I. cbn [app] in I.
  set (LW := mkRegs (rl_own LL) (rl_open LL) false (rl_base LL)).
  assert (ginv g s LW (f :: flights rest)) as IW by (eapply ginv_regs; [exact I|discriminate|reflexivity|apply Permutation_refl]).
  assert (up bal s LW ((TF f :: E) ++ rest)) as UW.
  { destruct U as [u1 u2 u3 u4 u5 u6 u7]. constructor; auto. rewrite flights_app. cbn [flights flat_map app]. fold (flights E). rewrite QE. exact IW. }
  clear U I. rename UW into U, IW into I. rewrite <- (ra_put_get s) in I.
  eapply wp_mono; [apply (quarantine_pass_wp g s (ra_get s) LW (flights rest) f x I ltac:(discriminate) Hf NZ)| |apply rng_e].
  intros t rs' (R & _ & Z1 & Z2 & _). unfold Q. destruct (Z.eqb_spec (fst t) 0) as [E0|E0].
  - exists E. edestruct (up_calm bal s LW (ra_put rs' s) (TF f :: E) E rest U) as [U' K']; auto using place_ra.
    + apply os_in_chg, os_in_rel. exact R.
    + rewrite QE. auto.
    + intros; right; auto.
    + apply calm_in, os_in_rel. exact R.
    + split; [eauto|]. auto.
  - destruct (Z2 E0) as (f' & Hf' & I'). exists (TF f' :: E). edestruct (up_calm bal s LW (ra_put rs' s) (TF f :: E) (TF f' :: E) rest U) as [U' K']; auto using place_ra.
    + apply os_in_chg, os_in_rel. exact R.
    + cbn [flights flat_map app]. fold (flights E). rewrite QE. exact I'.
    + intros a0 e0 [[=]|H]; right; auto.
    + apply calm_in, os_in_rel. exact R.
    + split; [eauto|]. split; [auto|]. split; [apply mine_TF; auto|]. eauto.
Qed.
Lemma ra_os_csafe {A} tid (m : M os A) r (Q : A -> list tok -> Prop) : csafe tid (p_os (act m)) r Q -> csafe tid (p_ra (act (ra_sys m))) r Q.
Proof. intros H. exact (csafe_psys g md sz tid (act m) r Q H). Qed.
Lemma quarantine_csafe tid f p size gd E a e : In (TI a e) E -> quiet E -> mine tid E -> 4096 <= p - gd -> p < 2 ^ 47 -> 0 < size < 2 ^ 47 -> 0 <= gd < 2 ^ 47 ->
  (forall q, fl_in f q = in_pages (p - gd) (size + 2 * gd) q) ->
  csafe tid (p_ra (regions_quarantine_deallocate_pages g p size gd)) (TF f :: E) (fun _ r' => r' = E).
Proof.
  change (2 ^ 47) with 140737488355328. intros Hi QE ME H1 H2 H3 H4 H5. unfold regions_quarantine_deallocate_pages. destruct (_ || _).
  { apply csafe_psys. apply (deallocate_pages_csafe tid f p size gd E a e); auto; try (change (2 ^ 48) with 281474976710656; lia). intros q Hq. rewrite H5. exact Hq. }
  assert (forall q, in_pages p size q = true -> fl_in f q = true) as SU. { intros q Hq. rewrite H5. eapply in_pages_sub; [| |exact Hq]; lia. }
  apply csafe_zoom_bind. eapply csafe_bind with (Q := fun _ r' => exists f2, r' = TF f2 :: E /\ forall q, fl_in f2 q = fl_in f q).
  { apply ra_os_csafe. apply (os_csafe tid _ _ a e); [right; exact Hi|]. intros o H C. eapply wp_mono; [apply memory_map_fixed_wp| |auto]. intros [] o1; cbn beta iota.
    - intros ->. eexists. split; [apply os_failed; auto|]. split; [apply mine_TF; auto|]. exists f. auto.
    - intros (-> & _). exists (TF (mkFl (fl_in f) (fun q => if in_pages p size q then PNone else fl_prot f q)) :: E). split; [|split; [apply mine_TF; auto|eexists; split; [reflexivity|auto]]].
      apply os_change; auto.
      + apply os_in_chg, os_in_mapped. auto.
      + cbn [fl_in fl_prot]. intros q Hq. rewrite mapped_os_none. destruct (in_pages p size q); [auto|]. apply (H f q); [left; auto|auto]. }
  intros b r' (f2 & -> & Hf2). apply csafe_zoom_bind. eapply csafe_bind with (Q := fun _ r' => r' = TF f2 :: E).
  { destruct b; [|reflexivity]. apply csafe_zoom_bind. eapply csafe_bind with (Q := fun _ r' => r' = TF f2 :: E); [|intros _ r' ->; reflexivity].
    apply ra_os_csafe. apply (os_csafe tid _ _ a e); [right; exact Hi|]. intros o H C. eapply wp_mono; [apply memory_purge_wp| |auto]. intros b o1 W. exists (TF f2 :: E). split; [|split; [apply mine_TF; auto|auto]].
    destruct b; [subst o1; apply os_failed; auto|]. destruct W as (-> & _). apply os_same; auto. apply os_in_chg, os_in_purged. intros q Hq. exists f2. split; [left; auto|]. rewrite Hf2. auto. }
  intros _ r' ->. rewrite (w64_small (p - gd)), (w64_small (size + gd * 2)) by (change (2 ^ 64) with 18446744073709551616; lia). replace (size + gd * 2) with (size + 2 * gd) by lia.
  apply csafe_zoom_bind. eapply csafe_bind; [apply (pass_csafe tid f2 (p - gd, size + 2 * gd) E a e Hi QE ME)|].
  - intros q. rewrite Hf2. apply H5.
  - cbn [fst]. lia.
  - intros t r'. cbn beta. destruct (fst t =? 0); [intros ->; reflexivity|]. intros (f3 & -> & Hf3). apply csafe_zoom_bind. eapply csafe_bind with (Q := fun _ r' => r' = E); [|intros _ r' ->; reflexivity].
    apply ra_os_csafe. apply (os_csafe tid _ _ a e); [right; exact Hi|]. intros o H C. eapply wp_mono; [apply memory_unmap_wp| |auto]. intros b4 o1 W. exists E. split; [|auto]. apply os_lose; auto.
    destruct b4; [subst o1; apply os_chg_failed|]. destruct W as (-> & _). apply os_chg_unmapped. intros q Hq. rewrite Hf3. auto.
Qed.

Lemma mine_gone' tid p E : mine tid E -> mine tid (gone p ++ E).
Proof. unfold gone, P_Conc2.gone. intros H. destruct (md_dec md) as [Em|Em]; [replace (if md then [] else [TD p]) with (@nil tok) by (rewrite Em; auto); exact H|]. replace (if md then [] else [TD p]) with [TD p] by (rewrite Em; auto). apply mine_cons; [exact Logic.I|exact H]. Qed.
(** ** allocate_large, deallocate_large *)
Definition got_large (t : tok) (p n : Z) : Prop := if md then exists gd, t = TL (mkRegion p n gd) else t = TG p.
Lemma got_owns t p n : got_large t p n -> owns t p n. Proof. unfold got_large, owns, P_Conc2.owns. destruct md; auto. Qed.
Lemma allocate_large_csafe tid n E a e : may_own md sz -> In (TI a e) E -> quiet E -> opens E = [] -> mine tid E -> 0 <= n < 2 ^ 64 ->
  csafe tid (p_ra (allocate_large g n)) E (fun x r' => match x with None => r' = E | Some p => exists t, r' = t :: E /\ got_large t p (get_large_size_class g n) /\ get_large_size_class g n <> 0 end).
Proof.
  intros MO Hi QE OE ME Hn. destruct (large_any g n Hn) as (B1 & _ & B3). unfold allocate_large. set (size := get_large_size_class g n) in *.
  destruct (Z.eqb_spec size 0) as [Z0|Z0].
  { apply csafe_zoom_bind. eapply csafe_bind; [apply ra_os_csafe, (os_errno_csafe tid ENOMEM E a e Hi ME)|]. intros _ r' ->. reflexivity. }
  apply csafe_zoom_bind. eapply csafe_bind; [apply (guard_csafe tid size E a e Hi ME B1)|]. intros gd r' (-> & G). pose proof G as (G1 & G2 & G3).
  apply csafe_zoom_bind. eapply csafe_bind; [apply csafe_psys, (allocate_pages_csafe tid size gd E a e Hi QE ME); auto; lia|].
  intros [p|] r'; [|intros ->; reflexivity]. intros (-> & Ge). set (r := mkRegion p size gd) in *.
  apply csafe_zoom_bind. eapply csafe_bind; [apply (insert_csafe tid true r E a e MO Hi QE OE ME Ge B3 G)|]. intros [] r'.
  - intros ->. apply csafe_zoom_bind. destruct Ge as (_ & _ & K1 & K2 & K3 & K4). cbn [r rg_p rg_size rg_guard] in *. change (2 ^ 47) with 140737488355328 in *.
    eapply csafe_bind; [apply csafe_psys, (deallocate_pages_csafe tid (rflight r) p size gd E a e Hi QE ME); auto; change (2 ^ 48) with 281474976710656; lia|]. intros _ r' ->. reflexivity.
  - intros (t & -> & Ht). cbn. exists t. split; [auto|]. split; [|auto]. unfold got_large. revert Ht. destruct md; [intros ->; exists gd; reflexivity|auto].
Qed.
Lemma allocate_large_aligned_csafe tid k n E a e : m_ob sz -> may_own md sz -> In (TI a e) E -> quiet E -> opens E = [] -> mine tid E -> 0 <= n < 2 ^ 64 -> 12 < k < 64 ->
  csafe tid (p_ra (allocate_large_aligned g (2 ^ k) n)) E (fun x r' => match x with inl _ => r' = E | inr p => exists t, r' = t :: E /\ got_large t p (get_large_size_class g n) /\ get_large_size_class g n <> 0 end).
Proof.
  intros OB MO Hi QE OE ME Hn Hk. destruct (large_any g n Hn) as (B1 & _ & B3). unfold allocate_large_aligned. set (size := get_large_size_class g n) in *.
  destruct (Z.eqb_spec size 0) as [Z0|Z0]; [reflexivity|].
  apply csafe_zoom_bind. eapply csafe_bind; [apply (guard_csafe tid size E a e Hi ME B1)|]. intros gd r' (-> & G). pose proof G as (G1 & G2 & G3).
  apply csafe_zoom_bind. eapply csafe_bind; [apply csafe_psys, (allocate_pages_aligned_csafe tid size k gd E a e OB Hi QE ME); auto; lia|].
  intros [p|] r'; [|intros ->; reflexivity]. intros (-> & Ge & _). set (r := mkRegion p size gd) in *.
  apply csafe_zoom_bind. eapply csafe_bind; [apply (insert_csafe tid false r E a e MO Hi QE OE ME Ge B3 G)|]. intros [] r'.
  - intros ->. apply csafe_zoom_bind. destruct Ge as (_ & _ & K1 & K2 & K3 & K4). cbn [r rg_p rg_size rg_guard] in *. change (2 ^ 47) with 140737488355328 in *.
    eapply csafe_bind; [apply csafe_psys, (deallocate_pages_csafe tid (rflight r) p size gd E a e Hi QE ME); auto; change (2 ^ 48) with 281474976710656; lia|]. intros _ r' ->. reflexivity.
  - intros (t & -> & Ht). cbn. exists t. split; [auto|]. split; [|auto]. unfold got_large. revert Ht. destruct md; [intros ->; exists gd; reflexivity|auto].
Qed.
Lemma deallocate_large_csafe tid p ex l E a e : In (TI a e) E -> quiet E -> opens E = [] -> mine tid E -> lent_large p l -> (ex = None \/ m_sz sz = true) ->
  csafe tid (p_ra (deallocate_large g p ex)) (l ++ E) (fun _ r' => r' = gone p ++ E).
Proof.
  intros Hi QE OE ME HL Hx. unfold deallocate_large. apply csafe_zoom_bind. eapply csafe_bind; [apply (remove_csafe tid p ex l E a e Hi QE OE ME HL Hx)|].
  intros [size gd] r'. cbn [fst snd]. intros (-> & Ge). destruct Ge as (_ & _ & K1 & K2 & K3 & K4). cbn [rg_p rg_size rg_guard] in *. change (2 ^ 47) with 140737488355328 in *.
  apply (quarantine_csafe tid _ p size gd (gone p ++ E) a e); try (change (2 ^ 47) with 140737488355328; lia).
  - apply in_or_app. auto.
  - unfold quiet. rewrite flights_app. unfold gone. destruct md; exact QE.
  - apply mine_gone', ME.
  - reflexivity.
Qed.
End M.
