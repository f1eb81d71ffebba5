(** Size class: slot lookup, quarantine bits and the quarantine arrays. *)
From Coq Require Import String ZArith List Bool Lia ZifyBool Permutation.
From Verif Require Import M_Base M_Config M_SizeClass M_Libdivide M_OS M_Random M_Slab
  P_Base P_Count P_SizeClass P_Libdivide P_Random P_Bitmap P_Bitmap2 P_OS P_Links P_Slab1 P_Slab2 P_Slab3 P_Slab4 P_Slab5.
Import ListNotations.
Open Scope Z_scope.
Ltac Zify.zify_post_hook ::= idtac.

(** what deallocation never changes *)
Record dsame (c c' : size_class) : Prop := {
  ds_start : c_start c' = c_start c;
  ds_info : c_info c' = c_info c;
  ds_can : forall i, can c' i = can c i;
  ds_mc : c_mcount c' = c_mcount c;
  ds_ma : c_mallocated c' = c_mallocated c
}.
Lemma dsame_refl c : dsame c c. Proof. constructor; auto. Qed.
Lemma dsame_trans c1 c2 c3 : dsame c1 c2 -> dsame c2 c3 -> dsame c1 c3.
Proof. intros [] []. constructor; intros; congruence. Qed.

Lemma u16_any bound s : rng_ok (r_rng s) ->
  wp (get_random_u16_uniform bound) s
    (fun v s' => 0 <= v /\ (v < w16 bound \/ w16 bound = 0 /\ v = 0) /\ rng_ok (r_rng s') /\ os_rel (r_os s) (r_os s')) rng_fault.
Proof.
  intros R. assert (get_random_u16_uniform bound = get_random_u16_uniform (w16 bound)) as ->.
  { unfold get_random_u16_uniform. assert (w16 (w16 bound) = w16 bound) as ->; [|reflexivity].
    apply w16_small. apply w16_range. }
  apply u16_uniform_ok; [auto|]. apply w16_range.
Qed.

Section P6.
Context (g : config) (k : Z).
Local Notation n := (get_slots g k).
Local Notation sz := (slot_size g k).
Local Notation b := (slab_size_of g k).

(** result of the lookup *)
Definition located (c : size_class) (p i slab j : Z) : Prop :=
  0 <= i < c_mallocated c /\ i < get_metadata_max g b /\ slab = slabp g k c i /\ 0 <= p - slabp g k c i < b /\ j = (p - slabp g k c i) / sz /\ 0 <= j < 256.
Lemma locate_in_wp o c p P E F X L : cinvX g k o c P E F X L -> 0 <= p < 2 ^ 64 ->
  wp (locate g b p) (mkCst o c)
    (fun r s' => s' = mkCst o c /\ let '(i, slab, j) := r in located c p i slab j)
    (fun f => f = Fatal "invalid free within a slab yet to be used" /\ forall i j, is_slab g c i -> 0 <= j < n -> ~ sptr g k c i j <= p < sptr g k c i j + sz).
Proof.
  intros I Hp. pose proof I as [G Me Sl Li Ma Qu Pg Et Rn Fq]. pose proof (class_facts_all g k (ge_k _ _ _ G)) as [].
  pose proof (ge_start _ _ _ G) as (S1 & S2 & S3). pose proof (meta_max_bounds g k c G) as [[K1 K2] K3]. pose proof Me as []. pose proof (ucfg_of g (ge_u _ _ _ G)) as [].
  change (2 ^ 28) with 268435456 in *. change (2 ^ 64) with 18446744073709551616 in Hp. change (2 ^ 47) with 140737488355328 in *.
  unfold locate, get_metadata. apply wp_bind, wp_bind, wp_gets. cbn [cs_c].
  pose proof (w64_range (p - c_start c)) as W. rewrite (div_slab g k c G) by auto.
  assert (forall i, is_slab g c i -> 0 <= i < c_mallocated c) as SR by (intros i Is; apply (slab_range g k o c _ _ _ _ _ i I Is)).
  destruct (Z.leb_spec (c_mallocated c) (w64 (p - c_start c) / b)) as [Out|In].
  - apply wp_fail. split; [auto|]. intros i j Is Hj Hin. specialize (SR i Is).
    pose proof (slot_in_slab g k c G i j Hj). pose proof (slab_in_region g k c G i ltac:(lia)).
    assert (w64 (p - c_start c) = p - c_start c) as E1.
    { apply w64_small. change (2 ^ 64) with 18446744073709551616. lia. }
    rewrite E1 in Out. assert ((p - c_start c) / b < i + 1) by (apply Z.div_lt_upper_bound; [lia|]; unfold slabp in *; lia). lia.
  - apply wp_ret. apply wp_bind, wp_gets. cbn [cs_c].
    assert (0 <= w64 (p - c_start c) / b) by (apply Z.div_pos; lia). set (i := w64 (p - c_start c) / b) in *.
    assert (i < get_metadata_max g b) by lia. rewrite (get_slab_eq g k c G) by lia.
    pose proof (Z.div_mod (w64 (p - c_start c)) b ltac:(lia)) as D. pose proof (Z.mod_pos_bound (w64 (p - c_start c)) b ltac:(lia)) as Mb. fold i in D.
    assert ((i + 1) * b <= get_metadata_max g b * b) by (apply Z.mul_le_mono_nonneg_r; lia).
    assert (w64 (p - c_start c) = p - c_start c) as E1.
    { unfold w64 in *. destruct (Z.lt_ge_cases p (c_start c)); [|apply Z.mod_small; change (2 ^ 64) with 18446744073709551616; lia].
      replace ((p - c_start c) mod 2 ^ 64) with (p - c_start c + 18446744073709551616) in * by (apply Z.mod_unique with (-1); change (2 ^ 64) with 18446744073709551616; lia).
      rewrite (Z.mul_comm (i + 1)), Z.mul_add_distr_l in *. lia. }
    assert (0 <= p - slabp g k c i < b) as Off by (unfold slabp; rewrite (Z.mul_comm i b); lia).
    assert (w32 (p - slabp g k c i) = p - slabp g k c i) as E2 by (apply w32_small; change (2 ^ 32) with 4294967296; lia).
    rewrite E2, (div_slot g k c G) by (change (2 ^ 32) with 4294967296; lia).
    apply wp_ret. split; [auto|]. unfold located. repeat split; try lia; try reflexivity.
    + apply Z.div_pos; lia.
    + apply Z.div_lt_upper_bound; lia.
Qed.
Lemma locate_wp o c p P E F X L : cinvX g k o c P E F X L -> 0 <= p < 2 ^ 64 ->
  wp (locate g b p) (mkCst o c)
    (fun r s' => s' = mkCst o c /\ let '(i, slab, j) := r in located c p i slab j)
    (fun f => f = Fatal "invalid free within a slab yet to be used" /\ forall i j, is_slab g c i -> 0 <= j < n -> p <> sptr g k c i j).
Proof.
  intros I Hp. pose proof (class_facts_all g k (ge_k _ _ _ (ci_geom _ _ _ _ _ _ _ _ _ I))) as [].
  eapply wp_mono; [eapply locate_in_wp; eassumption|auto|]. intros f [-> H]. split; [auto|]. intros i j Is Hj Ep. apply (H i j Is Hj). lia.
Qed.
Lemma located_sptr c p i slab j : geom g k c -> located c p i slab j -> (slot_pointer sz slab j =? p) = (sptr g k c i j =? p).
Proof. intros G (H1 & H2 & -> & H3 & H4 & H5). rewrite (slot_pointer_eq g k c G) by lia. reflexivity. Qed.
Lemma located_unique c p i slab j i' j' : geom g k c -> located c p i slab j -> p = sptr g k c i' j' -> 0 <= j' < n -> i' = i /\ j' = j.
Proof.
  intros G (H1 & H2 & -> & H3 & H4 & H5) -> Hj. pose proof (class_facts_all g k (ge_k _ _ _ G)) as [].
  pose proof (slot_in_slab g k c G i' j' Hj). assert (i' = i) as -> by (unfold slabp in *; nia). split; [auto|].
  rewrite H4. unfold sptr. symmetry. replace (slabp g k c i + j' * sz - slabp g k c i) with (j' * sz) by lia. apply Z.div_mul. lia.
Qed.

(** ** quarantine bits *)
Lemma cinvX_qbit o c P E F X L L' i bm : cinvX g k o c P E F X L ->
  let c' := smap i (set_sb_qbitmap bm) c in
  bm_ok bm -> (forall j, 0 <= j < 256 -> bm_get bm j = true -> used c i j = true) -> quar_ok g k c' L' ->
  cinvX g k o c' P E F X L' /\ dsame c c' /\ sstats c c' /\ (forall i' j', used c' i' j' = used c i' j') /\ (forall x, cntof c' x = cntof c x) /\ nact g c' F = nact g c F.
Proof.
  intros I c' Hb Hu Hq. pose proof I as [G Me Sl Li Ma Qu Pg Et Rn Fq].
  assert (forall x, nxt c' x = nxt c x) as En by vw.
  assert (forall x, prv c' x = prv c x) as Ep by vw.
  assert (forall x, cntof c' x = cntof c x) as Ec by vw.
  assert (forall x y, used c' x y = used c x y) as Eu by vw.
  split; [|split; [constructor; vw|split; [repeat split|split; [auto|split; [auto|reflexivity]]]]].
  constructor; auto; try fr.
  - intros x. unfold c'. rewrite smap_slabs. destruct (Z.eqb_spec x i) as [->|]; [|auto]. destruct (Sl i). constructor; cbn; auto.
  - eapply linked_ext; [..|exact Li]; auto.
  - eapply matched_ext; [..|exact Ma]; auto.
  - eapply pages_ext; [..|exact Pg]; auto. intros x. unfold active. rewrite Ec. tauto.
Qed.
Lemma quar_slot o c P E F X L i j : cinvX g k o c P E F X L -> 0 <= j < 256 -> used c i j = true -> 0 <= j < n /\ 0 < cntof c i /\ is_slab g c i.
Proof.
  intros I Hj U. destruct (ci_slabs _ _ _ _ _ _ _ _ _ I i). assert (j < n) as Hn.
  { destruct (Z.lt_ge_cases j n); [auto|]. unfold used in U. rewrite so_hi in U by lia. discriminate. }
  assert (0 < cntof c i) as Hc.
  { unfold cntof. rewrite so_cnt. pose proof (zcount_nonneg (bm_get (sb_bitmap (c_slabs c i))) 0 n).
    destruct (Z.eq_dec (zcount (bm_get (sb_bitmap (c_slabs c i))) 0 n) 0) as [Z0|]; [|lia].
    apply (proj1 (zcount_zero _ _ _)) with (x := j) in Z0; [|lia]. unfold used in U. congruence. }
  split; [lia|]. split; [auto|]. apply (ma_s _ _ _ _ _ _ _ (ci_match _ _ _ _ _ _ _ _ _ I)). auto.
Qed.
Lemma quar_used o c P E F X L i j : cinvX g k o c P E F X L -> 0 <= j < 256 -> quar c i j = true -> used c i j = true.
Proof. intros I Hj. destruct (ci_slabs _ _ _ _ _ _ _ _ _ I i). apply so_q. auto. Qed.

Lemma cinvX_setq o c P E F X L i j : cinvX g k o c P E F X L -> 0 <= j < n -> used c i j = true -> quar c i j = false ->
  let c' := smap i (fun m => set_sb_qbitmap (bm_set (sb_qbitmap m) j) m) c in
  cinvX g k o c' P E F X (sptr g k c i j :: L) /\ dsame c c' /\ sstats c c' /\ (forall i' j', used c' i' j' = used c i' j') /\
  (forall x, cntof c' x = cntof c x) /\ nact g c' F = nact g c F /\
  (forall i' j', 0 <= j' < 256 -> quar c' i' j' = quar c i' j' || ((i' =? i) && (j' =? j))).
Proof.
  intros I Hj Hu Hq c'. pose proof I as [G Me Sl Li Ma Qu Pg Et Rn Fq]. pose proof (class_facts_all g k (ge_k _ _ _ G)) as [].
  assert (forall i' j', 0 <= j' < 256 -> quar c' i' j' = quar c i' j' || ((i' =? i) && (j' =? j))) as Eq.
  { intros i' j' Hj'. unfold quar, c'. rewrite smap_slabs. destruct (Z.eqb_spec i' i) as [->|]; cbn; [|now rewrite orb_false_r].
    destruct (Sl i). rewrite bm_get_set by (auto; lia). destruct (j' =? j); [now rewrite orb_true_r|now rewrite orb_false_r]. }
  change c' with (smap i (set_sb_qbitmap (bm_set (sb_qbitmap (c_slabs c i)) j)) c) in *.
  destruct (cinvX_qbit o c P E F X L (sptr g k c i j :: L) i (bm_set (sb_qbitmap (c_slabs c i)) j) I) as (H1 & H2 & H3 & H4 & H5 & H6).
  - apply bm_set_ok; [apply Sl|lia].
  - intros j' Hj'. destruct (Sl i). rewrite bm_get_set by (auto; lia). destruct (Z.eqb_spec j' j) as [->|]; [auto|]. cbn. intros. apply so_q; auto.
  - destruct Qu. constructor; auto; cbn [c_qrandom c_qqueue smap set_c_slabs app].
    + constructor; [|exact qu_nd]. intros Hin. apply qu_in in Hin. destruct Hin as (i' & j' & Hj' & Q' & Es).
      apply (sptr_inj g k c G) in Es; auto. destruct Es as [<- <-]. congruence.
    + intros p. split.
      * intros [<-|Hin]; [exists i, j; split; [auto|]; split; [|reflexivity]; rewrite Eq by lia; rewrite !Z.eqb_refl; now rewrite orb_true_r|].
        apply qu_in in Hin. destruct Hin as (i' & j' & Hj' & Q' & Es). exists i', j'. split; [auto|]. split; [|auto]. rewrite Eq by lia. rewrite Q'. reflexivity.
      * intros (i' & j' & Hj' & Q' & Es). rewrite Eq in Q' by lia. apply orb_prop in Q'. destruct Q' as [Q'|Q'].
        -- right. apply qu_in. exists i', j'. auto.
        -- left. assert (i' = i /\ j' = j) as [-> ->] by lia. rewrite Es. reflexivity.
  - auto 8.
Qed.
Lemma cinvX_clearq o c P E F X i j L : cinvX g k o c P E F X (sptr g k c i j :: L) -> 0 <= j < n -> quar c i j = true ->
  let c' := smap i (fun m => set_sb_qbitmap (bm_clear (sb_qbitmap m) j) m) c in
  cinvX g k o c' P E F X L /\ dsame c c' /\ sstats c c' /\ (forall i' j', used c' i' j' = used c i' j') /\
  (forall x, cntof c' x = cntof c x) /\ nact g c' F = nact g c F /\
  (forall i' j', 0 <= j' < 256 -> quar c' i' j' = quar c i' j' && negb ((i' =? i) && (j' =? j))).
Proof.
  intros I Hj Hq c'. pose proof I as [G Me Sl Li Ma Qu Pg Et Rn Fq]. pose proof (class_facts_all g k (ge_k _ _ _ G)) as [].
  assert (forall i' j', 0 <= j' < 256 -> quar c' i' j' = quar c i' j' && negb ((i' =? i) && (j' =? j))) as Eq.
  { intros i' j' Hj'. unfold quar, c'. rewrite smap_slabs. destruct (Z.eqb_spec i' i) as [->|]; cbn; [|now rewrite andb_true_r].
    destruct (Sl i). rewrite bm_get_clear by (auto; lia). destruct (j' =? j); cbn; [now rewrite andb_false_r|now rewrite andb_true_r]. }
  change c' with (smap i (set_sb_qbitmap (bm_clear (sb_qbitmap (c_slabs c i)) j)) c) in *.
  destruct (cinvX_qbit o c P E F X (sptr g k c i j :: L) L i (bm_clear (sb_qbitmap (c_slabs c i)) j) I) as (H1 & H2 & H3 & H4 & H5 & H6).
  - apply bm_clear_ok; [apply Sl|lia].
  - intros j' Hj'. destruct (Sl i). rewrite bm_get_clear by (auto; lia). destruct (Z.eqb_spec j' j) as [->|]; [discriminate|]. intros. apply so_q; auto.
  - destruct Qu. constructor; auto; cbn [c_qrandom c_qqueue smap set_c_slabs app] in *.
    + now inversion qu_nd.
    + inversion qu_nd as [|? ? Ni Nd]; subst. intros p. split.
      * intros Hin. assert (p <> sptr g k c i j) as Np by (intros ->; auto). assert (In p (sptr g k c i j :: L ++ nz (c_qrandom c ++ c_qqueue c))) as Hin' by now right.
        apply qu_in in Hin'. destruct Hin' as (i' & j' & Hj' & Q' & Es). exists i', j'. split; [auto|]. split; [|auto]. rewrite Eq by lia. rewrite Q'.
        destruct (Z.eqb_spec i' i) as [->|]; [|reflexivity]. destruct (Z.eqb_spec j' j) as [->|]; [congruence|reflexivity].
      * intros (i' & j' & Hj' & Q' & Es). rewrite Eq in Q' by lia. apply andb_prop in Q'. destruct Q' as [Q' N'].
        assert (In p (sptr g k c i j :: L ++ nz (c_qrandom c ++ c_qqueue c))) as Hin' by (apply qu_in; exists i', j'; auto).
        destruct Hin' as [Hp|Hin']; [|auto]. change (sptr g k (smap i (set_sb_qbitmap (bm_clear (sb_qbitmap (c_slabs c i)) j)) c) i' j') with (sptr g k c i' j') in Es.
        rewrite Es in Hp. apply (sptr_inj g k c G) in Hp; auto. destruct Hp as [<- <-]. rewrite !Z.eqb_refl in N'. discriminate.
  - auto 8.
Qed.

(** ** the arrays *)
Definition qlist (o : option Z) : list Z := match o with Some x => [x] | None => [] end.
(** one pass of a freed slot through the two stages *)
Definition qrel (p : Z) (c c' : size_class) (out : option Z) : Prop :=
  exists mid,
    (if 0 <? SLAB_QUARANTINE_RANDOM_LENGTH g
     then exists t, 0 <= t < slab_quarantine_random_length g sz /\ lget (c_qrandom c) t = Some mid /\ c_qrandom c' = lset (c_qrandom c) t p
     else c_qrandom c' = c_qrandom c /\ mid = p) /\
    (if mid =? 0 then out = None /\ c_qqueue c' = c_qqueue c /\ c_qqidx c' = c_qqidx c
     else if 0 <? SLAB_QUARANTINE_QUEUE_LENGTH g
     then exists old, lget (c_qqueue c) (c_qqidx c) = Some old /\ c_qqueue c' = lset (c_qqueue c) (c_qqidx c) mid /\
            c_qqidx c' = (c_qqidx c + 1) mod slab_quarantine_queue_length g sz /\ out = (if old =? 0 then None else Some old)
     else c_qqueue c' = c_qqueue c /\ c_qqidx c' = c_qqidx c /\ out = Some mid).

Lemma nz_app l1 l2 : nz (l1 ++ l2) = nz l1 ++ nz l2. Proof. apply filter_app. Qed.
Lemma nz_set (l : list Z) t x y : lget l t = Some x -> Permutation (nz [y] ++ nz l) (nz [x] ++ nz (lset l t y)).
Proof.
  intros H. destruct (lget_split l t x y H) as (l1 & l2 & -> & ->).
  replace (l1 ++ x :: l2) with (l1 ++ [x] ++ l2) by reflexivity. replace (l1 ++ y :: l2) with (l1 ++ [y] ++ l2) by reflexivity.
  rewrite !nz_app. rewrite (Permutation_app_comm (nz l1) (nz [x] ++ nz l2)), (Permutation_app_comm (nz l1) (nz [y] ++ nz l2)).
  rewrite <- !app_assoc. rewrite !app_assoc. apply Permutation_app_tail. apply Permutation_app_tail. apply Permutation_app_comm.
Qed.
Lemma nz1 x : x <> 0 -> nz [x] = [x]. Proof. intros H. unfold nz. cbn. destruct (Z.eqb_spec x 0); [contradiction|reflexivity]. Qed.
Lemma qrel_perm p c c' out : p <> 0 -> qrel p c c' out ->
  Permutation (p :: nz (c_qrandom c ++ c_qqueue c)) (qlist out ++ nz (c_qrandom c' ++ c_qqueue c')).
Proof.
  intros Hp (mid & H1 & H2). rewrite !nz_app.
  assert (Permutation (p :: nz (c_qrandom c)) (nz [mid] ++ nz (c_qrandom c'))) as P1.
  { destruct (0 <? SLAB_QUARANTINE_RANDOM_LENGTH g).
    - destruct H1 as (t & _ & Ht & ->). pose proof (nz_set _ _ _ p Ht) as Q. rewrite (nz1 p Hp) in Q. exact Q.
    - destruct H1 as [-> ->]. rewrite (nz1 p Hp). reflexivity. }
  assert (Permutation (nz [mid] ++ nz (c_qqueue c)) (qlist out ++ nz (c_qqueue c'))) as P2.
  { destruct (Z.eqb_spec mid 0) as [->|Hm].
    - destruct H2 as (-> & -> & _). reflexivity.
    - destruct (0 <? SLAB_QUARANTINE_QUEUE_LENGTH g).
      + destruct H2 as (old & Ho & -> & _ & ->). pose proof (nz_set _ _ _ mid Ho) as Q. rewrite Q.
        apply Permutation_app_tail. destruct (Z.eqb_spec old 0) as [->|N]; [reflexivity|]. now rewrite nz1.
      + destruct H2 as (-> & _ & ->). now rewrite nz1. }
  change (p :: nz (c_qrandom c) ++ nz (c_qqueue c)) with ((p :: nz (c_qrandom c)) ++ nz (c_qqueue c)).
  rewrite P1. rewrite <- app_assoc. rewrite (Permutation_app_comm (nz (c_qrandom c'))). rewrite app_assoc, P2. rewrite <- app_assoc.
  apply Permutation_app_head. apply Permutation_app_comm.
Qed.

Record qsame (c c' : size_class) : Prop := {
  qs_eq : exists r q i rn, c' = set_c_rng rn (set_c_qqidx i (set_c_qqueue q (set_c_qrandom r c)))
}.
Lemma cinvX_arrays o o' c c' P E F X L L' : cinvX g k o c P E F X L -> qsame c c' -> os_rel o o' -> rng_ok (c_rng c') ->
  zlen (c_qrandom c') = zlen (c_qrandom c) -> zlen (c_qqueue c') = zlen (c_qqueue c) ->
  (0 <= c_qqidx c' /\ (0 < SLAB_QUARANTINE_QUEUE_LENGTH g -> c_qqidx c' < slab_quarantine_queue_length g sz)) ->
  Permutation (L ++ nz (c_qrandom c ++ c_qqueue c)) (L' ++ nz (c_qrandom c' ++ c_qqueue c')) ->
  cinvX g k o' c' P E F X L'.
Proof.
  intros I [(r & q & ix & rn & ->)] O R H1 H2 H3 HP. pose proof I as [G Me Sl Li Ma Qu Pg Et Rn Fq]. constructor; auto; try fr.
  - eapply linked_ext; [..|exact Li]; reflexivity.
  - eapply matched_ext; [..|exact Ma]; reflexivity.
  - destruct Qu. constructor; auto; cbn [c_qrandom c_qqueue c_qqidx set_c_rng set_c_qqidx set_c_qqueue set_c_qrandom] in *; try lia.
    + eapply Permutation_NoDup; eassumption.
    + intros p. change (sptr g k (set_c_rng rn (set_c_qqidx ix (set_c_qqueue q (set_c_qrandom r c))))) with (sptr g k c).
      change (quar (set_c_rng rn (set_c_qqidx ix (set_c_qqueue q (set_c_qrandom r c))))) with (quar c). rewrite <- qu_in.
      split; intros Hin; [eapply Permutation_in; [symmetry; exact HP|exact Hin]|eapply Permutation_in; [exact HP|exact Hin]].
  - destruct O. eapply pages_ext; [..|exact Pg]; auto; try reflexivity; [intros; congruence|]. intros x. left. congruence.
Qed.

Lemma quarantine_pass_wp o c P E F X p : cinvX g k o c P E F X [p] -> p <> 0 ->
  wp (quarantine_pass g sz p) (mkCst o c)
    (fun out s' => exists o' c', s' = mkCst o' c' /\ os_rel o o' /\ qsame c c' /\ qrel p c c' out /\ cinvX g k o' c' P E F X (qlist out)) rng_fault.
Proof.
  intros I Hp. pose proof I as [G Me Sl Li Ma Qu Pg Et Rn Fq]. pose proof (class_facts_all g k (ge_k _ _ _ G)) as [].
  pose proof (ucfg_of g (ge_u _ _ _ G)) as []. pose proof Qu as [].
  assert (forall l, 0 <= l -> Z.shiftl l (quarantine_shift g sz) <= Z.shiftl l (MAX_SLAB_SIZE_CLASS_SHIFT g - 4)) as SH.
  { intros l Hl. rewrite !Z.shiftl_mul_pow2 by lia. apply Z.mul_le_mono_nonneg_l; [auto|]. apply Z.pow_le_mono_r; lia. }
  assert (forall l, 0 < l -> 0 < Z.shiftl l (quarantine_shift g sz)) as SP.
  { intros l Hl. rewrite Z.shiftl_mul_pow2 by lia. pose proof (Z.pow_pos_nonneg 2 (quarantine_shift g sz)). nia. }
  unfold quarantine_pass. apply wp_bind.
  eapply wp_mono with (E := rng_fault) (Q := fun out1 s => exists o1 c1 mid, s = mkCst o1 c1 /\ os_rel o o1 /\ out1 = (if mid =? 0 then None else Some mid) /\
     (exists r rn, c1 = set_c_rng rn (set_c_qrandom r c) /\ rng_ok rn /\ zlen r = zlen (c_qrandom c)) /\
     (if 0 <? SLAB_QUARANTINE_RANDOM_LENGTH g
     then exists t, 0 <= t < slab_quarantine_random_length g sz /\ lget (c_qrandom c) t = Some mid /\ c_qrandom c1 = lset (c_qrandom c) t p
     else c_qrandom c1 = c_qrandom c /\ mid = p)).
  - destruct (Z.ltb_spec 0 (SLAB_QUARANTINE_RANDOM_LENGTH g)) as [RL|RL].
    + apply wp_bind, c_rand_wp. eapply wp_mono; [apply u16_any; exact Rn| |auto]. cbn [cs_os cs_c r_os r_rng].
      intros t r (T1 & T2 & R & O). apply wp_bind, wp_gets. cbn [cs_c].
      assert (0 <= t < slab_quarantine_random_length g sz) as Ht.
      { specialize (SP _ RL). change (Z.shiftl (SLAB_QUARANTINE_RANDOM_LENGTH g) (quarantine_shift g sz)) with (slab_quarantine_random_length g sz) in SP.
        destruct T2 as [T2|[_ T2]]; [|lia]. unfold w16 in T2. pose proof (Z.mod_le (slab_quarantine_random_length g sz) (2 ^ 16) ltac:(lia) ltac:(lia)). lia. }
      apply wp_bind. unfold aget. change (c_qrandom (set_c_rng (r_rng r) c)) with (c_qrandom c).
      destruct (lget_in_range (c_qrandom c) t) as [mid Hm].
      { rewrite qu_rl. unfold slab_quarantine_random_length in Ht. specialize (SH (SLAB_QUARANTINE_RANDOM_LENGTH g) ltac:(lia)). lia. }
      rewrite Hm. apply wp_ret. apply wp_bind, upd_c_wp, wp_ret. cbn [cs_os cs_c].
      do 2 eexists. exists mid. split; [reflexivity|]. split; [exact O|]. split; [reflexivity|]. split.
      * exists (lset (c_qrandom c) t p), (r_rng r). split; [reflexivity|]. split; [auto|]. apply lset_zlen.
      * exists t. auto.
    + apply wp_ret. exists o, c, p. split; [auto|]. split; [apply os_rel_refl|]. destruct (Z.eqb_spec p 0); [contradiction|]. split; [reflexivity|]. split.
      * exists (c_qrandom c), (c_rng c). destruct c; cbn in *; auto.
      * auto.
  - intros out1 s (o1 & c1 & mid & -> & O1 & -> & (r & rn & Ec & Rr & Lr) & H1).
    assert (forall c2 out, qrel p c c2 out -> qsame c c2 -> rng_ok (c_rng c2) -> zlen (c_qrandom c2) = zlen (c_qrandom c) -> zlen (c_qqueue c2) = zlen (c_qqueue c) ->
       (0 <= c_qqidx c2 /\ (0 < SLAB_QUARANTINE_QUEUE_LENGTH g -> c_qqidx c2 < slab_quarantine_queue_length g sz)) ->
       exists o' c', mkCst o1 c2 = mkCst o' c' /\ os_rel o o' /\ qsame c c' /\ qrel p c c' out /\ cinvX g k o' c' P E F X (qlist out)) as K.
    { intros c2 out HR QS R2 L1 L2 Ix. exists o1, c2. split; [auto|]. split; [auto|]. split; [auto|]. split; [auto|].
      eapply cinvX_arrays; eauto. apply qrel_perm; auto. }
    destruct (Z.eqb_spec mid 0) as [->|Nm].
    + apply wp_ret. apply K.
      * exists 0. split; [exact H1|]. rewrite Z.eqb_refl. subst c1. auto.
      * constructor. exists r, (c_qqueue c), (c_qqidx c), rn. subst c1. destruct c; reflexivity.
      * subst c1. auto.
      * subst c1. auto.
      * subst c1. auto.
      * subst c1. auto.
    + destruct (Z.ltb_spec 0 (SLAB_QUARANTINE_QUEUE_LENGTH g)) as [QL|QL].
      * specialize (SP _ QL). fold (slab_quarantine_queue_length g sz) in SP. destruct qu_i as [Q0 Q1]. specialize (Q1 QL).
        apply wp_bind, wp_gets. cbn [cs_c]. assert (c_qqueue c1 = c_qqueue c) as -> by (subst c1; reflexivity). assert (c_qqidx c1 = c_qqidx c) as -> by (subst c1; reflexivity).
        apply wp_bind. unfold aget. destruct (lget_in_range (c_qqueue c) (c_qqidx c)) as [old Ho].
        { rewrite qu_ql. unfold slab_quarantine_queue_length in Q1. specialize (SH (SLAB_QUARANTINE_QUEUE_LENGTH g) ltac:(lia)). lia. }
        rewrite Ho. apply wp_ret. apply wp_bind, upd_c_wp. apply wp_bind, upd_c_wp, wp_ret. cbn [cs_os cs_c].
        assert (w64 (c_qqidx c + 1) = c_qqidx c + 1) as W.
        { apply w64_small. assert (slab_quarantine_queue_length g sz <= 65536 * 2 ^ 15).
          { unfold slab_quarantine_queue_length. rewrite Z.shiftl_mul_pow2 by lia. apply Z.mul_le_mono_nonneg; try lia.
            apply Z.pow_le_mono_r; [lia|]. unfold MAX_SLAB_SIZE_CLASS_SHIFT in cf_shift. destruct (EXTENDED_SIZE_CLASSES g); lia. }
          lia. }
        apply K.
        -- exists mid. split; [exact H1|]. rewrite (proj2 (Z.eqb_neq mid 0) Nm). replace (0 <? SLAB_QUARANTINE_QUEUE_LENGTH g) with true by lia.
           exists old. split; [exact Ho|]. cbn. subst c1. cbn. rewrite W. auto.
        -- constructor. exists r, (lset (c_qqueue c) (c_qqidx c) mid), ((c_qqidx c + 1) mod slab_quarantine_queue_length g sz), rn. subst c1. cbn. rewrite W. reflexivity.
        -- subst c1. auto.
        -- subst c1. auto.
        -- subst c1. cbn. apply lset_zlen.
        -- subst c1. cbn. rewrite W. pose proof (Z.mod_pos_bound (c_qqidx c + 1) (slab_quarantine_queue_length g sz) ltac:(lia)). lia.
      * apply wp_ret. apply K.
        -- exists mid. split; [exact H1|]. rewrite (proj2 (Z.eqb_neq mid 0) Nm). replace (0 <? SLAB_QUARANTINE_QUEUE_LENGTH g) with false by lia. subst c1. auto.
        -- constructor. exists r, (c_qqueue c), (c_qqidx c), rn. subst c1. destruct c; reflexivity.
        -- subst c1. auto.
        -- subst c1. auto.
        -- subst c1. auto.
        -- subst c1. auto.
  - auto.
Qed.
End P6.
