(** Size class: specification of deallocate_small. *)
From Coq Require Import String ZArith List Bool Lia ZifyBool Permutation.
From Verif Require Import M_Base M_Config M_SizeClass M_Libdivide M_OS M_Random M_Slab
  P_Base P_Count P_SizeClass P_Libdivide P_Random P_Bitmap P_Bitmap2 P_OS P_Links P_Slab1 P_Slab2 P_Slab3 P_Slab4 P_Slab5 P_Slab6 P_Slab7 P_Slab8.
Import ListNotations.
Open Scope Z_scope.
Ltac Zify.zify_post_hook ::= idtac.

Definition canary_intact (g : config) (k : Z) (o : os) (c : size_class) (i j : Z) : Prop :=
  SLAB_CANARY g = true -> k <> 0 -> u64_at (mem o) (sptr g k c i j + slot_size g k - 8) = can c i.
Definition free_msgs : list fault := [
  Fatal "invalid free within a slab yet to be used"; Fatal "invalid unaligned free"; Fatal "double free"; Fatal "double free (quarantine)"; Fatal "canary corrupted"]%string.
Definition no_slot (g : config) (k : Z) (c : size_class) (p : Z) : Prop := forall i j, 0 <= j < get_slots g k -> granted c i j = true -> p <> sptr g k c i j.
Definition a_slot (g : config) (k : Z) (o : os) (c : size_class) (p : Z) : Prop := exists i j, 0 <= j < get_slots g k /\ granted c i j = true /\ p = sptr g k c i j /\ canary_intact g k o c i j.
Definition dealloc_fault (g : config) (k : Z) (o : os) (c : size_class) (p : Z) (expected : option Z) (f : fault) : Prop :=
  (sys_fault f /\ a_slot g k o c p) \/ (rng_fault f /\ a_slot g k o c p) \/
  (f = Fatal "sized deallocation mismatch (small)" /\ exists e, expected = Some e /\ e <> class_size g k) \/
  (In f free_msgs /\ no_slot g k c p) \/
  (f = Fatal "canary corrupted" /\ exists i j, 0 <= j < get_slots g k /\ granted c i j = true /\ p = sptr g k c i j /\ ~ canary_intact g k o c i j).

Record dealloc_post (g : config) (k : Z) (o : os) (c : size_class) (p : Z) (expected : option Z) (o' : os) (c' : size_class) (i j : Z) : Prop := {
  dp_j : 0 <= j < get_slots g k;
  dp_p : p = sptr g k c i j;
  dp_granted : granted c i j = true;
  dp_exp : forall e, expected = Some e -> e = class_size g k;
  dp_can : canary_intact g k o c i j;
  dp_same : dsame c c';
  dp_rest : forall x y, 0 <= y < 256 -> granted c' x y = granted c x y && negb ((x =? i) && (y =? j));
  dp_used : forall x y, 0 <= y < 256 -> used c' x y = true -> used c x y = true;
  dp_mem : forall x, mem o' x = mem o x \/ mem o' x = 0;
  dp_keep : forall x y a, 0 <= y < get_slots g k -> used c' x y = true -> (x =? i) && (y =? j) = false ->
     sptr g k c x y <= a < sptr g k c x y + slot_size g k -> mem o' a = mem o a;
  dp_zero : k <> 0 -> ZERO_ON_FREE g = true -> forall a, p <= a < p + slot_size g k - canary_size g -> mem o' a = 0;
  dp_err : errno o' = errno o \/ errno o' = EINTR /\ intr (entq o);
  dp_os : os_in (in_class g c) o o';
  dp_st : STATS g = true -> c_nmalloc c' = c_nmalloc c /\ c_ndalloc c' = w64 (c_ndalloc c + 1) /\ c_allocated c' = w64 (c_allocated c - slot_size g k)
}.
(** the slot that really becomes free, and what happens to its slab *)
Definition dealloc_rel (g : config) (k : Z) (o : os) (c : size_class) (E F : list Z) (o' : os) (c' : size_class) (E' F' : list Z) (p : Z) : Prop :=
  exists out,
    (if SLAB_QUARANTINE g then qrel g k p c c' out else out = Some p /\ c_qrandom c' = c_qrandom c /\ c_qqueue c' = c_qqueue c /\ c_qqidx c' = c_qqidx c) /\
    match out with
    | None => E' = E /\ F' = F /\ c_fq c' = c_fq c /\ (forall x y, used c' x y = used c x y) /\ c_empty_total c' = c_empty_total c
    | Some p' => exists i' j', 0 <= j' < get_slots g k /\ p' = sptr g k c i' j' /\ used c i' j' = true /\
        (forall x y, 0 <= y < 256 -> used c' x y = used c x y && negb ((x =? i') && (y =? j'))) /\ rel_lists g k o c E F o' c' E' F' i'
    end.
Definition dealloc_spec (g : config) (k : Z) (o : os) (c : size_class) (E F : list Z) (p : Z) (expected : option Z) (s' : cstate) : Prop :=
  exists o' c' E' F' i j, s' = mkCst o' c' /\ cinvL g k o' c' E' F' /\ dealloc_post g k o c p expected o' c' i j /\ dealloc_rel g k o c E F o' c' E' F' p.

Section P9.
Context (g : config) (k : Z).
Local Notation n := (get_slots g k).
Local Notation sz := (slot_size g k).
Local Notation b := (slab_size_of g k).
Ltac wpb := apply wp_bind.

(** state when a freed slot has been wiped *)
Definition wiped (p : Z) (o : os) : os :=
  if negb (k =? 0) && ZERO_ON_FREE g then set_range p 0 (sz - canary_size g) o else o.
Lemma wiped_pages p o q : pages (wiped p o) q = pages o q. Proof. unfold wiped. destruct (_ && _); reflexivity. Qed.
Lemma wiped_mem p o x : mem (wiped p o) x = if negb (k =? 0) && ZERO_ON_FREE g && ((p <=? x) && (x <? p + (sz - canary_size g))) then 0 else mem o x.
Proof. unfold wiped. destruct (negb (k =? 0) && ZERO_ON_FREE g); reflexivity. Qed.
Lemma canary_size_le : 0 <= canary_size g <= 8. Proof. unfold canary_size. destruct (SLAB_CANARY g); lia. Qed.
Lemma slot_disjoint c i j i' j' a : geom g k c -> 0 <= j < n -> 0 <= j' < n -> sptr g k c i j <= a < sptr g k c i j + sz -> sptr g k c i' j' <= a < sptr g k c i' j' + sz -> i' = i /\ j' = j.
Proof.
  intros G Hj Hj' H1 H2. destruct (sptr_apart g k c G i j i' j' a); auto.
Qed.
Lemma slab_disjoint c i i' a : geom g k c -> slabp g k c i <= a < slabp g k c i + b -> slabp g k c i' <= a < slabp g k c i' + b -> i = i'.
Proof.
  intros G H H'. unfold slabp in *. apply (block_unique b i i' (a - c_start c)); lia.
Qed.
Lemma no_quar c L i j : quar_ok g k c L -> SLAB_QUARANTINE g = false -> L = [] -> 0 <= j < n -> quar c i j = false.
Proof.
  intros [] Hs -> Hj. destruct (quar c i j) eqn:Q; [|auto]. exfalso.
  assert (SLAB_QUARANTINE_RANDOM_LENGTH g <= 0 /\ SLAB_QUARANTINE_QUEUE_LENGTH g <= 0) as [A B].
  { unfold SLAB_QUARANTINE in Hs. lia. }
  assert (forall l : list Z, zlen l <= 0 -> l = []) as Z0 by (intros l; unfold zlen; destruct l; cbn [List.length]; [auto|lia]).
  assert (In (sptr g k c i j) ([] ++ nz (c_qrandom c ++ c_qqueue c))) as Hin by (apply qu_in; eauto).
  assert (forall a m, a <= 0 -> Z.shiftl a m <= 0) as SH.
  { intros a m Ha. destruct (Z.eq_dec a 0) as [->|]; [rewrite Z.shiftl_0_l; lia|]. assert (Z.shiftl a m < 0); [|lia]. apply Z.shiftl_neg. lia. }
  rewrite (Z0 (c_qrandom c)), (Z0 (c_qqueue c)) in Hin; [exact Hin|rewrite qu_ql; apply SH; lia|rewrite qu_rl; apply SH; lia].
Qed.

Lemma dealloc_finish o c P E F expected i j o1 o' c' : cinvX g k o c P E F None [] ->
  0 <= j < n -> granted c i j = true -> (forall e, expected = Some e -> e = class_size g k) -> canary_intact g k o c i j ->
  os_rel (wiped (sptr g k c i j) o) o1 -> dsame c c' ->
  (forall x y, 0 <= y < 256 -> granted c' x y = granted c x y && negb ((x =? i) && (y =? j))) ->
  (forall x y, 0 <= y < 256 -> used c' x y = true -> used c x y = true) ->
  (forall x, mem o' x = mem o1 x \/ (mem o' x = 0 /\ exists i', slabp g k c i' <= x < slabp g k c i' + b /\ forall y, 0 <= y < 256 -> used c' i' y = false)) ->
  (errno o' = errno o1 \/ errno o' = EINTR /\ intr (entq o1)) -> os_in (in_class g c) o1 o' ->
  (STATS g = true -> c_nmalloc c' = c_nmalloc c /\ c_ndalloc c' = w64 (c_ndalloc c + 1) /\ c_allocated c' = w64 (c_allocated c - sz)) ->
  dealloc_post g k o c (sptr g k c i j) expected o' c' i j.
Proof.
  intros I Hj Hg He Hc O D Gr U M Er OI St. pose proof (ci_geom _ _ _ _ _ _ _ _ _ I) as G. pose proof (class_facts_all g k (ge_k _ _ _ G)) as CF. pose proof CF as [].
  pose proof canary_size_le as CS. assert (used c i j = true) as Hu by (unfold granted in Hg; destruct (used c i j); auto).
  destruct (quar_slot g k _ _ _ _ _ _ _ i j I ltac:(lia) Hu) as (_ & Hcn & Is).
  destruct (slab_range g k o c _ _ _ _ _ i I Is) as [R1 R2].
  assert (forall x, mem o1 x = mem (wiped (sptr g k c i j) o) x) as M1 by (intros; rewrite (or_mem _ _ O); auto).
  pose proof (slot_in_slab g k c G i j Hj) as SS. pose proof (slab_in_region g k c G i ltac:(lia)) as SR.
  constructor; auto.
  - intros x. destruct (M x) as [-> | [-> _]]; [|auto]. rewrite M1, wiped_mem. destruct (_ && _); auto.
  - intros x y a Hy Hxy Hne Ha. destruct (M a) as [-> | [_ (i' & Hi' & Hn)]].
    + rewrite M1, wiped_mem. destruct (negb (k =? 0) && ZERO_ON_FREE g); cbn [andb]; [|auto].
      destruct ((sptr g k c i j <=? a) && (a <? sptr g k c i j + (sz - canary_size g))) eqn:In; [|auto].
      destruct (slot_disjoint c i j x y a G Hj Hy ltac:(lia) Ha) as [-> ->]. rewrite !Z.eqb_refl in Hne. discriminate.
    + pose proof (slot_in_slab g k c G x y Hy). assert (i' = x) as -> by (eapply slab_disjoint; [exact G|exact Hi'|lia]).
      rewrite Hn in Hxy by lia. discriminate.
  - intros Hk Hz a Ha. destruct (M a) as [-> | [-> _]]; [|auto]. rewrite M1, wiped_mem, Hz. replace (negb (k =? 0)) with true by lia.
    replace ((sptr g k c i j <=? a) && (a <? sptr g k c i j + (sz - canary_size g))) with true by lia. reflexivity.
  - assert (entq (wiped (sptr g k c i j) o) = entq o) as Q0 by (unfold wiped; destruct (_ && _); reflexivity).
    destruct Er as [-> |[-> X]]; [|right; split; [auto|]; rewrite (or_entq _ _ O), Q0 in X; exact X]. destruct (or_errno _ _ O) as [-> |[-> X]]; [|right; split; [auto|]; rewrite Q0 in X; exact X].
    left. unfold wiped. destruct (_ && _); reflexivity.
  - eapply os_in_trans; [|exact OI]. eapply os_in_trans; [|apply os_in_rel; exact O].
    unfold wiped. destruct (_ && _); [|apply os_in_refl]. constructor; cbn; auto. intros x Hx.
    destruct ((sptr g k c i j <=? x) && (x <? sptr g k c i j + (sz - canary_size g))) eqn:In; [|auto]. elim Hx. apply (in_class_addr g k c G). lia.
Qed.

Lemma deallocate_small_wp o c E F p expected : cinvL g k o c E F -> 0 <= p < 2 ^ 64 ->
  wp (deallocate_small_class g k p expected) (mkCst o c) (fun _ s' => dealloc_spec g k o c E F p expected s') (dealloc_fault g k o c p expected).
Proof.
  intros (P & I & ST) Hp. pose proof I as [G Me Sl Li Ma Qu Pg Et Rn Fq]. pose proof (class_facts_all g k (ge_k _ _ _ G)) as CFa. pose proof CFa as [].
  pose proof canary_size_le as CS.
  unfold deallocate_small_class. wpb.
  match goal with |- wp ?m _ _ _ => assert (wp m (mkCst o c) (fun _ s => s = mkCst o c /\ forall e, expected = Some e -> e = class_size g k)
    (fun f => f = Fatal "sized deallocation mismatch (small)" /\ exists e, expected = Some e /\ e <> class_size g k)) as W end.
  { destruct expected as [e|]; [|apply wp_ret; split; [auto|discriminate]]. destruct (Z.eqb_spec (class_size g k) e); cbn [negb].
    - apply wp_ret. split; [auto|]. intros e' H. injection H as <-. auto.
    - apply wp_fail. split; [auto|]. exists e. auto. }
  eapply wp_mono; [exact W| |]. 2:{ intros f Hf. right; right; left. exact Hf. }
  intros _ s [-> Hex]. clear W.
  change (if class_size g k =? 0 then 16 else class_size g k) with sz. change (get_slab_size n sz) with b.
  rewrite (class_size_0 g k c G).
  (* statistics *)
  set (c1 := if STATS g then set_c_ndalloc (w64 (c_ndalloc c + 1)) (set_c_allocated (w64 (c_allocated c - sz)) c) else c).
  wpb. assert (wp (stats_small_deallocate g sz) (mkCst o c) (fun _ s => s = mkCst o c1) (fun _ => False)) as W.
  { unfold stats_small_deallocate, c1. destruct (STATS g); [apply upd_c_wp; reflexivity|apply wp_ret; reflexivity]. }
  eapply wp_mono; [exact W| |intros f []]. intros _ s ->. clear W.
  assert (only_stats c c1) as OS by (constructor; unfold c1; destruct (STATS g); [reflexivity|destruct c; reflexivity]).
  assert (c_nmalloc c1 = c_nmalloc c /\ c_slab_allocated c1 = c_slab_allocated c) as [Nm Sla] by (unfold c1; destruct (STATS g); auto).
  assert (STATS g = true -> c_ndalloc c1 = w64 (c_ndalloc c + 1) /\ c_allocated c1 = w64 (c_allocated c - sz)) as Nd by (unfold c1; intros ->; auto).
  pose proof (cinvX_stats g k o c c1 _ _ _ _ _ OS I) as I1. destruct (used_only g _ _ OS) as (U1 & C1 & Q1 & T1 & S1 & N1 & A1 & M1 & CE1).
  pose proof (rsame_only _ _ OS) as RS1. assert (stat_ok g k c1 F) as ST1 by (intros St; rewrite A1, Sla; auto).
  assert (forall i j, sptr g k c1 i j = sptr g k c i j) as Sp1 by (intros; apply sptr_ext; auto).
  assert (forall i j, quar c1 i j = quar c i j) as K1 by apply RS1.
  assert (forall i, can c1 i = can c i) as Cn1 by apply RS1.
  clearbody c1.
  (* find the slot *)
  wpb. eapply wp_mono; [eapply locate_wp; [exact I1|exact Hp]| |].
  2:{ intros f [-> Hf]. right; right; right; left. split; [cbn; tauto|]. intros i j Hj Hg Ep. apply (Hf i j); auto; [|rewrite Sp1; auto].
      unfold granted in Hg. apply andb_prop in Hg. destruct Hg as [Hu _]. destruct (quar_slot g k _ _ _ _ _ _ _ i j I ltac:(lia) Hu) as (_ & _ & []). split; auto. destruct RS1 as [[]]. lia. }
  intros [[i slab] j] s [-> Lo]. wpb. rewrite (located_sptr g k c1 p i slab j (ci_geom _ _ _ _ _ _ _ _ _ I1) Lo).
  assert (forall i' j', 0 <= j' < n -> p = sptr g k c i' j' -> i' = i /\ j' = j) as Un.
  { intros i' j' Hj' E'. eapply (located_unique g k c1); [apply I1|exact Lo|rewrite Sp1; exact E'|exact Hj']. }
  rewrite Sp1. destruct (Z.eqb_spec (sptr g k c i j) p) as [Ep|Ep]; cbn [negb].
  2:{ apply wp_fail. right; right; right; left. split; [cbn; tauto|]. intros i' j' Hj' _ E'. destruct (Un i' j' Hj' E') as [-> ->]. congruence. }
  apply wp_ret. destruct Lo as (R1 & R2 & Esl & _ & _ & Hj). assert (slabp g k c1 i = slabp g k c i) as Sl1 by (unfold slabp; rewrite S1; auto). rewrite Sl1 in Esl.
  wpb. apply md_wp; [exact R1|]. cbn [cs_c]. wpb. unfold is_used_slot. wpb. apply chk_wp; [exact Hj|]. apply wp_ret.
  wpb. fold (used c1 i j). rewrite U1. destruct (used c i j) eqn:Hu; cbn [negb].
  2:{ apply wp_fail. right; right; right; left. split; [cbn; tauto|]. intros i' j' Hj' Hg E'. destruct (Un i' j' Hj' E') as [-> ->]. unfold granted in Hg. rewrite Hu in Hg. discriminate. }
  apply wp_ret. destruct (quar_slot g k _ _ _ _ _ _ _ i j I ltac:(lia) Hu) as (Hjn & Hcn & Is).
  assert (active c1 E None i) as Ac by (left; rewrite C1; auto).
  pose proof (sptr_bounds g k _ _ _ _ _ _ _ _ _ I Is Hjn) as SB. pose proof (ge_start _ _ _ G) as GS. pose proof (ucfg_of g (ge_u _ _ _ G)) as [].
  (* canary and wiping *)
  wpb. match goal with |- wp ?m _ _ _ => assert (wp m (mkCst o c1) (fun _ s => s = mkCst (wiped (sptr g k c i j) o) c1 /\ canary_intact g k o c i j)
    (fun f => f = Fatal "canary corrupted" /\ ~ canary_intact g k o c i j)) as W end.
  { unfold wiped, canary_intact. destruct (Z.eqb_spec k 0) as [->|Hk]; cbn [negb andb]; [apply wp_ret; split; [auto|congruence]|]. wpb.
    assert (wp (check_canary g i p sz) (mkCst o c1) (fun _ s => s = mkCst o c1 /\ (SLAB_CANARY g = true -> k <> 0 -> u64_at (mem o) (sptr g k c i j + sz - 8) = can c i))
      (fun f => f = Fatal "canary corrupted" /\ ~ (SLAB_CANARY g = true -> k <> 0 -> u64_at (mem o) (sptr g k c i j + sz - 8) = can c i))) as W.
    { unfold check_canary, canary_size. destruct (SLAB_CANARY g); [|apply wp_ret; split; [auto|discriminate]].
      wpb. apply c_sys_wp. cbn [cs_os cs_c].
      rewrite w64_small by (change (2 ^ 64) with 18446744073709551616; change (2 ^ 47) with 140737488355328 in *; lia).
      apply load_u64_wp; [apply rw_readable; eapply slot_rw; [exact I1|exact Ac|exact Hk|exact Hjn|rewrite Sp1; lia|rewrite Sp1; lia]|].
      wpb. apply md_wp; [exact R1|]. cbn [cs_c]. fold (can c1 i). rewrite Cn1, Ep. destruct (Z.eqb_spec (u64_at (mem o) (p + sz - 8)) (can c i)); cbn [negb].
      - apply wp_ret. auto.
      - apply wp_fail. split; auto. }
    eapply wp_mono; [exact W| |auto]. intros _ s [-> Hc]. destruct (ZERO_ON_FREE g); [|apply wp_ret; auto].
    apply c_sys_wp. cbn [cs_os cs_c]. rewrite <- Ep. apply mem_set_wp; [|split; auto]. intros _.
    eapply slot_rw; [exact I1|exact Ac|exact Hk|exact Hjn|rewrite Sp1; lia|rewrite Sp1; lia]. }
  eapply wp_mono; [exact W| |].
  2:{ intros f [-> Hf]. destruct (granted c i j) eqn:Hg.
      - right; right; right; right. split; [auto|]. exists i, j. auto.
      - right; right; right; left. split; [cbn; tauto|]. intros i' j' Hj' Hg' E'. destruct (Un i' j' Hj' E') as [-> ->]. congruence. }
  intros _ s [-> Hcan]. clear W. set (oz := wiped (sptr g k c i j) o).
  assert (cinvX g k oz c1 P E F None []) as Iz.
  { eapply cinvX_os; [| |exact I1]; [apply wiped_pages|]. intros x. unfold oz. rewrite wiped_mem. destruct (_ && _); auto. }
  assert (os_rel oz oz) as Orf by apply os_rel_refl.
  destruct (SLAB_QUARANTINE g) eqn:SQ.
  2:{ (* no quarantine *)
      assert (quar c i j = false) as Hq by (eapply no_quar; [exact Qu|auto|auto|auto]).
      assert (granted c i j = true) as Hg by (unfold granted; rewrite Hu, Hq; auto).
      rewrite Esl, <- Sl1. eapply wp_mono; [eapply release_wp; [exact Iz|exact ST1|exact Hjn|rewrite U1; exact Hu|rewrite K1; exact Hq]| |].
      2:{ intros f [Hf|Hf]; [left|right; left]; (split; [exact Hf|exists i, j; auto]). }
      intros _ s (o' & c' & E' & F' & -> & IL & RP & RL). exists o', c', E', F', i, j. split; [reflexivity|]. split; [exact IL|]. destruct RP. destruct IL as (P' & I' & ST').
      split.
      - rewrite <- Ep. apply dealloc_finish with (P := P) (E := E) (F := F) (o1 := oz); auto.
        + eapply dsame_trans; [apply RS1|apply rp_same].
        + intros x y Hy. unfold granted. rewrite rp_used, U1, (rs_quar _ _ rp_same), K1 by auto. destruct (used c x y), (quar c x y), ((x =? i) && (y =? j)); reflexivity.
        + intros x y Hy. rewrite rp_used, U1 by auto. destruct (used c x y); auto.
        + intros x. destruct (rp_mem x) as [|(Z0 & Hx & C0)]; [auto|]. right. split; [auto|]. exists i. split; [unfold slabp in *; rewrite <- S1; exact Hx|].
          intros y Hy. eapply (fresh_slab g k o' c' _ _ _ _ _ i I'); [lia|auto].
        + eapply os_in_mono; [|exact rp_os]. intros q. unfold in_class. rewrite S1. auto.
        + intros St. destruct rp_st as (X1 & X2 & X3). destruct (Nd St). rewrite X1, X2, X3. auto.
      - exists (Some p). rewrite SQ. destruct rp_same. split; [destruct RS1; split; [auto|split; [congruence|split; congruence]]|]. exists i, j.
        split; [auto|]. split; [auto|]. split; [auto|]. split; [intros; rewrite rp_used, U1 by auto; auto|].
        unfold rel_lists in *. rewrite C1 in RL. rewrite T1 in RL. rewrite Q1 in RL. unfold enq_rel in *. rewrite Q1 in RL. unfold slabp in *. rewrite S1 in RL.
        unfold refused in *. assert (sysn oz = sysn o /\ sysq oz = sysq o) as [Ea Eb] by (unfold oz, wiped; destruct (_ && _); auto). rewrite Ea, Eb in RL. exact RL. }
  (* quarantine *)
  wpb. unfold is_quarantine_slot. wpb. apply chk_wp; [exact Hj|]. apply wp_ret. fold (quar c1 i j). rewrite K1. wpb. destruct (quar c i j) eqn:Hq.
  { apply wp_fail. right; right; right; left. split; [cbn; tauto|]. intros i' j' Hj' Hg E'. destruct (Un i' j' Hj' E') as [-> ->]. unfold granted in Hg. rewrite Hu, Hq in Hg. discriminate. }
  apply wp_ret. assert (granted c i j = true) as Hg by (unfold granted; rewrite Hu, Hq; auto).
  wpb. unfold set_quarantine_slot. wpb. apply chk_wp; [exact Hj|]. apply upd_md_wp; [exact R1|]. cbn [cs_c cs_os].
  destruct (cinvX_setq g k oz c1 P E F None [] i j Iz Hjn) as (I2 & D2 & SS2 & U2 & C2 & N2 & Q2); [rewrite U1; auto|rewrite K1; auto|].
  set (c2 := smap i (fun m => set_sb_qbitmap (bm_set (sb_qbitmap m) j) m) c1) in *.
  assert (c_fq c2 = c_fq c1 /\ c_empty_total c2 = c_empty_total c1 /\ c_qrandom c2 = c_qrandom c1 /\ c_qqueue c2 = c_qqueue c1 /\ c_qqidx c2 = c_qqidx c1) as (F2 & T2 & Ra2 & Rb2 & Rc2) by (repeat split).
  clearbody c2.
  rewrite Sp1, Ep in I2. wpb. eapply wp_mono; [eapply quarantine_pass_wp; [exact I2|lia]| |].
  2:{ intros f Hf. right; left. split; [exact Hf|exists i, j; auto]. }
  intros out s (o3 & c3 & -> & O3 & QS & QR & I3). destruct QS as [(qr & qq & qi & qn & EQ3)].
  assert ((forall x y, used c3 x y = used c2 x y) /\ (forall x y, quar c3 x y = quar c2 x y) /\ (forall x, cntof c3 x = cntof c2 x) /\ c_fq c3 = c_fq c2 /\ c_empty_total c3 = c_empty_total c2
     /\ dsame c2 c3 /\ sstats c2 c3 /\ nact g c3 F = nact g c2 F) as (U3 & Q3 & C3 & F3 & T3 & D3 & SS3 & N3).
  { rewrite EQ3. repeat split. }
  clear EQ3. assert (dsame c c3) as D by (eapply dsame_trans; [apply RS1|eapply dsame_trans; eassumption]).
  assert (qrel g k p c c3 out) as QR'. { unfold qrel in *. rewrite Ra2, Rb2, Rc2 in QR. destruct RS1. rewrite rs_qr, rs_qq, rs_qi in QR. exact QR. }
  assert (stat_ok g k c3 F) as ST3. { intros St. rewrite N3, N2. destruct SS2 as (_ & _ & _ & X1). destruct SS3 as (_ & _ & _ & X2). rewrite X2, X1. auto. }
  assert (forall x y, used c3 x y = used c x y) as U3' by (intros; rewrite U3, U2, U1; auto).
  assert (forall x y, 0 <= y < 256 -> quar c3 x y = quar c x y || ((x =? i) && (y =? j))) as Q3' by (intros; rewrite Q3, Q2, K1 by auto; auto).
  assert (STATS g = true -> c_nmalloc c3 = c_nmalloc c /\ c_ndalloc c3 = w64 (c_ndalloc c + 1) /\ c_allocated c3 = w64 (c_allocated c - sz)) as St3.
  { intros St. destruct SS2 as (X1 & X2 & X3 & _). destruct SS3 as (Y1 & Y2 & Y3 & _). destruct (Nd St). repeat split; congruence. }
  assert (c_fq c3 = c_fq c /\ c_empty_total c3 = c_empty_total c /\ c_start c3 = c_start c /\ forall x, cntof c3 x = cntof c x) as (Fq3 & Et3 & S3 & C3').
  { split; [congruence|]. split; [congruence|]. split; [apply D|]. intros x. rewrite C3, C2, C1. auto. }
  assert (forall i j, sptr g k c3 i j = sptr g k c i j) as Sp3 by (intros; apply sptr_ext; auto).
  clear QR SS2 SS3 N2 N3 U2 U3 Q2 Q3 I2 D2 D3 C2 C3 F2 F3 T2 T3 Ra2 Rb2 Rc2 ST1 Nd c2.
  assert (forall c', dsame c3 c' -> dsame c c') as Dt by (intros; eapply dsame_trans; eassumption).
  destruct out as [p'|].
  - (* a slot comes out *)
    pose proof I3 as [G3 _ _ _ _ Qu3 _ _ _ _]. destruct (proj1 (qu_in _ _ _ _ Qu3 p') ltac:(now left)) as (i' & j' & Hj' & Hq' & Ep').
    pose proof (quar_used g k _ _ _ _ _ _ _ i' j' I3 ltac:(lia) Hq') as Hu'.
    destruct (quar_slot g k _ _ _ _ _ _ _ i' j' I3 ltac:(lia) Hu') as (_ & Hcn' & Is'). pose proof (sptr_bounds g k _ _ _ _ _ _ _ _ _ I3 Is' Hj') as SB'. pose proof (ge_start _ _ _ G3) as GS'.
    wpb. eapply wp_mono; [eapply locate_wp with (p := p'); [exact I3|]| |].
    + change (2 ^ 64) with 18446744073709551616; change (2 ^ 47) with 140737488355328 in *. lia.
    + intros [[i2 sl2] j2] s [-> Lo2]. destruct (located_unique g k c3 p' i2 sl2 j2 i' j' G3 Lo2 Ep' Hj') as [<- <-].
      destruct Lo2 as (Ra & Rb & -> & _ & _ & Hj2).
      wpb. unfold clear_quarantine_slot. wpb. apply chk_wp; [exact Hj2|]. apply upd_md_wp; [exact Ra|]. cbn [cs_c cs_os].
      cbn [qlist] in I3. rewrite Ep' in I3. destruct (cinvX_clearq g k o3 c3 P E F None i' j' [] I3 Hj' Hq') as (I4 & D4 & SS4 & U4 & C4 & N4 & Q4).
      set (c4 := smap i' (fun m => set_sb_qbitmap (bm_clear (sb_qbitmap m) j') m) c3) in *.
      assert (c_fq c4 = c_fq c3 /\ c_empty_total c4 = c_empty_total c3 /\ c_qrandom c4 = c_qrandom c3 /\ c_qqueue c4 = c_qqueue c3 /\ c_qqidx c4 = c_qqidx c3) as (F4 & T4 & Ra4 & Rb4 & Rc4) by (repeat split).
      assert (slabp g k c3 i' = slabp g k c4 i') as -> by reflexivity. clearbody c4.
      eapply wp_mono; [eapply release_wp; [exact I4| |exact Hj'|rewrite U4; exact Hu'|]| |].
      * intros St. rewrite N4. destruct SS4 as (_ & _ & _ & ->). auto.
      * rewrite Q4 by auto. rewrite !Z.eqb_refl. cbn. now rewrite andb_false_r.
      * intros _ s (o' & c' & E' & F' & -> & IL & RP & RL). exists o', c', E', F', i, j. split; [reflexivity|]. split; [exact IL|]. destruct RP. destruct IL as (P' & I' & ST').
        split.
        -- rewrite <- Ep. apply dealloc_finish with (P := P) (E := E) (F := F) (o1 := o3); auto.
           ++ apply Dt. eapply dsame_trans; [exact D4|apply rp_same].
           ++ intros x y Hy. unfold granted. rewrite rp_used, U4, U3', (rs_quar _ _ rp_same), Q4, Q3' by auto.
              destruct ((x =? i') && (y =? j')) eqn:Exy.
              ** assert (x = i' /\ y = j') as [-> ->] by lia. rewrite Q3' in Hq' by lia. rewrite U3' in Hu'. rewrite Hu'. cbn [andb negb].
                 destruct (quar c i' j'); [reflexivity|]. cbn in Hq'. rewrite Hq'. reflexivity.
              ** destruct (used c x y), (quar c x y), ((x =? i) && (y =? j)); reflexivity.
           ++ intros x y Hy. rewrite rp_used, U4, U3' by auto. destruct (used c x y); auto.
           ++ intros x. destruct (rp_mem x) as [|(Z0 & Hx & C0)]; [auto|]. right. split; [auto|]. exists i'. split; [unfold slabp in *; rewrite <- S3; rewrite <- (ds_start _ _ D4); exact Hx|].
              intros y Hy. eapply (fresh_slab g k o' c' _ _ _ _ _ i' I'); [lia|auto].
           ++ eapply os_in_mono; [|exact rp_os]. intros q. unfold in_class. rewrite (ds_start _ _ D4), S3. auto.
           ++ intros St. destruct rp_st as (X1 & X2 & X3). destruct (St3 St) as (Y1 & Y2 & Y3). destruct SS4 as (Z1 & Z2 & Z3 & _). repeat split; congruence.
        -- exists (Some p'). rewrite SQ. destruct rp_same. split; [unfold qrel in *; rewrite rs_qr, rs_qq, rs_qi, Ra4, Rb4, Rc4; exact QR'|]. exists i', j'.
           split; [auto|]. split; [rewrite <- Sp3; auto|]. split; [rewrite <- U3'; auto|]. split; [intros; rewrite rp_used, U4, U3' by auto; auto|].
           unfold rel_lists in *. unfold enq_rel in *. rewrite C4, T4, F4, C3', Et3, Fq3 in RL. unfold slabp in *. rewrite (ds_start _ _ D4), S3 in RL.
           unfold refused in *. assert (sysn o3 = sysn o /\ sysq o3 = sysq o) as [Ea Eb] by (destruct O3; rewrite or_sysn, or_sysq; unfold oz, wiped; destruct (_ && _); auto). rewrite Ea, Eb in RL. exact RL.
      * intros f [Hf|Hf]; [left|right; left]; (split; [exact Hf|exists i, j; auto]).
    + intros f [_ Hf]. exfalso. apply (Hf i' j'); auto.
  - (* absorbed *)
    apply wp_ret. exists o3, c3, E, F, i, j. split; [reflexivity|]. split; [exists P; split; [exact I3|exact ST3]|]. split.
    + rewrite <- Ep. apply dealloc_finish with (P := P) (E := E) (F := F) (o1 := o3); auto.
      * intros x y Hy. unfold granted. rewrite U3', Q3' by auto. destruct (used c x y), (quar c x y), ((x =? i) && (y =? j)); reflexivity.
      * intros x y Hy. rewrite U3'. auto.
      * apply os_in_refl.
    + exists None. rewrite SQ. split; [exact QR'|]. auto.
Qed.
End P9.
