(** Facts about the path of one size class: quarantine delay, cached empty slabs. *)
From Coq Require Import String ZArith List Bool Lia ZifyBool Permutation.
From Verif Require Import M_Base M_Config M_SizeClass M_Libdivide M_OS M_Random M_Slab M_Region M_Api M_Hist
  P_Base P_Count P_SizeClass P_Libdivide P_Random P_Bitmap P_Bitmap2 P_OS P_Links P_Slab1 P_Slab2 P_Slab3 P_Slab4 P_Slab5 P_Slab6 P_Slab7 P_Slab8 P_Slab9 P_Slab10 P_Slab11 P_Path.
Import ListNotations.
Open Scope Z_scope.
Ltac Zify.zify_post_hook ::= idtac.

(** ** how many frees a quarantined slot has to wait for *)
Definition qlen (g : config) (k : Z) : Z := if 0 <? SLAB_QUARANTINE_QUEUE_LENGTH g then slab_quarantine_queue_length g (slot_size g k) else 0.
Definition qwait (g : config) (k : Z) : Z := (if 0 <? SLAB_QUARANTINE_RANDOM_LENGTH g then 1 else 0) + qlen g k.
Definition rk (g : config) (k : Z) (c : size_class) (p r : Z) : Prop :=
  r <= 0 \/
  ((exists t, lget (c_qrandom c) t = Some p) /\ r <= 1 + qlen g k) \/
  (exists t, 0 < SLAB_QUARANTINE_QUEUE_LENGTH g /\ 0 <= t < qlen g k /\ lget (c_qqueue c) t = Some p /\ r <= (t - c_qqidx c) mod qlen g k + 1).
Lemma rk_same g k c c' p r : c_qrandom c' = c_qrandom c -> c_qqueue c' = c_qqueue c -> c_qqidx c' = c_qqidx c -> rk g k c p r -> rk g k c' p r.
Proof. intros A B C. unfold rk. rewrite A, B, C. auto. Qed.
Lemma rk_zero g k p r : rk g k class_zero p r -> r <= 0.
Proof.
  intros [H|[[(t & H) _]|(t & _ & _ & H & _)]]; [auto| |]; apply lget_In in H; destruct H.
Qed.
Lemma qlen_pos g k : 0 <= k < N_SIZE_CLASSES g -> 0 < SLAB_QUARANTINE_QUEUE_LENGTH g -> 0 < qlen g k.
Proof.
  intros Hk H. unfold qlen. replace (0 <? SLAB_QUARANTINE_QUEUE_LENGTH g) with true by lia. unfold slab_quarantine_queue_length. pose proof (class_facts_all g k Hk) as [].
  rewrite Z.shiftl_mul_pow2 by lia. apply Z.mul_pos_pos; [lia|]. apply Z.pow_pos_nonneg; lia.
Qed.
Lemma qlen_eq g k : 0 < SLAB_QUARANTINE_QUEUE_LENGTH g -> qlen g k = slab_quarantine_queue_length g (slot_size g k).
Proof. intros H. unfold qlen. replace (0 <? SLAB_QUARANTINE_QUEUE_LENGTH g) with true by lia. reflexivity. Qed.
Lemma rot_place i L : 0 < L -> 0 <= i < L -> (i - (i + 1) mod L) mod L + 1 = L.
Proof.
  intros HL Hi. destruct (Z.eq_dec (i + 1) L) as [E|E].
  - rewrite E, Z_mod_same_full, Z.sub_0_r, Z.mod_small by lia. lia.
  - rewrite (Z.mod_small (i + 1)) by lia. replace (i - (i + 1)) with (L - 1 + (-1) * L) by lia. rewrite Z_mod_plus_full, Z.mod_small by lia. lia.
Qed.
Lemma rot_step t i L : 0 < L -> 0 <= i < L -> 0 <= t < L -> t <> i -> (t - (i + 1) mod L) mod L + 1 = (t - i) mod L.
Proof.
  intros HL Hi Ht N. destruct (Z.eq_dec (i + 1) L) as [E|E].
  - rewrite E, Z_mod_same_full, Z.sub_0_r, Z.mod_small by lia. replace (t - i) with (t + 1 + (-1) * L) by lia. rewrite Z_mod_plus_full, Z.mod_small by lia. lia.
  - rewrite (Z.mod_small (i + 1)) by lia. destruct (Z_lt_le_dec i t).
    + rewrite !Z.mod_small by lia. lia.
    + replace (t - i) with (t - i + L + (-1) * L) by lia. replace (t - (i + 1)) with (t - i - 1 + L + (-1) * L) by lia. rewrite !Z_mod_plus_full, !Z.mod_small by lia. lia.
Qed.
Lemma quar_idx g k o c E F : cinvL g k o c E F -> 0 < SLAB_QUARANTINE_QUEUE_LENGTH g -> 0 <= c_qqidx c < qlen g k.
Proof.
  intros (P & I & _) H. destruct (qu_i _ _ _ _ (ci_quar _ _ _ _ _ _ _ _ _ I)) as [A B]. rewrite (qlen_eq g k H). split; [auto|]. apply B; auto.
Qed.
(** the slot just freed *)
Lemma rk_new g k o c E F p c' out : cinvL g k o c E F -> p <> 0 -> qrel g k p c c' out -> rk g k c' p (qwait g k).
Proof.
  intros CI P0 (mid & H1 & H2). pose proof CI as (P & I & _). pose proof (ge_k _ _ _ (ci_geom _ _ _ _ _ _ _ _ _ I)) as Hk. unfold qwait. destruct (0 <? SLAB_QUARANTINE_RANDOM_LENGTH g) eqn:ER.
  - destruct H1 as (t & Ht & Hg & HS). right. left. split; [|lia]. exists t. rewrite HS. apply lget_lset_eq. eapply lget_Some_range; eauto.
  - destruct H1 as [_ ->]. replace (p =? 0) with false in H2 by lia. destruct (0 <? SLAB_QUARANTINE_QUEUE_LENGTH g) eqn:EQ.
    + destruct H2 as (old & Ho & Hs & Hi & _). assert (0 < SLAB_QUARANTINE_QUEUE_LENGTH g) as Q by lia. right. right. exists (c_qqidx c). pose proof (quar_idx _ _ _ _ _ _ CI Q) as Bi. pose proof (qlen_pos g k Hk Q).
      split; [auto|]. split; [auto|]. split; [rewrite Hs; apply lget_lset_eq; eapply lget_Some_range; eauto|]. rewrite Hi, <- (qlen_eq g k Q), rot_place by lia. lia.
    + left. unfold qlen. rewrite EQ. lia.
Qed.
(** one more free *)
Lemma rk_step g k o c E F q p c' out r : cinvL g k o c E F -> p <> 0 -> qrel g k q c c' out -> rk g k c p r -> rk g k c' p (r - 1).
Proof.
  intros CI P0 (mid & H1 & H2) R. pose proof CI as (P & I & _). pose proof (ge_k _ _ _ (ci_geom _ _ _ _ _ _ _ _ _ I)) as Hk.
  destruct R as [R|[[(t & Ht) R]|(t & Q & Bt & Ht & R)]]; [left; lia| |].
  - destruct (0 <? SLAB_QUARANTINE_RANDOM_LENGTH g) eqn:ER; [|destruct H1 as [H1 _]; right; left; split; [exists t; rewrite H1; auto|lia]].
    destruct H1 as (t' & Bt' & Hg & HS). destruct (Z.eq_dec t' t) as [->|N].
    + rewrite Ht in Hg. injection Hg as <-. replace (p =? 0) with false in H2 by lia. destruct (0 <? SLAB_QUARANTINE_QUEUE_LENGTH g) eqn:EQ.
      * destruct H2 as (old & Ho & Hs & Hi & _). assert (0 < SLAB_QUARANTINE_QUEUE_LENGTH g) as Q by lia. right. right. exists (c_qqidx c). pose proof (quar_idx _ _ _ _ _ _ CI Q) as Bi. pose proof (qlen_pos g k Hk Q).
        split; [auto|]. split; [auto|]. split; [rewrite Hs; apply lget_lset_eq; eapply lget_Some_range; eauto|]. rewrite Hi, <- (qlen_eq g k Q), rot_place by lia. lia.
      * left. unfold qlen in R. rewrite EQ in R. lia.
    + right. left. split; [|lia]. exists t. rewrite HS, lget_lset_ne by auto. auto.
  - pose proof (quar_idx _ _ _ _ _ _ CI Q) as Bi. destruct (mid =? 0).
    + destruct H2 as (_ & A & B). right. right. exists t. rewrite A, B. split; [auto|]. split; [auto|]. split; [auto|lia].
    + replace (0 <? SLAB_QUARANTINE_QUEUE_LENGTH g) with true in H2 by lia. destruct H2 as (old & Ho & Hs & Hi & _). destruct (Z.eq_dec t (c_qqidx c)) as [->|N].
      * left. rewrite Z.sub_diag, Z.mod_0_l in R by lia. lia.
      * right. right. exists t. split; [auto|]. split; [auto|]. split; [rewrite Hs, lget_lset_ne by auto; auto|]. rewrite Hi, <- (qlen_eq g k Q), rot_step by lia. lia.
Qed.
(** a slot that waits is not handed out *)
Lemma rk_held g k o c E F p r : cinvL g k o c E F -> p <> 0 -> 0 < r -> rk g k c p r -> exists i j, 0 <= j < get_slots g k /\ used c i j = true /\ p = sptr g k c i j.
Proof.
  intros (P & I & _) P0 Hr R. pose proof (ge_k _ _ _ (ci_geom _ _ _ _ _ _ _ _ _ I)) as Hk. pose proof (class_facts_all g k Hk) as [].
  assert (In p ([] ++ nz (c_qrandom c ++ c_qqueue c))) as H.
  { cbn [app]. apply filter_In. split; [|lia]. apply in_or_app. destruct R as [R|[[(t & Ht) R]|(t & Q & Bt & Ht & R)]]; [lia| |]; eauto using lget_In. }
  apply (qu_in _ _ _ _ (ci_quar _ _ _ _ _ _ _ _ _ I)) in H. destruct H as (i & j & Hj & Hq & ->). exists i, j. split; [auto|]. split; [|auto].
  apply (so_q _ _ (ci_slabs _ _ _ _ _ _ _ _ _ I i)); [lia|exact Hq].
Qed.
Lemma dealloc_quar g k o c E F p e o' c' : dealloc_spec g k o c E F p e (mkCst o' c') -> (SLAB_QUARANTINE g = true /\ exists out, qrel g k p c c' out) \/
  (SLAB_QUARANTINE g = false /\ c_qrandom c' = c_qrandom c /\ c_qqueue c' = c_qqueue c /\ c_qqidx c' = c_qqidx c).
Proof.
  intros (x & y & E' & F' & i & j & Q & _ & _ & (out & H & _)). injection Q as -> ->. destruct (SLAB_QUARANTINE g); [left; eauto|right; tauto].
Qed.
Lemma sq_false g : SLAB_QUARANTINE g = false -> usable_config g = true -> forall k, qwait g k = 0.
Proof. unfold SLAB_QUARANTINE, qwait, qlen. intros H U k. apply orb_false_iff in H. destruct H as [-> ->]. reflexivity. Qed.
Lemma alloc_quar g k o c E F r o' c' : alloc_spec g k o c E F r (mkCst o' c') -> c_qrandom c' = c_qrandom c /\ c_qqueue c' = c_qqueue c /\ c_qqidx c' = c_qqidx c.
Proof. intros (x & y & E' & F' & Q & _ & _ & CS & _). injection Q as -> ->. split; [|split]; apply CS. Qed.
Lemma trim_quar g k o c E F o' c' : trim_spec g k o c E F o' c' -> c_qrandom c' = c_qrandom c /\ c_qqueue c' = c_qqueue c /\ c_qqidx c' = c_qqidx c.
Proof. intros (E1 & E' & F' & _ & _ & T & _). pose proof (tp_same _ _ _ _ _ _ _ _ _ T) as []. auto. Qed.

Definition is_free (l : clab) : bool := match l with LF _ => true | _ => false end.
Definition nfree (l : list clab) : Z := zlen (filter is_free l).
Lemma nfree_app l1 l2 : nfree (l1 ++ l2) = nfree l1 + nfree l2.
Proof. unfold nfree, zlen. rewrite filter_app, app_length. lia. Qed.
Lemma nfree_pos l : 0 <= nfree l. Proof. unfold nfree, zlen. lia. Qed.
Lemma dealloc_ptr g k o c E F p e s' : cinvL g k o c E F -> dealloc_spec g k o c E F p e s' -> 0 < p.
Proof.
  intros (P & I & _) (o' & c' & E' & F' & i & j & _ & _ & D & _). rewrite (dp_p _ _ _ _ _ _ _ _ _ _ D). pose proof (dp_granted _ _ _ _ _ _ _ _ _ _ D) as G. pose proof (dp_j _ _ _ _ _ _ _ _ _ _ D) as Hj.
  pose proof (ci_geom _ _ _ _ _ _ _ _ _ I) as Gm. pose proof (ge_start _ _ _ Gm). pose proof (class_facts_all g k (ge_k _ _ _ Gm)) as [].
  assert (0 <= i).
  { assert (active c E None i) as A. { left. unfold granted in G. apply andb_prop in G. destruct G as [G _]. unfold cntof. rewrite (so_cnt _ _ (ci_slabs _ _ _ _ _ _ _ _ _ I i)). eapply zcount_pos; [exact Hj|exact G]. }
    pose proof (active_slab g k _ _ _ _ _ _ _ _ I A) as [X _]. lia. }
  unfold sptr, slabp. pose proof (Z.mul_nonneg_nonneg i (slab_size_of g k)). pose proof (Z.mul_nonneg_nonneg j (slot_size g k)). lia.
Qed.
Lemma path_rk g k o c ls o' c' : cpath g k o c ls o' c' -> forall p r, p <> 0 -> rk g k c p r -> rk g k c' p (r - nfree ls) /\ forall l1 l2, ls = l1 ++ LA p :: l2 -> r <= nfree l1.
Proof.
  induction 1 as [o c|o o' c' L Fr|o c ls o1 c1 o2 Pa IH L|o c ls o1 c1 E F q o2 c2 Pa IH CI A|o c ls o1 c1 E F o2 c2 Pa IH CI A|o c ls o1 c1 E F q e o2 c2 Pa IH CI D|o c ls o1 c1 E F o2 c2 Pa IH CI T]; intros p r P0 R.
  - change (nfree []) with 0; rewrite Z.sub_0_r; split; [auto|]. intros [|x l1] l2 Q; discriminate.
  - apply rk_zero in R. change (nfree []) with 0; split; [left; lia|]. intros [|x l1] l2 Q; discriminate.
  - auto.
  - destruct (IH p r P0 R) as [R1 S1]. rewrite nfree_app. change (nfree [LA q]) with 0. split.
    + destruct (alloc_quar _ _ _ _ _ _ _ _ _ A) as (X & Y & Z). replace (r - (nfree ls + 0)) with (r - nfree ls) by lia. eapply rk_same; eauto.
    + intros l1 l2 Q. destruct (exists_last (l := LA p :: l2) ltac:(discriminate)) as (l3 & z & Q3). rewrite Q3, app_assoc in Q. apply app_inj_tail in Q. destruct Q as [Q <-].
      destruct l3 as [|z l3]; cbn [app] in Q3.
      * injection Q3 as <- ->. rewrite app_nil_r in Q. subst l1. destruct (Z_lt_le_dec (nfree ls) r) as [B|B]; [|auto]. exfalso.
        destruct (rk_held _ _ _ _ _ _ p (r - nfree ls) CI P0 ltac:(lia) R1) as (i & j & Hj & Hu & Ep). destruct A as (x & y & E' & F' & Qx & _ & _ & _ & i' & j' & Ep' & AP & _).
        pose proof CI as (P & I & _). destruct (sptr_inj g k c1 (ci_geom _ _ _ _ _ _ _ _ _ I) i j i' j') as [-> ->]; [auto|apply AP|congruence|]. pose proof (ap_free _ _ _ _ _ _ _ _ AP). congruence.
      * injection Q3 as <- Q3. subst ls. apply (S1 l1 l3). reflexivity.
  - destruct (IH p r P0 R) as [R1 S1]. destruct (alloc_quar _ _ _ _ _ _ _ _ _ A) as (X & Y & Z). split; [eapply rk_same; eauto|auto].
  - destruct (IH p r P0 R) as [R1 S1]. rewrite nfree_app. replace (nfree [LF q]) with 1 by reflexivity. replace (r - (nfree ls + 1)) with (r - nfree ls - 1) by lia. split.
    + destruct (dealloc_quar _ _ _ _ _ _ _ _ _ _ D) as [(_ & out & Qr)|(SQ & X & Y & Z)]; [eapply rk_step; eauto|].
      eapply rk_same; [exact X|exact Y|exact Z|]. destruct R1 as [B|[[B B']|(t & B1 & B2 & B3 & B4)]]; [left; lia|right; left; split; [auto|lia]|right; right; exists t; split; [auto|]; split; [auto|]; split; [auto|lia]].
    + intros l1 l2 Q. destruct (exists_last (l := LA p :: l2) ltac:(discriminate)) as (l3 & z & Q3). rewrite Q3, app_assoc in Q. apply app_inj_tail in Q. destruct Q as [Q <-].
      destruct l3 as [|z l3]; cbn [app] in Q3; [discriminate|]. injection Q3 as <- Q3. subst ls. apply (S1 l1 l3). reflexivity.
  - destruct (IH p r P0 R) as [R1 S1]. destruct (trim_quar _ _ _ _ _ _ _ _ T) as (X & Y & Z). split; [eapply rk_same; eauto|auto].
Qed.
Lemma path_rk_new g k o c ls o' c' : cpath g k o c ls o' c' -> forall l p, ls = l ++ [LF p] -> rk g k c' p (qwait g k).
Proof.
  induction 1 as [o c|o o' c' L Fr|o c ls o1 c1 o2 Pa IH L|o c ls o1 c1 E F q o2 c2 Pa IH CI A|o c ls o1 c1 E F o2 c2 Pa IH CI A|o c ls o1 c1 E F q e o2 c2 Pa IH CI D|o c ls o1 c1 E F o2 c2 Pa IH CI T]; intros l p Q.
  - destruct l; discriminate.
  - destruct l; discriminate.
  - eauto.
  - apply app_inj_tail in Q. destruct Q; discriminate.
  - destruct (alloc_quar _ _ _ _ _ _ _ _ _ A) as (X & Y & Z). eapply rk_same; eauto.
  - apply app_inj_tail in Q. destruct Q as [_ [= ->]]. pose proof (dealloc_ptr _ _ _ _ _ _ _ _ _ CI D). destruct (dealloc_quar _ _ _ _ _ _ _ _ _ _ D) as [(_ & out & Qr)|(SQ & _)].
    + eapply rk_new; eauto. lia.
    + left. pose proof CI as (P & I & _). rewrite (sq_false g SQ (ge_u _ _ _ (ci_geom _ _ _ _ _ _ _ _ _ I))). lia.
  - destruct (trim_quar _ _ _ _ _ _ _ _ T) as (X & Y & Z). eapply rk_same; eauto.
Qed.

(** ** the bytes of cached empty slabs *)
Definition within (g : config) (k : Z) (o o' : os) (c : size_class) : Prop := forall o1 E F, cinvL g k o1 c E F -> slab_size_of g k * zlen E <= max_empty_slabs_total g \/ refused o o'.
Lemma empty_none g k o c E F : cinvL g k o c E F -> c_empty c = None -> E = [].
Proof. intros (P & I & _) H. pose proof (lk_E _ _ _ _ (ci_link _ _ _ _ _ _ _ _ _ I)) as L. rewrite H in L. destruct E; [auto|discriminate]. Qed.
Lemma within_none g k o o' c : c_empty c = None -> within g k o o' c.
Proof. intros H o1 E F CI. left. rewrite (empty_none _ _ _ _ _ _ CI H). rewrite Z.mul_0_r. unfold max_empty_slabs_total, max_slab_size_class. destruct (EXTENDED_SIZE_CLASSES g); lia. Qed.
Lemma path_within g k o c ls o' c' : cpath g k o c ls o' c' -> c = class_zero \/ within g k o o c -> within g k o o' c' .
Proof.
  induction 1 as [o c|o o' c' L Fr|o c ls o1 c1 o2 Pa IH L|o c ls o1 c1 E F q o2 c2 Pa IH CI A|o c ls o1 c1 E F o2 c2 Pa IH CI A|o c ls o1 c1 E F q e o2 c2 Pa IH CI D|o c ls o1 c1 E F o2 c2 Pa IH CI T]; intros H0.
  - destruct H0 as [->|H0]; [apply within_none; reflexivity|auto].
  - destruct Fr as (st & inf & d1 & d2 & rng & ->). apply within_none. reflexivity.
  - intros o3 E F CI. destruct (IH H0 o3 E F CI) as [B|B]; [auto|right]. eapply refused_mono; [apply later_refl|apply (cpath_later _ _ _ _ _ _ _ Pa)|exact L|exact B].
  - intros o3 E3 F3 CI3. destruct (alloc_later _ _ _ _ _ _ _ _ A) as [L _]. cbn [cs_os] in L. destruct A as (x & y & E' & F' & Q & CI' & _ & _ & i & j & _ & _ & AL). injection Q as -> ->. destruct (lists_fun _ _ _ _ _ _ _ _ _ CI' CI3) as [-> ->].
    destruct (IH H0 o1 E F CI) as [B|B]; [left|right; eapply refused_mono; [apply later_refl|apply (cpath_later _ _ _ _ _ _ _ Pa)|exact L|exact B]].
    destruct AL as [[-> _]|[[-> _]|(_ & -> & _)]]; [auto| |].
    + pose proof CI as (P & I & _). pose proof (class_facts_all g k (ge_k _ _ _ (ci_geom _ _ _ _ _ _ _ _ _ I))) as []. unfold zlen in *. cbn [length] in B. nia.
    + rewrite Z.mul_0_r. unfold max_empty_slabs_total, max_slab_size_class. destruct (EXTENDED_SIZE_CLASSES g); lia.
  - intros o3 E3 F3 CI3. destruct (alloc_later _ _ _ _ _ _ _ _ A) as [L _]. cbn [cs_os] in L. destruct A as (x & y & E' & F' & Q & CI' & _ & _ & -> & -> & _). injection Q as -> ->. destruct (lists_fun _ _ _ _ _ _ _ _ _ CI' CI3) as [-> ->].
    destruct (IH H0 o1 E F CI) as [B|B]; [auto|right; eapply refused_mono; [apply later_refl|apply (cpath_later _ _ _ _ _ _ _ Pa)|exact L|exact B]].
  - intros o3 E3 F3 CI3. destruct (dealloc_later _ _ _ _ _ _ _ _ _ D) as [L _]. cbn [cs_os] in L. destruct D as (x & y & E' & F' & i & j & Q & CI' & _ & (out & _ & DL)). injection Q as -> ->. destruct (lists_fun _ _ _ _ _ _ _ _ _ CI' CI3) as [-> ->].
    destruct (IH H0 o1 E F CI) as [B|B]; [|right; eapply refused_mono; [apply later_refl|apply (cpath_later _ _ _ _ _ _ _ Pa)|exact L|exact B]].
    destruct out as [p'|]; [|left; destruct DL as (-> & _); auto]. destruct DL as (i' & j' & _ & _ & _ & _ & [(_ & -> & _)|[(_ & -> & _ & _ & [K|K])|(_ & _ & -> & _)]]); [auto| | |auto].
    + left. pose proof CI as (P & I & _). rewrite (ci_etot _ _ _ _ _ _ _ _ _ I) in K. unfold zlen in *. cbn [length]. nia.
    + right. eapply refused_mono; [apply (cpath_later _ _ _ _ _ _ _ Pa)|exact L|apply later_refl|exact K].
  - intros o3 E3 F3 CI3. destruct (trim_later _ _ _ _ _ _ _ _ T) as [L _]. destruct T as (E1 & E' & F' & -> & CI' & _ & _). destruct (lists_fun _ _ _ _ _ _ _ _ _ CI' CI3) as [-> ->].
    destruct (IH H0 o1 _ F CI) as [B|B]; [left|right; eapply refused_mono; [apply later_refl|apply (cpath_later _ _ _ _ _ _ _ Pa)|exact L|exact B]].
    pose proof CI as (P & I & _). pose proof (class_facts_all g k (ge_k _ _ _ (ci_geom _ _ _ _ _ _ _ _ _ I))) as []. unfold zlen in *. rewrite app_length in B. nia.
Qed.
