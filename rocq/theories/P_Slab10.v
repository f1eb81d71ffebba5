(** Size class: specifications of the corruption check of malloc_usable_size, of
    malloc_object_size and of malloc_trim. *)
From Coq Require Import String ZArith List Bool Lia ZifyBool Permutation.
From Verif Require Import M_Base M_Config M_SizeClass M_Libdivide M_OS M_Random M_Slab
  P_Base P_Count P_SizeClass P_Libdivide P_Random P_Bitmap P_Bitmap2 P_OS P_Links P_Slab1 P_Slab2 P_Slab3 P_Slab4 P_Slab5 P_Slab6 P_Slab7 P_Slab8 P_Slab9.
Import ListNotations.
Open Scope Z_scope.
Ltac Zify.zify_post_hook ::= idtac.

Section P10.
Context (g : config) (k : Z).
Local Notation n := (get_slots g k).
Local Notation sz := (slot_size g k).
Local Notation b := (slab_size_of g k).
Ltac wpb := apply wp_bind.

Definition usable_msgs : list fault := [
  Fatal "invalid free within a slab yet to be used"; Fatal "invalid unaligned malloc_usable_size"; Fatal "invalid malloc_usable_size";
  Fatal "invalid malloc_usable_size (quarantine)"; Fatal "canary corrupted"]%string.
Lemma corruption_check_wp o c E F p : cinvL g k o c E F -> 0 <= p < 2 ^ 64 ->
  wp (memory_corruption_check_class g k p) (mkCst o c)
    (fun _ s' => s' = mkCst o c /\ exists i j, 0 <= j < n /\ granted c i j = true /\ p = sptr g k c i j /\ canary_intact g k o c i j)
    (fun f => (In f usable_msgs /\ no_slot g k c p) \/
       (f = Fatal "canary corrupted" /\ exists i j, 0 <= j < n /\ granted c i j = true /\ p = sptr g k c i j /\ ~ canary_intact g k o c i j)).
Proof.
  intros (P & I & ST) Hp. pose proof I as [G Me Sl Li Ma Qu Pg Et Rn Fq]. pose proof (class_facts_all g k (ge_k _ _ _ G)) as CFa. pose proof CFa as [].
  unfold memory_corruption_check_class.
  change (if class_size g k =? 0 then 16 else class_size g k) with sz. change (get_slab_size n sz) with b. rewrite (class_size_0 g k c G).
  wpb. eapply wp_mono; [eapply locate_wp; [exact I|exact Hp]| |].
  2:{ intros f [-> Hf]. left. split; [cbn; tauto|]. intros i j Hj Hg Ep. apply (Hf i j); auto.
      unfold granted in Hg. apply andb_prop in Hg. destruct Hg as [Hu _]. destruct (quar_slot g k _ _ _ _ _ _ _ i j I ltac:(lia) Hu) as (_ & _ & []). split; auto. }
  intros [[i slab] j] s [-> Lo]. wpb. rewrite (located_sptr g k c p i slab j G Lo).
  assert (forall i' j', 0 <= j' < n -> p = sptr g k c i' j' -> i' = i /\ j' = j) as Un.
  { intros i' j' Hj' E'. eapply (located_unique g k c); [exact G|exact Lo|exact E'|exact Hj']. }
  destruct (Z.eqb_spec (sptr g k c i j) p) as [Ep|Ep]; cbn [negb].
  2:{ apply wp_fail. left. split; [cbn; tauto|]. intros i' j' Hj' _ E'. destruct (Un i' j' Hj' E') as [-> ->]. congruence. }
  apply wp_ret. destruct Lo as (R1 & R2 & Esl & _ & _ & Hj).
  wpb. apply md_wp; [exact R1|]. cbn [cs_c]. wpb. unfold is_used_slot. wpb. apply chk_wp; [exact Hj|]. apply wp_ret.
  wpb. fold (used c i j). destruct (used c i j) eqn:Hu; cbn [negb].
  2:{ apply wp_fail. left. split; [cbn; tauto|]. intros i' j' Hj' Hg E'. destruct (Un i' j' Hj' E') as [-> ->]. unfold granted in Hg. rewrite Hu in Hg. discriminate. }
  apply wp_ret. destruct (quar_slot g k _ _ _ _ _ _ _ i j I ltac:(lia) Hu) as (Hjn & Hcn & Is).
  assert (active c E None i) as Ac by (left; auto).
  pose proof (sptr_bounds g k _ _ _ _ _ _ _ _ _ I Is Hjn) as SB. pose proof (ge_start _ _ _ G) as GS. pose proof (ucfg_of g (ge_u _ _ _ G)) as [].
  wpb. match goal with |- wp ?m _ _ _ => assert (wp m (mkCst o c) (fun _ s => s = mkCst o c /\ canary_intact g k o c i j)
    (fun f => f = Fatal "canary corrupted" /\ ~ canary_intact g k o c i j)) as W end.
  { unfold canary_intact. destruct (Z.eqb_spec k 0) as [->|Hk]; cbn [negb andb]; [apply wp_ret; split; [auto|congruence]|].
    unfold check_canary, canary_size. destruct (SLAB_CANARY g); [|apply wp_ret; split; [auto|discriminate]].
    wpb. apply c_sys_wp. cbn [cs_os cs_c].
    rewrite w64_small by (change (2 ^ 64) with 18446744073709551616; change (2 ^ 47) with 140737488355328 in *; lia).
    apply load_u64_wp; [apply rw_readable; eapply slot_rw; [exact I|exact Ac|exact Hk|exact Hjn|lia|lia]|].
    wpb. apply md_wp; [exact R1|]. cbn [cs_c]. fold (can c i). rewrite Ep. destruct (Z.eqb_spec (u64_at (mem o) (p + sz - 8)) (can c i)); cbn [negb].
    - apply wp_ret. auto.
    - apply wp_fail. split; auto. }
  eapply wp_mono; [exact W| |].
  2:{ intros f [-> Hf]. destruct (granted c i j) eqn:Hg.
      - right. split; [auto|]. exists i, j. auto.
      - left. split; [cbn; tauto|]. intros i' j' Hj' Hg' E'. destruct (Un i' j' Hj' E') as [-> ->]. congruence. }
  intros _ s [-> Hcan]. clear W. destruct (SLAB_QUARANTINE g) eqn:SQ.
  - wpb. unfold is_quarantine_slot. wpb. apply chk_wp; [exact Hj|]. apply wp_ret. fold (quar c i j). destruct (quar c i j) eqn:Hq.
    + apply wp_fail. left. split; [cbn; tauto|]. intros i' j' Hj' Hg E'. destruct (Un i' j' Hj' E') as [-> ->]. unfold granted in Hg. rewrite Hu, Hq in Hg. discriminate.
    + apply wp_ret. split; [auto|]. exists i, j. unfold granted. rewrite Hu, Hq. auto.
  - apply wp_ret. split; [auto|]. exists i, j. unfold granted. rewrite Hu. rewrite (no_quar g k c [] i j Qu SQ eq_refl Hjn). auto.
Qed.

Definition osize_msgs : list fault := [
  Fatal "invalid free within a slab yet to be used"; Fatal "invalid malloc_object_size"; Fatal "invalid malloc_object_size (quarantine)"]%string.
(** k <> 0: see the model; in the zero-size class the code computes a wrong slab *)
Lemma object_size_wp o c E F p : cinvL g k o c E F -> 0 <= p < 2 ^ 64 -> k <> 0 ->
  wp (object_size_class g k p) (mkCst o c)
    (fun r s' => s' = mkCst o c /\ exists i j, 0 <= j < n /\ granted c i j = true /\ sptr g k c i j <= p < sptr g k c i j + sz /\ r = p - sptr g k c i j)
    (fun f => In f osize_msgs /\ forall i j, 0 <= j < n -> granted c i j = true -> ~ sptr g k c i j <= p < sptr g k c i j + sz).
Proof.
  intros (P & I & ST) Hp Hk. pose proof I as [G Me Sl Li Ma Qu Pg Et Rn Fq]. pose proof (class_facts_all g k (ge_k _ _ _ G)) as CFa. pose proof CFa as [].
  assert (class_size g k = sz) as Esz. { unfold slot_size. rewrite (class_size_0 g k c G). destruct (Z.eqb_spec k 0); [contradiction|auto]. }
  assert (forall i j, granted c i j = true -> 0 <= j < n -> used c i j = true /\ is_slab g c i) as GU.
  { intros i j Hg Hj. unfold granted in Hg. apply andb_prop in Hg. destruct Hg as [Hu _]. split; [auto|]. apply (quar_slot g k _ _ _ _ _ _ _ i j I ltac:(lia) Hu). }
  match goal with |- wp _ _ ?Q ?Er =>
    assert (wp (let! l := locate g b p in let '(metadata, slab, slot) := l in
      let! m := md metadata in
      let! used := is_used_slot m slot in
      (if negb used then fatal "invalid malloc_object_size" else ret tt);;
      (if SLAB_QUARANTINE g then
         let! q := is_quarantine_slot m slot in
         if q : bool then fatal "invalid malloc_object_size (quarantine)" else ret tt
       else ret tt);;
      ret (w64 (p - slot_pointer sz slab slot))) (mkCst o c) Q Er) as W end.
  2:{ revert W. unfold object_size_class, locate, wp. rewrite Esz. change (get_slab_size n sz) with b. unfold bind at 1 2. intros W. unfold bind at 1. destruct (get_metadata p (mkCst o c)) as [[? ?]|]; [|exact W]. exact W. }
  wpb. eapply wp_mono; [eapply locate_in_wp; [exact I|exact Hp]| |].
  2:{ intros f [-> Hf]. split; [cbn; tauto|]. intros i j Hj Hg. apply Hf; [|auto]. apply (GU i j); auto. }
  intros [[i slab] j] s [-> Lo]. destruct Lo as (R1 & R2 & -> & R3 & Ej & Hj).
  assert (sptr g k c i j <= p < sptr g k c i j + sz) as Hin.
  { unfold sptr. pose proof (Z.div_mod (p - slabp g k c i) sz ltac:(lia)) as D. pose proof (Z.mod_pos_bound (p - slabp g k c i) sz ltac:(lia)). rewrite <- Ej in D. lia. }
  assert (forall i' j', 0 <= j' < n -> sptr g k c i' j' <= p < sptr g k c i' j' + sz -> i' = i /\ j' = j) as Un.
  { intros i' j' Hj' H'. pose proof (slot_in_slab g k c G i' j' Hj'). assert (i' = i) as -> by (eapply slab_disjoint with (a := p); [exact G|lia|lia]). split; [auto|].
    apply (block_unique sz j' j (p - slabp g k c i)); unfold sptr in *; lia. }
  wpb. apply md_wp; [exact R1|]. cbn [cs_c]. wpb. unfold is_used_slot. wpb. apply chk_wp; [exact Hj|]. apply wp_ret.
  wpb. fold (used c i j). destruct (used c i j) eqn:Hu; cbn [negb].
  2:{ apply wp_fail. split; [cbn; tauto|]. intros i' j' Hj' Hg E'. destruct (Un i' j' Hj' E') as [-> ->]. unfold granted in Hg. rewrite Hu in Hg. discriminate. }
  apply wp_ret. destruct (quar_slot g k _ _ _ _ _ _ _ i j I ltac:(lia) Hu) as (Hjn & Hcn & Is).
  pose proof (sptr_bounds g k _ _ _ _ _ _ _ _ _ I Is Hjn) as SB. pose proof (ge_start _ _ _ G) as GS.
  rewrite (slot_pointer_eq g k c G) by lia. rewrite w64_small by (change (2 ^ 64) with 18446744073709551616; lia).
  wpb. destruct (SLAB_QUARANTINE g) eqn:SQ.
  - wpb. unfold is_quarantine_slot. wpb. apply chk_wp; [exact Hj|]. apply wp_ret. fold (quar c i j). destruct (quar c i j) eqn:Hq.
    + apply wp_fail. split; [cbn; tauto|]. intros i' j' Hj' Hg E'. destruct (Un i' j' Hj' E') as [-> ->]. unfold granted in Hg. rewrite Hu, Hq in Hg. discriminate.
    + apply wp_ret, wp_ret. split; [auto|]. exists i, j. unfold granted. rewrite Hu, Hq. auto.
  - apply wp_ret, wp_ret. split; [auto|]. exists i, j. unfold granted. rewrite Hu. rewrite (no_quar g k c [] i j Qu SQ eq_refl Hjn). auto.
Qed.
End P10.
