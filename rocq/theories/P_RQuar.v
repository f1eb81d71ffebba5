(** How long a freed large block waits in the quarantine. *)
From Coq Require Import String ZArith List Bool Lia ZifyBool Permutation.
From Verif Require Import M_Base M_Config M_SizeClass M_Libdivide M_OS M_Random M_Slab M_Region M_Api M_Hist S_SizeClass S_Slab S_Heap S_Class S_Quar
  P_Base P_Count P_SizeClass P_SizeClass2 P_Libdivide P_Random P_Bitmap P_Bitmap2 P_OS P_Links P_Slab1 P_Slab2 P_Slab3 P_Slab4 P_Slab5 P_Slab6 P_Slab7 P_Slab8 P_Slab9 P_Slab11 P_Path P_Quar
  P_Region P_Region2 P_Heap1 P_Heap2 P_Heap3 P_Heap4 P_Heap5 P_Heap6 P_Heap7 P_Heap8 P_Heap9 P_Heap10 P_Heap11 P_Init P_Api0 P_Api1 P_Api2 P_Api3 P_Api4 P_Api5 P_Api6 P_Api7 P_Api8.
Import ListNotations.
Open Scope Z_scope.
Ltac Zify.zify_post_hook ::= idtac.

(** ** sections that leave the quarantine alone *)
Definition QU (r : ralloc) : list (Z * Z) * list (Z * Z) * Z := (ra_qrandom r, ra_qqueue r, ra_qqidx r).
Definition calm {A} (m : M rastate A) : Prop := forall rs, wp m rs (fun _ rs' => QU (rs_ra rs') = QU (rs_ra rs)) anyf.
Definition pcalm {A} (p : prog rastate A) : Prop := calm (run p).
Lemma calm_ret {A} (a : A) : calm (ret a). Proof. intros rs. reflexivity. Qed.
Lemma calm_fail {A} f : calm (@fail rastate A f). Proof. intros rs. exact Logic.I. Qed.
Lemma calm_fatal {A} f : calm (@fatal rastate A f). Proof. intros rs. exact Logic.I. Qed.
Lemma calm_gets {A} (f : rastate -> A) : calm (gets f). Proof. intros rs. reflexivity. Qed.
Lemma calm_bind {A B} (m : M rastate A) (f : A -> M rastate B) : calm m -> (forall a, calm (f a)) -> calm (bind m f).
Proof. intros H1 H2 rs. apply wp_bind. eapply wp_mono; [apply H1| |auto]. intros a r1 E1. eapply wp_mono; [apply H2| |auto]. intros b r2 E2. congruence. Qed.
Lemma calm_sys {A} (m : M os A) : calm (ra_sys m). Proof. intros rs. apply wp_zoom, wp_any. reflexivity. Qed.
Lemma calm_rand {A} (m : M rstate A) : calm (ra_rand m). Proof. intros rs. apply wp_zoom, wp_any. reflexivity. Qed.
Lemma calm_upd f : (forall r, QU (f r) = QU r) -> calm (upd_ra f).
Proof. intros H rs. apply wp_modify. cbn. apply H. Qed.
Lemma pcalm_ret {A} (a : A) : pcalm (Ret a). Proof. apply calm_ret. Qed.
Lemma pcalm_act {A} (m : M rastate A) : calm m -> pcalm (act m). Proof. intros H rs. apply wp_run_act, H. Qed.
Lemma pcalm_bind {A B} (p : prog rastate A) (f : A -> prog rastate B) : pcalm p -> (forall a, pcalm (f a)) -> pcalm (pbind p f).
Proof. intros H1 H2 rs. apply wp_run_pbind. eapply wp_mono; [apply H1| |auto]. intros a r1 E1. eapply wp_mono; [apply H2| |auto]. intros b r2 E2. congruence. Qed.
Lemma pcalm_sys {A} (p : prog os A) : pcalm (ra_psys p). Proof. intros rs. apply wp_psys, wp_any. reflexivity. Qed.
Ltac calm1 := cbv beta zeta; lazymatch goal with
  | |- forall _, _ => intro
  | |- calm (bind _ _) => apply calm_bind
  | |- pcalm (pbind _ _) => apply pcalm_bind
  | |- pcalm (Act _ _) => apply pcalm_act
  | |- pcalm (act _) => apply pcalm_act
  | |- pcalm (Ret _) => apply pcalm_ret
  | |- pcalm (ra_psys _) => apply pcalm_sys
  | |- calm (ret _) => apply calm_ret
  | |- calm (fail _) => apply calm_fail
  | |- calm (fatal _) => apply calm_fatal
  | |- calm (gets _) => apply calm_gets
  | |- calm (ra_sys _) => apply calm_sys
  | |- calm (ra_rand _) => apply calm_rand
  | |- calm (upd_ra _) => apply calm_upd; intros; reflexivity
  | |- calm (if ?b then _ else _) => destruct b
  | |- pcalm (if ?b then _ else _) => destruct b
  | |- calm (match ?o with Some _ => _ | None => _ end) => destruct o
  | |- pcalm (match ?o with Some _ => _ | None => _ end) => destruct o
  end.
Ltac calm := repeat calm1.
Section g.
Context (g : config).
Lemma find_calm p : calm (regions_find p). Proof. unfold regions_find. calm. Qed.
Lemma grow_calm : calm (regions_grow g). Proof. unfold regions_grow. calm. Qed.
Lemma insert_calm p sz gd : calm (regions_insert g p sz gd). Proof. unfold regions_insert. calm. apply grow_calm. Qed.
Lemma delete_calm i : calm (regions_delete i). Proof. unfold regions_delete. calm. Qed.
Lemma set_size_calm i n : calm (regions_set_size i n). Proof. unfold regions_set_size. calm. Qed.
Lemma guard_calm n : calm (get_guard_size g n). Proof. unfold get_guard_size. calm. Qed.
Lemma up_calm n : calm (stats_large_allocate g n). Proof. unfold stats_large_allocate. calm. Qed.
Lemma down_calm n : calm (stats_large_deallocate g n). Proof. unfold stats_large_deallocate. calm. Qed.
Lemma section_calm b p n gd : calm (insert_section g b p n gd). Proof. unfold insert_section. calm; auto using insert_calm, up_calm. Qed.
Lemma remove_calm p ex : calm (remove_section g p ex). Proof. unfold remove_section. calm; auto using find_calm, delete_calm, down_calm. Qed.
Lemma large_calm n : pcalm (allocate_large g n). Proof. unfold allocate_large. calm; auto using guard_calm, section_calm. Qed.
Lemma rfind_calm p : calm (realloc_find p). Proof. unfold realloc_find. calm. apply find_calm. Qed.
Lemma rdelete_calm p n : calm (realloc_delete g p n). Proof. unfold realloc_delete. calm; auto using find_calm, delete_calm, down_calm. Qed.
Lemma rresize_calm p n m : calm (realloc_resize g p n m). Proof. unfold realloc_resize. calm; auto using find_calm, set_size_calm, down_calm. Qed.
Lemma ufind_calm p : calm (usable_find p). Proof. unfold usable_find. calm. apply find_calm. Qed.
Lemma ofind_calm p : calm (object_find p). Proof. unfold object_find. calm. apply find_calm. Qed.

(** ** one pass *)
Definition RL := REGION_QUARANTINE_RANDOM_LENGTH g.
Definition QL := REGION_QUARANTINE_QUEUE_LENGTH g.
Record qok (r : ralloc) : Prop := { qo_l : zlen (ra_qqueue r) = QL; qo_i : 0 < QL -> 0 <= ra_qqidx r < QL }.
(** [e] outlasts [k - 1] more passes *)
Definition wait (k : Z) (r : ralloc) (e : Z * Z) : Prop :=
  k <= 0 \/ ((exists t, lget (ra_qrandom r) t = Some e) /\ k <= 1 + QL) \/
  (exists t, 0 <= t < QL /\ lget (ra_qqueue r) t = Some e /\ k <= (t - ra_qqidx r) mod QL + 1).
Lemma wait_QU k r r' e : QU r' = QU r -> wait k r e -> wait k r' e.
Proof. unfold QU. intros [= A B C]. unfold wait. rewrite A, B, C. auto. Qed.
Lemma qok_QU r r' : QU r' = QU r -> qok r -> qok r'.
Proof. unfold QU. intros [= A B C] []. split; rewrite ?B, ?C; auto. Qed.
Lemma wait_le k k' r e : k' <= k -> wait k r e -> wait k' r e.
Proof. intros H [W|[[T W]|(t & B & T & W)]]; [left; lia|right; left; split; [auto|lia]|right; right; exists t; repeat split; auto; lia]. Qed.
Context (QB : 0 <= QL < 2 ^ 63).
Lemma pass_wait e rs : qok (rs_ra rs) ->
  wp (region_quarantine_pass g e) rs (fun _ rs' => qok (rs_ra rs') /\ wait (quarantine_length g) (rs_ra rs') e /\
     forall k e', fst e' <> 0 -> wait k (rs_ra rs) e' -> wait (k - 1) (rs_ra rs') e') anyf.
Proof.
  intros O. unfold region_quarantine_pass. apply wp_bind.
  assert (wp (if 0 <? REGION_QUARANTINE_RANDOM_LENGTH g then
       let! index := ra_rand (get_random_u64_uniform (REGION_QUARANTINE_RANDOM_LENGTH g)) in
       let! ra := gets rs_ra in
       let! random_substitute := aget (ra_qrandom ra) index in
       upd_ra (fun r => set_ra_qrandom (lset (ra_qrandom r) index e) r);;
       ret (if fst random_substitute =? 0 then None else Some random_substitute)
     else ret (Some e)) rs (fun out rs' => ra_qqueue (rs_ra rs') = ra_qqueue (rs_ra rs) /\ ra_qqidx (rs_ra rs') = ra_qqidx (rs_ra rs) /\
       if 0 <? RL then (exists i, lget (ra_qrandom (rs_ra rs')) i = Some e) /\
          (forall t x, fst x <> 0 -> lget (ra_qrandom (rs_ra rs)) t = Some x -> out = Some x \/ lget (ra_qrandom (rs_ra rs')) t = Some x)
       else out = Some e /\ ra_qrandom (rs_ra rs') = ra_qrandom (rs_ra rs)) anyf) as W.
  { unfold RL. destruct (0 <? REGION_QUARANTINE_RANDOM_LENGTH g) eqn:ER.
    - apply wp_bind. unfold ra_rand at 1. apply wp_zoom, wp_any. intros i rr. set (rs1 := _ : rastate).
      assert (QU (rs_ra rs1) = QU (rs_ra rs)) as E1 by reflexivity. clearbody rs1. unfold QU in E1. injection E1 as A B C. apply wp_bind, wp_gets, wp_bind. unfold aget. destruct (lget (ra_qrandom (rs_ra rs1)) i) as [old|] eqn:EO; [|exact Logic.I].
      apply wp_ret, wp_bind, wp_modify, wp_ret. cbn. pose proof (lget_Some_range _ _ _ EO) as R. split; [auto|]. split; [auto|]. split.
      + exists i. apply lget_lset_eq. exact R.
      + intros t x X0 T. rewrite <- A in T. destruct (Z.eq_dec t i) as [->|N]; [left|right; rewrite lget_lset_ne by auto; exact T]. rewrite EO in T. injection T as ->. replace (fst x =? 0) with false by lia. reflexivity.
    - apply wp_ret. auto. }
  eapply wp_mono; [exact W| |auto]. clear W. intros out rs1 (E1 & E2 & H). assert (qok (rs_ra rs1)) as O1 by (destruct O; split; rewrite ?E1, ?E2; auto).
  (* the queue stage *)
  assert (forall x, out = Some x -> wp (if 0 <? REGION_QUARANTINE_QUEUE_LENGTH g then
      let! ra := gets rs_ra in
      let! queue_substitute := aget (ra_qqueue ra) (ra_qqidx ra) in
      upd_ra (fun r => set_ra_qqueue (lset (ra_qqueue r) (ra_qqidx r) x) r);;
      upd_ra (fun r => set_ra_qqidx (w64 (ra_qqidx r + 1) mod REGION_QUARANTINE_QUEUE_LENGTH g) r);;
      ret queue_substitute
    else ret x) rs1 (fun _ rs' => qok (rs_ra rs') /\ ra_qrandom (rs_ra rs') = ra_qrandom (rs_ra rs1) /\ wait QL (rs_ra rs') x /\
       forall t y k, 0 <= t < QL -> lget (ra_qqueue (rs_ra rs1)) t = Some y -> k <= (t - ra_qqidx (rs_ra rs1)) mod QL + 1 -> wait (k - 1) (rs_ra rs') y) anyf) as W2.
  { intros x _. fold QL. destruct (0 <? QL) eqn:EQ.
    - apply wp_bind, wp_gets, wp_bind. unfold aget. destruct (lget (ra_qqueue (rs_ra rs1)) (ra_qqidx (rs_ra rs1))) as [old|] eqn:EO; [|exact Logic.I]. apply wp_ret, wp_bind, wp_modify, wp_bind, wp_modify, wp_ret. cbn.
      destruct O1 as [Ll Ii]. specialize (Ii ltac:(lia)). change (2 ^ 63) with 9223372036854775808 in QB. rewrite (w64_small (ra_qqidx (rs_ra rs1) + 1)) by (change (2 ^ 64) with 18446744073709551616; lia).
      pose proof (Z.mod_pos_bound (ra_qqidx (rs_ra rs1) + 1) QL ltac:(lia)) as Bm. split; [|split; [auto|split]].
      + split; cbn; [rewrite lset_zlen; auto|auto].
      + right. right. exists (ra_qqidx (rs_ra rs1)). cbn. split; [auto|]. split; [apply lget_lset_eq; lia|]. rewrite rot_place by lia. lia.
      + intros t y k Bt T K. destruct (Z.eq_dec t (ra_qqidx (rs_ra rs1))) as [->|N].
        * left. rewrite Z.sub_diag, Z.mod_0_l in K by lia. lia.
        * right. right. exists t. cbn. split; [auto|]. split; [rewrite lget_lset_ne by auto; auto|]. rewrite rot_step by lia. lia.
    - apply wp_ret. split; [auto|]. split; [auto|]. split; [left; lia|]. intros; lia. }
  assert (forall y k, fst y <> 0 -> k <= 1 + QL -> (out = Some y -> False) -> (exists t, lget (ra_qrandom (rs_ra rs)) t = Some y) -> exists t, lget (ra_qrandom (rs_ra rs1)) t = Some y) as RND.
  { intros y k Y0 _ N (t & T). destruct (0 <? RL); [|destruct H as [_ ->]; eauto]. destruct H as [_ H]. destruct (H t y Y0 T) as [X|X]; [contradiction|eauto]. }
  unfold quarantine_length. fold RL. fold QL. destruct out as [x|].
  - eapply wp_mono; [apply (W2 x eq_refl)| |auto]. intros out2 rs2 (O2 & R2 & Wx & Qq). split; [auto|]. split.
    + destruct (0 <? RL) eqn:ER.
      * destruct H as [H _]. right. left. rewrite R2. split; [auto|lia].
      * destruct H as [[= ->] _]. rewrite Z.add_0_r. exact Wx.
    + intros k y Y0 [K|[[T K]|(t & Bt & T & K)]].
      * left. lia.
      * assert (x = y \/ exists t, lget (ra_qrandom (rs_ra rs1)) t = Some y) as [->|X].
        { destruct T as (t & T). destruct (0 <? RL); [|destruct H as [_ ->]; eauto]. destruct H as [_ H]. destruct (H t y Y0 T) as [[= ->]|X]; eauto. }
        -- eapply wait_le; [|exact Wx]. lia.
        -- right. left. rewrite R2. split; [auto|lia].
      * rewrite <- E1 in T. rewrite <- E2 in K. apply (Qq t y k Bt T K).
  - apply wp_ret. split; [auto|]. destruct (0 <? RL) eqn:ER; [|destruct H as [H _]; discriminate]. destruct H as [H1 H2]. split; [right; left; split; [auto|lia]|].
    intros k y Y0 [K|[[T K]|(t & Bt & T & K)]]; [left; lia| |].
    + right. left. split; [|lia]. destruct T as (t & T). destruct (H2 t y Y0 T) as [X|X]; [discriminate|eauto].
    + right. right. exists t. rewrite E1, E2. repeat split; auto; try lia.
Qed.
Definition passed (n : Z) (r r' : ralloc) : Prop := qok r -> qok r' /\ forall k e, fst e <> 0 -> wait k r e -> wait (k - n) r' e.
Lemma passed_QU r r' : QU r' = QU r -> passed 0 r r'.
Proof. intros E O. split; [eapply qok_QU; eauto|]. intros k e _ W. rewrite Z.sub_0_r. eapply wait_QU; eauto. Qed.
Lemma passed_trans a b r r1 r2 : passed a r r1 -> passed b r1 r2 -> passed (a + b) r r2.
Proof. intros H1 H2 O. destruct (H1 O) as [O1 W1]. destruct (H2 O1) as [O2 W2]. split; [auto|]. intros k e E W. replace (k - (a + b)) with (k - a - b) by lia. auto. Qed.
Lemma passed_le a b r r' : a <= b -> passed a r r' -> passed b r r'.
Proof. intros L H O. destruct (H O) as [O1 W]. split; [auto|]. intros k e E X. eapply wait_le; [|apply W; eauto]. lia. Qed.
(** giving pages back: at most one pass *)
Lemma quar_passed p n gd rs : wp (run (regions_quarantine_deallocate_pages g p n gd)) rs (fun _ rs' =>
    passed (if n <? REGION_QUARANTINE_SKIP_THRESHOLD g then 1 else 0) (rs_ra rs) (rs_ra rs') /\
    (REGION_QUARANTINE g = true -> n < REGION_QUARANTINE_SKIP_THRESHOLD g -> qok (rs_ra rs) -> wait (quarantine_length g) (rs_ra rs') (w64 (p - gd), w64 (n + gd * 2)))) anyf.
Proof.
  unfold regions_quarantine_deallocate_pages. destruct (negb (REGION_QUARANTINE g) || (REGION_QUARANTINE_SKIP_THRESHOLD g <=? n)) eqn:Z.
  - apply wp_psys, wp_any. intros. split; [|intros Q0 N0; rewrite Q0 in Z; cbn in Z; lia]. eapply passed_le; [|apply passed_QU; reflexivity]. destruct (_ <? _); lia.
  - apply wp_run_pbind, wp_run_act, wp_zoom, wp_any. intros f o. apply wp_run_pbind. set (rs1 := _ : rastate). assert (rs_ra rs1 = rs_ra rs) as E1 by reflexivity. clearbody rs1.
    eapply wp_mono with (Q := fun _ rs2 => rs_ra rs2 = rs_ra rs) (E := anyf); [|intros [] rs2 E2|auto].
    { destruct f; [|apply wp_run_ret; exact E1]. apply wp_run_pbind, wp_run_act, wp_zoom, wp_any. intros. apply wp_run_ret. exact E1. }
    replace (n <? REGION_QUARANTINE_SKIP_THRESHOLD g) with true by lia. apply wp_run_pbind, wp_run_act.
    assert (qok (rs_ra rs) -> wp (region_quarantine_pass g (w64 (p - gd), w64 (n + gd * 2))) rs2 (fun _ rs' => qok (rs_ra rs') /\ wait (quarantine_length g) (rs_ra rs') (w64 (p - gd), w64 (n + gd * 2)) /\ forall k e', fst e' <> 0 -> wait k (rs_ra rs) e' -> wait (k - 1) (rs_ra rs') e') anyf) as W.
    { intros O. rewrite <- E2 in *. apply pass_wait. exact O. }
    eapply wp_mono with (Q := fun _ rs3 => qok (rs_ra rs) -> qok (rs_ra rs3) /\ wait (quarantine_length g) (rs_ra rs3) (w64 (p - gd), w64 (n + gd * 2)) /\ forall k e', fst e' <> 0 -> wait k (rs_ra rs) e' -> wait (k - 1) (rs_ra rs3) e') (E := anyf); [|intros tg rs3 H|auto].
    { unfold wp in *. destruct (region_quarantine_pass _ _ _) as [[? ?]|]; [exact W|exact Logic.I]. }
    assert (forall rs', rs_ra rs' = rs_ra rs3 -> passed 1 (rs_ra rs) (rs_ra rs') /\ (REGION_QUARANTINE g = true -> n < REGION_QUARANTINE_SKIP_THRESHOLD g -> qok (rs_ra rs) -> wait (quarantine_length g) (rs_ra rs') (w64 (p - gd), w64 (n + gd * 2)))) as END.
    { intros rs' ->. split; [intros O; split; apply (H O)|intros _ _ O; apply (H O)]. }
    destruct (fst tg =? 0); [apply wp_run_ret, END; reflexivity|]. apply wp_run_pbind, wp_run_act, wp_zoom, wp_any. intros. apply wp_run_ret, END. reflexivity.
Qed.

(** ** programs *)
Definition kept (n : Z) (s s' : state) : Prop := is_init s = true -> is_init s' = true /\ passed n (st_ra s) (st_ra s').
Definition mbud {A} (n : Z) (m : M state A) : Prop := forall s, wp m s (fun _ s' => kept n s s') anyf.
Definition bud {A} (n : Z) (p : prog state A) : Prop := mbud n (run p).
Lemma kept_refl s : kept 0 s s. Proof. intros H. split; [auto|apply passed_QU; reflexivity]. Qed.
Lemma kept_trans a b s s1 s2 : kept a s s1 -> kept b s1 s2 -> kept (a + b) s s2.
Proof. intros H1 H2 Hi. destruct (H1 Hi) as [I1 P1]. destruct (H2 I1) as [I2 P2]. split; [auto|]. eapply passed_trans; eauto. Qed.
Lemma kept_le a b s s' : a <= b -> kept a s s' -> kept b s s'.
Proof. intros L H Hi. destruct (H Hi). split; [auto|]. eapply passed_le; eauto. Qed.
Lemma mbud_bind {A B} n (m : M state A) (f : A -> M state B) : mbud 0 m -> (forall a, mbud n (f a)) -> mbud n (bind m f).
Proof. intros H1 H2 s. apply wp_bind. eapply wp_mono; [apply H1| |auto]. intros a s1 K1. eapply wp_mono; [apply H2| |auto]. intros b s2 K2. exact (kept_trans 0 n _ _ _ K1 K2). Qed.
Lemma bud_bind {A B} n (p : prog state A) (f : A -> prog state B) : bud 0 p -> (forall a, bud n (f a)) -> bud n (pbind p f).
Proof. intros H1 H2 s. apply wp_run_pbind. eapply wp_mono; [apply H1| |auto]. intros a s1 K1. eapply wp_mono; [apply H2| |auto]. intros b s2 K2. exact (kept_trans 0 n _ _ _ K1 K2). Qed.
Lemma bud_last {A B} n (p : prog state A) (f : A -> prog state B) : bud n p -> (forall a, bud 0 (f a)) -> bud n (pbind p f).
Proof. intros H1 H2 s. apply wp_run_pbind. eapply wp_mono; [apply H1| |auto]. intros a s1 K1. eapply wp_mono; [apply H2| |auto]. intros b s2 K2. rewrite <- (Z.add_0_r n). exact (kept_trans n 0 _ _ _ K1 K2). Qed.
Lemma bud_le {A} a b (p : prog state A) : a <= b -> bud a p -> bud b p.
Proof. intros L H s. eapply wp_mono; [apply H| |auto]. intros x s' K. eapply kept_le; eauto. Qed.
Lemma mbud_ret {A} (a : A) : mbud 0 (ret a). Proof. intros s. apply wp_ret, kept_refl. Qed.
Lemma mbud_fail {A} f : mbud 0 (@fail state A f). Proof. intros s. exact Logic.I. Qed.
Lemma mbud_get : mbud 0 get. Proof. intros s. apply wp_get, kept_refl. Qed.
Lemma mbud_gets {A} (f : state -> A) : mbud 0 (gets f). Proof. intros s. apply wp_gets, kept_refl. Qed.
Lemma mbud_os {A} (m : M os A) : mbud 0 (on_os m). Proof. intros s. apply wp_zoom, wp_any. intros a o Hi. split; [exact Hi|apply passed_QU; reflexivity]. Qed.
Lemma mbud_ra {A} (m : M rastate A) : calm m -> mbud 0 (on_ra m).
Proof. intros C s. unfold on_ra. apply wp_zoom. eapply wp_mono; [apply C| |auto]. intros a rs E Hi. split; [exact Hi|apply passed_QU; exact E]. Qed.
Lemma mbud_class {A} a k (m : M cstate A) : mbud 0 (on_class g a k m).
Proof. intros s. unfold on_class. destruct (_ && _); [|exact Logic.I]. apply wp_zoom, wp_any. intros x o Hi. split; [exact Hi|apply passed_QU; reflexivity]. Qed.
Lemma mbud_at {A} p (m : Z -> Z -> M state A) : (forall a k, mbud 0 (m a k)) -> mbud 0 (fun s => let '(a, k) := slab_size_class g s p in m a k s).
Proof. intros H s. unfold wp. destruct (slab_size_class g s p) as [a k]. apply H. Qed.
Lemma bud_ret {A} (a : A) : bud 0 (Ret a). Proof. apply mbud_ret. Qed.
Lemma bud_act {A} (m : M state A) : mbud 0 m -> bud 0 (act m). Proof. intros H s. apply wp_run_act, H. Qed.
Lemma bud_ra {A} (p : prog rastate A) : pcalm p -> bud 0 (p_ra p).
Proof. intros C s. apply wp_pra. eapply wp_mono; [apply C| |auto]. intros a rs E Hi. split; [exact Hi|apply passed_QU; exact E]. Qed.
Lemma bud_os {A} (p : prog os A) : bud 0 (p_os p). Proof. intros s. apply wp_pos, wp_any. intros a o Hi. split; [exact Hi|apply passed_QU; reflexivity]. Qed.
Lemma bud_init tid : bud 0 (init g tid).
Proof.
  unfold init. apply bud_bind.
  - apply bud_act. intros s. unfold pick_arena. apply wp_bind, wp_get. destruct (N_ARENA g =? 1); [apply wp_ret, kept_refl|]. destruct (st_arena s tid <? N_ARENA g); [apply wp_ret, kept_refl|].
    apply wp_bind, wp_put, wp_ret. intros Hi. split; [exact Hi|apply passed_QU; reflexivity].
  - intros [a r]. apply bud_bind; [|intros _; apply bud_ret]. destruct r; [apply bud_ret|]. apply bud_act. intros s. unfold init_slow_path. apply wp_bind, wp_get.
    destruct (is_init s) eqn:E; [apply wp_ret, kept_refl|]. apply wp_any. intros x s' H. congruence.
Qed.
Lemma bud_trim l : forall b, bud 0 (trim_classes g l b).
Proof.
  induction l as [|[a k] l IH]; intros b; cbn [trim_classes]; [apply bud_ret|]. apply bud_bind; [|intros; apply IH]. destruct (k =? 0); [apply bud_ret|apply bud_act, mbud_class].
Qed.
Ltac bud := repeat first
  [ apply bud_init | apply bud_trim | apply bud_ret | apply bud_ra | apply bud_os | apply mbud_class | apply mbud_os | apply mbud_ra | apply mbud_get | apply mbud_gets | apply mbud_fail | apply mbud_ret
  | apply mbud_at; intros | apply bud_act | apply bud_bind; intros | apply mbud_bind; intros
  | match goal with
    | |- bud _ (if ?b then _ else _) => destruct b
    | |- mbud _ (if ?b then _ else _) => destruct b
    | |- bud _ (match ?o with Some _ => _ | None => _ end) => destruct o
    | |- bud _ (match ?o with inl _ => _ | inr _ => _ end) => destruct o
    | |- bud _ (let '(_, _) := ?x in _) => destruct x
    end ].
Lemma allocate_bud arena n : bud 0 (allocate g arena n). Proof. unfold allocate, allocate_small. bud. apply large_calm. Qed.
Lemma small_bud p ex : bud 0 (deallocate_small g p ex). Proof. unfold deallocate_small. bud. Qed.
Lemma large_bud p ex : bud 1 (deallocate_large_top g p ex).
Proof.
  unfold deallocate_large_top. apply bud_bind; [unfold enforce_init; bud|intros []]. intros s. apply wp_pra. unfold deallocate_large. apply wp_run_pbind, wp_run_act. eapply wp_mono; [apply remove_calm| |auto]. intros sg rs1 E1.
  eapply wp_mono; [apply quar_passed| |auto]. intros [] rs2 [P _] Hi. split; [exact Hi|]. apply passed_le with (a := 0 + (if fst sg <? REGION_QUARANTINE_SKIP_THRESHOLD g then 1 else 0)); [destruct (_ <? _); lia|]. eapply passed_trans; [apply passed_QU; exact E1|exact P].
Qed.
Lemma copy_bud tid old n m : bud 1 (realloc_copy g tid old n m).
Proof.
  unfold realloc_copy. apply bud_bind; [apply bud_init|intros a]. apply bud_bind; [apply allocate_bud|intros [q|]]; [|apply bud_le with 0; [lia|apply bud_ret]]. cbv zeta.
  apply bud_bind; [bud|intros []]. apply bud_last; [|intros; apply bud_ret]. destruct (n <=? _); [apply bud_le with 0; [lia|apply small_bud]|apply large_bud].
Qed.
Lemma shrink_bud old n gd m : bud 1 (realloc_shrink g old n gd m).
Proof.
  unfold realloc_shrink. cbv zeta. apply bud_bind; [bud|intros [|]]; [apply bud_le with 0; [lia|apply bud_ret]|]. apply bud_last; [|intros []; bud; apply rresize_calm].
  intros s. apply wp_pra. eapply wp_mono; [apply quar_passed| |auto]. intros [] rs' [P _] Hi. split; [exact Hi|]. eapply passed_le; [|exact P]. destruct (_ <? _); lia.
Qed.
Lemma mremap_bud old n gd m : bud 0 (realloc_mremap g old n gd m).
Proof. unfold realloc_mremap. bud; auto using large_calm, rdelete_calm. Qed.
Lemma realloc_bud tid p n : bud 1 (h_realloc g tid p n).
Proof.
  unfold h_realloc. cbv zeta. destruct (p =? 0); [apply bud_le with 0; [lia|unfold alloc; bud; apply allocate_bud]|]. destruct (_ && _); [apply bud_le with 0; [lia|unfold set_errno_to; bud]|].
  apply bud_bind; [bud|intros s]. destruct (in_slab_region p s).
  - destruct (_ && _); [apply bud_le with 0; [lia|apply bud_ret]|apply copy_bud].
  - apply bud_bind; [unfold enforce_init; bud|intros []]. apply bud_bind; [bud; apply rfind_calm|intros [os gd]]. destruct (os =? _); [apply bud_le with 0; [lia|apply bud_ret]|]. destruct (_ <? _); [|apply copy_bud].
    destruct (_ <? os); [apply shrink_bud|]. destruct (_ <=? _); [apply bud_le with 0; [lia|apply mremap_bud]|apply copy_bud].
Qed.
(** other calls *)
Lemma aligned_calm al n : pcalm (allocate_large_aligned g al n).
Proof. unfold allocate_large_aligned. calm; auto using guard_calm, section_calm. Qed.
Lemma other_bud tid c : match c with OFree _ | OFreeSized _ _ | ORealloc _ _ => False | _ => True end -> bud 0 (op_run g tid c).
Proof.
  destruct c; intros X; try destruct X; cbn [op_run]; unfold pmap; (apply bud_last; [|intros; apply bud_ret]);
  unfold h_malloc, h_calloc, h_posix_memalign, h_aligned_alloc, h_valloc, h_pvalloc, alloc_aligned_simple, alloc_aligned, allocate_aligned, alloc,
    h_malloc_usable_size, h_malloc_object_size, h_malloc_object_size_fast, h_malloc_trim, store, set_errno_to, enforce_init, allocate, allocate_small; bud; auto using large_calm, ufind_calm, ofind_calm, aligned_calm.
Qed.
(** every call makes at most one pass *)
Lemma op_bud tid c : bud 1 (op_run g tid c).
Proof.
  destruct c; try (apply bud_le with 0; [lia|apply other_bud; exact Logic.I]); cbn [op_run]; unfold pmap; (apply bud_last; [|intros; apply bud_ret]).
  - apply realloc_bud.
  - unfold h_free. destruct (p =? 0); [apply bud_le with 0; [lia|apply bud_ret]|]. apply bud_bind; [bud|intros s]. destruct (in_slab_region p s); [apply bud_le with 0; [lia|apply small_bud]|]. apply bud_bind; [bud|intros e]. apply bud_last; [apply large_bud|intros []; bud].
  - unfold h_free_sized. destruct (p =? 0); [apply bud_le with 0; [lia|apply bud_ret]|]. cbv zeta. apply bud_bind; [bud|intros s]. destruct (in_slab_region p s); [apply bud_le with 0; [lia|apply small_bud]|]. apply large_bud.
Qed.
(** freeing a large block *)
Lemma drop_wait s LL p ex : hinv g s LL -> in_slab_region p s = false -> wp (run (deallocate_large_top g p ex)) s (fun _ s' => exists n gd, In (mkRegion p n gd) (rl_own LL) /\
    kept (if n <? REGION_QUARANTINE_SKIP_THRESHOLD g then 1 else 0) s s' /\
    (REGION_QUARANTINE g = true -> n < REGION_QUARANTINE_SKIP_THRESHOLD g -> wait (quarantine_length g) (st_ra s') (p - gd, n + gd * 2))) anyf.
Proof.
  intros HI NS. pose proof HI as [I O S A C SC]. unfold deallocate_large_top. apply wp_run_pbind, wp_run_act. unfold enforce_init. apply wp_bind, wp_get. rewrite (hinv_init _ _ _ HI). apply wp_ret. apply wp_pra. unfold deallocate_large. apply wp_run_pbind, wp_run_act.
  eapply wp_mono; [apply (remove_section_wp g s (ra_get s) LL [] p ex); [rewrite ra_put_get; exact I|rewrite O; intros []]| |intros; exact Logic.I].
  intros [n gd] rs1 (r & -> & Hin & _ & _ & _ & _ & Q1 & Q2 & Q3). cbn [fst snd] in *. assert (QU (rs_ra rs1) = QU (st_ra s)) as E1 by (unfold QU; rewrite Q1, Q2, Q3; reflexivity).
  eapply wp_mono; [apply quar_passed| |auto]. intros [] rs2 [P W]. exists n, gd. split; [exact Hin|]. split.
  - intros Hi. split; [exact Hi|]. apply (passed_trans 0 _ _ (rs_ra rs1)); [apply passed_QU; exact E1|exact P].
  - intros Rq Sk. assert (qok (rs_ra rs1)) as Ok1.
    { eapply qok_QU; [exact E1|]. destruct (gi_rq _ _ _ _ I) as [_ K2 K3 _]. split; [exact K2|intros X; split; [apply K3|apply (proj2 K3 X)]]. }
    specialize (W Rq Sk Ok1). destruct (gi_reg _ _ _ _ I _ Hin). cbn in *. change (2 ^ 47) with 140737488355328 in *. rewrite !w64_small in W by (change (2 ^ 64) with 18446744073709551616; lia). exact W.
Qed.
Lemma free_wait s LL tid p c : hinv g s LL -> frees c p -> p <> 0 -> in_slab_region p s = false -> wp (run (op_run g tid c)) s (fun _ s' => exists n gd, In (mkRegion p n gd) (rl_own LL) /\
    kept (if n <? REGION_QUARANTINE_SKIP_THRESHOLD g then 1 else 0) s s' /\
    (REGION_QUARANTINE g = true -> n < REGION_QUARANTINE_SKIP_THRESHOLD g -> wait (quarantine_length g) (st_ra s') (p - gd, n + gd * 2))) anyf.
Proof.
  intros HI F P0 NS. destruct F as [->|(z & ->)]; cbn [op_run]; apply wp_pmap.
  - unfold h_free. replace (p =? 0) with false by lia. apply wp_run_pbind, wp_run_act, wp_get. rewrite NS. apply wp_run_pbind, wp_run_act, wp_gets. apply wp_run_pbind. eapply wp_mono; [apply (drop_wait s LL p None HI NS)| |auto]. intros [] s1 (n & gd & Hin & K & W).
    unfold set_errno_to. apply wp_run_act, wp_zoom, wp_any. intros. exists n, gd. auto.
  - unfold h_free_sized. replace (p =? 0) with false by lia. cbv zeta. apply wp_run_pbind, wp_run_act, wp_get. rewrite NS. apply (drop_wait s LL p _ HI NS).
Qed.
Lemma small_copy_bud tid old n m : n <= max_slab_size_class g -> bud 0 (realloc_copy g tid old n m).
Proof.
  intros L. unfold realloc_copy. replace (n <=? max_slab_size_class g) with true by lia. apply bud_bind; [apply bud_init|intros a]. apply bud_bind; [apply allocate_bud|intros [q|]]; [|apply bud_ret]. cbv zeta.
  apply bud_bind; [bud|intros []]. apply bud_bind; [apply small_bud|intros; apply bud_ret].
Qed.
Lemma usable_large s LL p n gd : hinv g s LL -> in_slab_region p s = false -> In (mkRegion p n gd) (rl_own LL) -> 0 < p < 2 ^ 64 -> usable_size g s p n.
Proof.
  intros HI NS Hin P. pose proof (usable_wp g s LL p (or_introl HI) ltac:(lia)) as Wp. unfold wp in Wp. unfold usable_size. assert (block g s LL p n) as B by (right; exists gd; exact Hin).
  destruct (run (h_malloc_usable_size g p) s) as [[m s']|f].
  - destruct Wp as (_ & W). replace (p =? 0) with false in W by lia. exists s'. rewrite (block_fun g s LL [] (hi_inv _ _ _ HI) p m n (proj1 W) B). reflexivity.
  - exfalso. destruct Wp as (_ & _ & [X|(_ & X & _)]); [apply (X _ B)|congruence].
Qed.
Lemma quiet_step W t s LL tid c a s' : linv g t s LL -> is_init s = true -> calls g W t s tid c a s' -> ~ may_quarantine g s c -> kept 0 s s'.
Proof.
  intros LI Hi K NM. pose proof K as (TC & WD & PM & _ & RUN). pose proof (li_ready _ _ _ _ LI) as R. assert (hinv g s LL) as HI by (apply ready_hinv; auto).
  assert (forall n, bud n (op_run g tid c) -> kept n s s') as BUD by (intros n B; exact (run_wp _ _ _ _ _ _ (B s) RUN)).
  assert (forall p, frees c p -> p <> 0 -> 0 <= p < 2 ^ 64 -> ~ in_small_area s p -> (exists n, usable_size g s p n /\ n < REGION_QUARANTINE_SKIP_THRESHOLD g) \/ kept 0 s s') as FREE.
  { intros p F P0 Hp NS. assert (in_slab_region p s = false) as L by (unfold in_slab_region; unfold in_small_area in NS; lia).
    destruct (run_wp _ _ _ _ _ _ (free_wait s LL tid p c HI F P0 L) RUN) as (n & gd & Hin & Kp & _). destruct (n <? REGION_QUARANTINE_SKIP_THRESHOLD g) eqn:Z; [left|right; exact Kp].
    exists n. split; [apply (usable_large s LL p n gd HI L Hin ltac:(lia))|lia]. }
  destruct c; try (apply BUD, other_bud; exact Logic.I); cbn [words] in WD; unfold word in WD; cbn [may_quarantine] in NM.
  - destruct (Z.eq_dec p 0) as [->|P0]; [apply BUD; cbn [op_run]; unfold pmap; apply bud_last; [|intros; apply bud_ret]; unfold h_realloc; cbn [Z.eqb]; unfold alloc; bud; apply allocate_bud|].
    assert (in_slab_region p s = true) as L. { unfold in_slab_region. unfold in_small_area in NM. destruct (_ && _) eqn:X; [reflexivity|]. elim NM. split; [auto|lia]. }
    cbn [permitted] in PM. destruct PM as [X|(b & Hb & _)]; [congruence|]. destruct (li_blk _ _ _ _ LI _ _ Hb) as (n0 & B & _). destruct (old_size_slab g s LL p n0 HI B L) as (V1 & V2 & V3).
    cbn [op_run] in RUN. destruct (run_pmap _ _ _ _ _ RUN) as (r & RUN' & _). clear RUN.
    assert (wp (run (h_realloc g tid p n)) s (fun _ s' => kept 0 s s') anyf) as W0; [|exact (run_wp _ _ _ _ _ _ W0 RUN')].
    unfold h_realloc. cbv zeta. replace (p =? 0) with false by lia. destruct (_ && (_ =? 0)); [apply (ltac:(unfold set_errno_to; bud) : bud 0 (set_errno_to ENOMEM ;;; Ret None))|].
    apply wp_run_pbind, wp_run_act, wp_get. rewrite L. unfold slab_usable_size. destruct (_ && _); [apply wp_run_ret, kept_refl|]. apply small_copy_bud. lia.
  - destruct (Z.eq_dec p 0) as [->|P0]; [apply BUD; cbn [op_run]; unfold pmap; apply bud_last; [|intros; apply bud_ret]; unfold h_free; cbn [Z.eqb]; apply bud_ret|].
    destruct (in_slab_region p s) eqn:L.
    + cbn [op_run] in RUN. destruct (run_pmap _ _ _ _ _ RUN) as (r & RUN' & _). assert (wp (run (h_free g p)) s (fun _ s' => kept 0 s s') anyf) as W0; [|exact (run_wp _ _ _ _ _ _ W0 RUN')].
      unfold h_free. replace (p =? 0) with false by lia. apply wp_run_pbind, wp_run_act, wp_get. rewrite L. apply small_bud.
    + assert (~ in_small_area s p) as NS by (unfold in_slab_region in L; unfold in_small_area; lia). destruct (FREE p (or_introl eq_refl) P0 ltac:(lia) NS) as [X|X]; [|exact X]. elim NM. auto.
  - destruct (Z.eq_dec p 0) as [->|P0]; [apply BUD; cbn [op_run]; unfold pmap; apply bud_last; [|intros; apply bud_ret]; unfold h_free_sized; cbn [Z.eqb]; apply bud_ret|].
    destruct (in_slab_region p s) eqn:L.
    + cbn [op_run] in RUN. destruct (run_pmap _ _ _ _ _ RUN) as (r & RUN' & _). assert (wp (run (h_free_sized g p n)) s (fun _ s' => kept 0 s s') anyf) as W0; [|exact (run_wp _ _ _ _ _ _ W0 RUN')].
      unfold h_free_sized. replace (p =? 0) with false by lia. cbv zeta. apply wp_run_pbind, wp_run_act, wp_get. rewrite L. apply small_bud.
    + assert (~ in_small_area s p) as NS by (unfold in_slab_region in L; unfold in_small_area; lia). destruct (FREE p (or_intror (ex_intro _ n eq_refl)) P0 ltac:(lia) NS) as [X|X]; [|exact X]. elim NM. auto.
Qed.
Lemma at_most_wait W o t s k t2 s2 e w : usable_config g = true -> history g W o t s -> at_most g W t s k t2 s2 -> is_init s = true -> qok (st_ra s) -> fst e <> 0 -> wait w (st_ra s) e ->
  history g W o t2 s2 /\ is_init s2 = true /\ qok (st_ra s2) /\ wait (w - Z.of_nat k) (st_ra s2) e.
Proof.
  intros U H A Hi O E W0. induction A as [|n t1 s1 tid c a s2 A IH K NM|n t1 s1 tid c a s2 A IH K].
  - rewrite Z.sub_0_r. auto.
  - destruct IH as (H1 & I1 & O1 & W1). destruct (history_linv _ _ _ _ _ U H1) as (LL & LI). destruct (quiet_step _ _ _ _ _ _ _ _ LI I1 K NM I1) as [I2 P]. destruct (P O1) as [O2 W2]. split; [eapply calls_history; eauto|]. split; [auto|]. split; [auto|]. rewrite <- (Z.sub_0_r (w - Z.of_nat n)). auto.
  - destruct IH as (H1 & I1 & O1 & W1). destruct (calls_wp _ _ _ _ _ _ _ _ _ _ K (op_bud tid c s1) I1) as [I2 P]. destruct (P O1) as [O2 W2]. split; [eapply calls_history; eauto|]. split; [auto|]. split; [auto|]. replace (w - Z.of_nat (S n)) with (w - Z.of_nat n - 1) by lia. auto.
Qed.
Lemma wait_in k r e : 0 < k -> wait k r e -> In e (ra_qrandom r) \/ In e (ra_qqueue r).
Proof. intros K [X|[[(t & X) _]|(t & _ & X & _)]]; [lia|left|right]; eapply lget_In; eauto. Qed.
Lemma qok_hinv s LL : hinv g s LL -> qok (st_ra s).
Proof. intros HI. destruct (gi_rq _ _ _ _ (hi_inv _ _ _ HI)) as [_ K2 K3 _]. split; [exact K2|intros X; split; [apply K3|apply (proj2 K3 X)]]. Qed.
End g.

Lemma qlen_range g : usable_config g = true -> 0 <= QL g < 2 ^ 63.
Proof. intros U. pose proof (uc_rq _ (ucfg_of g U)). unfold QL. change (2 ^ 63) with 9223372036854775808. lia. Qed.
Lemma C24_core g W o t s p b n tid c a s1 k t2 s2 : usable_config g = true -> history g W o t s -> In (p, b) (live t) -> ~ in_small_area s p -> usable_size g s p n -> n < REGION_QUARANTINE_SKIP_THRESHOLD g ->
  frees c p -> calls g W t s tid c a s1 -> at_most g W (mkEv tid c a :: t) s1 k t2 s2 -> Z.of_nat k < quarantine_length g ->
  exists gd, 4096 <= gd /\ guarded s (p - gd) p /\ guarded s (page_up (p + n)) (page_up (p + n) + gd) /\ forall x, p - gd <= x < page_up (p + n) + gd ->
    (never_refused s2 -> inaccessible s2 x) /\ pages (st_os s2) (page_of x) <> None /\ forall q d m, In (q, d) (live t2) -> extent g s2 q d m -> ~ q <= x < q + m.
Proof.
  intros U H HL NS US SK F K A LT. destruct (history_linv _ _ _ _ _ U H) as (LL & LI). destruct (live_block _ _ _ _ _ _ LI HL) as (n' & B & _ & HI & PW & _). rewrite (usable_eq _ _ _ _ _ _ _ _ LI HL B US) in *. clear US n.
  assert (in_slab_region p s = false) as L by (unfold in_slab_region; unfold in_small_area in NS; lia).
  destruct (calls_wp _ _ _ _ _ _ _ _ _ _ K (free_wait g (qlen_range g U) s LL tid p c HI F ltac:(lia) L)) as (n & gd & Hin & Kp & Wt).
  assert (n = n') as <- by (apply (block_fun g s LL [] (hi_inv _ _ _ HI) p); [right; exists gd; exact Hin|exact B]).
  pose proof (hinv_init _ _ _ HI) as Hi. destruct (Kp Hi) as [Hi1 Pa]. destruct (Pa (qok_hinv g s LL HI)) as [O1 _].
  assert (REGION_QUARANTINE g = true) as RQ. { unfold quarantine_length in LT. unfold REGION_QUARANTINE. destruct (0 <? REGION_QUARANTINE_RANDOM_LENGTH g); [reflexivity|]. cbn. lia. }
  specialize (Wt RQ SK). pose proof (gi_reg _ _ _ _ (hi_inv _ _ _ HI) _ Hin) as [K1 K2 K3 K4 K5 K6 K7]. cbn [rg_p rg_size rg_guard] in *.
  destruct (at_most_wait g (qlen_range g U) W o _ _ k t2 s2 (p - gd, n + gd * 2) _ U (calls_history _ _ _ _ _ _ _ _ _ H K) A Hi1 O1 ltac:(cbn; lia) Wt) as (H2 & Hi2 & _ & W2).
  apply wait_in in W2; [|lia]. destruct (history_hinv _ _ _ _ _ U H2 Hi2) as (LL2 & LI2 & HI2).
  assert (In (in_pages (p - gd) (n + gd * 2)) (qspans (st_ra s2))) as QS.
  { apply qspans_In. exists (p - gd, n + gd * 2). cbn. split; [exact W2|]. split; [lia|reflexivity]. }
  assert (page_up (p + n) mod 4096 = 0 /\ p + n <= page_up (p + n) < p + n + 4096) as [PM PU].
  { unfold page_up. rewrite Z.mod_mul by lia. pose proof (Z.div_mod (p + n + 4095) 4096 ltac:(lia)). pose proof (Z.mod_pos_bound (p + n + 4095) 4096 ltac:(lia)). lia. }
  assert (forall x, p - gd <= x < page_up (p + n) + gd -> in_pages (p - gd) (n + gd * 2) (page_of x) = true) as IN.
  { intros x Hx. apply in_pages_spec. unfold page_of. split; [apply Z.div_le_mono; lia|].
    apply Z.lt_le_trans with (x / 4096 + 1); [lia|]. rewrite <- Z.div_add by lia. unfold page_up in *.
    pose proof (Z.div_mod (p + n + 4095) 4096 ltac:(lia)). pose proof (Z.mod_pos_bound (p + n + 4095) 4096 ltac:(lia)). pose proof (Z.div_mod gd 4096 ltac:(lia)).
    replace ((p - gd + (n + gd * 2) + 4095) / 4096) with ((p + n + 4095) / 4096 + gd / 4096).
    2:{ rewrite <- Z.div_add by lia. f_equal. lia. }
    rewrite Z.div_add by lia. assert (x / 4096 < (p + n + 4095) / 4096 + gd / 4096); [|lia]. apply Z.div_lt_upper_bound; lia. }
  assert (forall x, p - gd <= x < p \/ page_up (p + n) <= x < page_up (p + n) + gd -> inaccessible s x) as NA.
  { intros x Hx. apply K7.
    - unfold region_span. cbn [rg_p rg_size rg_guard]. rewrite (Z.mul_comm 2). apply IN. lia.
    - destruct (in_pages p n (page_of x)) eqn:Q; [|reflexivity]. exfalso. apply in_pages_spec in Q. unfold page_of in Q. pose proof (Z.div_mod x 4096 ltac:(lia)). pose proof (Z.mod_pos_bound x 4096 ltac:(lia)).
      pose proof (Z.div_mod p 4096 ltac:(lia)). unfold page_up in *. lia. }
  exists gd. split; [lia|]. split; [split; [lia|auto]|]. split; [split; [lia|auto]|]. intros x Hx. specialize (IN x Hx).
  split; [intros NR; exact (gi_cold _ _ _ _ (hi_inv _ _ _ HI2) (hi_strict _ _ _ HI2) NR _ _ QS IN)|]. split.
  { apply (gi_map _ _ _ _ (hi_inv _ _ _ HI2) _ _ ltac:(unfold spans; rewrite !in_app_iff; right; right; left; exact QS) IN). }
  intros q d m HQ X Hq. destruct (ext_block _ _ _ _ _ _ _ LI2 HQ X) as (m' & Bq & Lm). pose proof (block_user g s2 LL2 [] (hi_inv _ _ _ HI2) q m' x Bq ltac:(lia)) as US.
  pose proof (gi_apart _ _ _ _ (hi_inv _ _ _ HI2) (page_of x)) as CO. unfold spans in CO. rewrite !cover_app in CO. pose proof (cover_In _ _ _ QS IN).
  pose proof (cover_nonneg (fixed g s2) (page_of x)). pose proof (cover_nonneg (map region_span (rl_own LL2)) (page_of x)). pose proof (cover_nonneg (map fl_in []) (page_of x)).
  destruct US as [US|(r & Hr & Hs)].
  - assert (In (slab_span g s2) (fixed g s2)) as FX by (unfold fixed; cbn; tauto). pose proof (cover_In _ _ _ FX US). lia.
  - assert (In (region_span r) (map region_span (rl_own LL2))) as FX by (apply in_map; exact Hr). pose proof (cover_In _ _ _ FX Hs). lia.
Qed.
Lemma C24_l g W o t s p b n tid c a s1 k t2 s2 : usable_config g = true -> history g W o t s -> In (p, b) (live t) -> ~ in_small_area s p -> usable_size g s p n -> n < REGION_QUARANTINE_SKIP_THRESHOLD g ->
  frees c p -> calls g W t s tid c a s1 -> at_most g W (mkEv tid c a :: t) s1 k t2 s2 -> Z.of_nat k < quarantine_length g -> never_refused s2 ->
  exists gd, 4096 <= gd /\ guarded s (p - gd) p /\ guarded s (page_up (p + n)) (page_up (p + n) + gd) /\ guarded s2 (p - gd) (page_up (p + n) + gd).
Proof.
  intros U H HL NS US SK F K A LT NR. destruct (C24_core _ _ _ _ _ _ _ _ _ _ _ _ _ _ _ U H HL NS US SK F K A LT) as (gd & G & G1 & G2 & C). exists gd. split; [auto|]. split; [auto|]. split; [auto|]. split; [destruct G1 as [G1 _], G2 as [G2 _]|intros x Hx; apply (C x Hx), NR].
  destruct (history_linv _ _ _ _ _ U H) as (LL & LI). destruct (live_block _ _ _ _ _ _ LI HL) as (n' & B & _ & HI & PW & Nn). rewrite (usable_eq _ _ _ _ _ _ _ _ LI HL B US) in *.
  unfold page_up. pose proof (Z.div_mod (p + n' + 4095) 4096 ltac:(lia)). pose proof (Z.mod_pos_bound (p + n' + 4095) 4096 ltac:(lia)). lia.
Qed.
Lemma C24_reserved_l g W o t s p b n tid c a s1 k t2 s2 : usable_config g = true -> history g W o t s -> In (p, b) (live t) -> ~ in_small_area s p -> usable_size g s p n -> n < REGION_QUARANTINE_SKIP_THRESHOLD g ->
  frees c p -> calls g W t s tid c a s1 -> at_most g W (mkEv tid c a :: t) s1 k t2 s2 -> Z.of_nat k < quarantine_length g ->
  exists gd, 4096 <= gd /\ guarded s (p - gd) p /\ guarded s (page_up (p + n)) (page_up (p + n) + gd) /\ forall x, p - gd <= x < page_up (p + n) + gd ->
    mapped s2 x /\ forall q d m, In (q, d) (live t2) -> extent g s2 q d m -> ~ q <= x < q + m.
Proof.
  intros U H HL NS US SK F K A LT. destruct (C24_core _ _ _ _ _ _ _ _ _ _ _ _ _ _ _ U H HL NS US SK F K A LT) as (gd & G & G1 & G2 & C). exists gd. split; [auto|]. split; [auto|]. split; [auto|]. intros x Hx. exact (proj2 (C x Hx)).
Qed.
