(** C23 *)
From Coq Require Import String ZArith List Bool Lia ZifyBool.
From Verif Require Import M_Base M_Config M_SizeClass M_OS M_Random M_Region S_Region P_Base P_Count P_SizeClass P_OS P_Region P_Region2.
Import ListNotations.
Open Scope Z_scope.
Ltac Zify.zify_post_hook ::= idtac.
Opaque home prev_index.

Lemma ra_init_ok g a b rng : ra_ok g (ra_init g a b rng) (fun _ => None).
Proof.
  assert (cnt 128 (fun _ : Z => region_zero) = 0) as C0 by (unfold cnt; apply zcount_zero; auto).
  constructor; unfold ra_cells; cbn [ra_init ra_tab ra_cur ra_total ra_free ra_leftover]; auto.
  - exists 7. split; [lia|reflexivity].
  - lia.
  - constructor; intros; discriminate.
  - lia.
  - intros p sz gd Hp. split; [discriminate|]. intros (i & _ & E). injection E as <-. congruence.
Qed.

Lemma grow_leftover g s : ra_leftover (rs_ra s) = true -> wp (regions_grow g) s (fun _ s' => ra_leftover (rs_ra s') = true) (fun _ => True).
Proof.
  intros L. unfold regions_grow. apply wp_bind, wp_gets.
  destruct (_ <? _); [apply wp_ret; auto|]. destruct (_ <? _); [apply wp_ret; auto|].
  apply wp_bind. unfold ra_sys. apply wp_zoom. eapply wp_mono; [apply memory_protect_wp| |auto].
  intros failed o _. destruct failed; [apply wp_ret; auto|].
  destruct (rehash _ _ _ _); [|apply wp_fail; auto].
  apply wp_bind, wp_modify, wp_bind, wp_zoom. eapply wp_mono; [apply memory_map_fixed_wp| |auto].
  intros failed o' _. destruct failed; apply wp_bind, wp_modify, wp_bind, wp_modify, wp_ret; auto.
Qed.
Lemma step_leftover g op s : ra_leftover (rs_ra s) = true -> wp (t_step g op) s (fun _ s' => ra_leftover (rs_ra s') = true) (fun _ => True).
Proof.
  assert (forall p (Q : option Z -> rastate -> Prop), (forall oi, Q oi s) -> wp (regions_find p) s Q (fun _ => True)) as F.
  { intros p Q HQ. unfold regions_find. apply wp_bind, wp_gets. destruct (probe_key _ _ _ _ _); [apply wp_ret; auto|apply wp_fail; auto]. }
  intros L. destruct op; cbn [t_step].
  - apply wp_bind. unfold regions_insert. apply wp_bind, wp_gets, wp_bind.
    apply wp_mono with (Q := fun _ s' => ra_leftover (rs_ra s') = true) (E := fun _ => True); [|clear s L F|auto].
    + destruct (_ <? _); [now apply grow_leftover|apply wp_ret; auto].
    + intros failed s L. destruct failed; [apply wp_ret, wp_ret; auto|].
      apply wp_bind, wp_gets. destruct (probe_empty _ _ _ _); [|apply wp_fail; auto].
      apply wp_bind, wp_modify, wp_ret, wp_ret. auto.
  - apply wp_bind, F. intros oi. apply wp_bind, wp_gets. destruct oi; [|apply wp_ret; auto].
    apply wp_bind. unfold regions_delete. apply wp_bind, wp_gets.
    destruct (delete_loop _ _ _ _ _); [|apply wp_fail; auto]. apply wp_modify, wp_ret. auto.
  - apply wp_bind, F. intros oi. apply wp_bind, wp_gets, wp_ret. auto.
  - apply wp_bind, F. intros oi. apply wp_bind, wp_gets. destruct oi; [|apply wp_ret; auto].
    apply wp_bind. unfold regions_set_size. apply wp_modify, wp_ret. auto.
Qed.

Lemma map_fixed_fault p size o : wp (memory_map_fixed p size) o (fun _ _ => True) os_abort.
Proof.
  apply wp_mono with (Q := fun _ _ => True) (E := fun f => f = Fatal "non-ENOMEM MAP_FIXED mmap failure"); [|auto|].
  - unfold memory_map_fixed, check_enomem.
    apply wp_bind. apply wp_mono with (Q := fun _ _ => True) (E := fun _ => False); [|intros e t _|intros f []].
    + unfold sys_mmap_fixed. apply wp_bind, sys_answer_wp. destruct (negb _); [apply sys_result_wp; destruct (_ =? _); auto|].
      destruct (_ || _); [apply sys_result_wp; cbn; auto|]. destruct (negb _); [apply sys_result_wp; cbn; auto|].
      apply wp_bind, wp_modify, wp_bind, wp_modify, wp_ret. auto.
    + destruct (negb _); [|apply wp_ret; auto]. destruct (negb _); [apply wp_fail; auto|apply wp_ret; auto].
  - intros f ->. eexists. split; [reflexivity|]. cbn; auto.
Qed.
Lemma protect_fault p size pr o : wp (memory_protect_prot p size pr) o (fun _ _ => True) os_abort.
Proof.
  apply wp_mono with (Q := fun _ _ => True) (E := fun f => f = Fatal "non-ENOMEM mprotect failure"); [|auto|].
  - unfold memory_protect_prot, check_enomem.
    apply wp_bind. apply wp_mono with (Q := fun _ _ => True) (E := fun _ => False); [|intros e t _|intros f []].
    + unfold sys_mprotect. apply wp_bind, sys_answer_wp, wp_bind, wp_get. destruct (negb _); [apply sys_result_wp; destruct (_ =? _); auto|].
      destruct (negb _); [apply sys_result_wp; cbn; auto|]. destruct (negb _); [apply sys_result_wp; cbn; auto|].
      apply wp_bind, wp_modify, wp_ret. auto.
    + destruct (negb _); [|apply wp_ret; auto]. destruct (negb _); [apply wp_fail; auto|apply wp_ret; auto].
  - intros f ->. eexists. split; [reflexivity|]. cbn; auto.
Qed.

(** grow's faults, sharper *)
Lemma grow_fault g s m : usable_config g = true -> ra_ok g (rs_ra s) m -> ra_leftover (rs_ra s) = false ->
  wp (regions_grow g) s (fun _ _ => True) (fun f => f = Hang \/ os_abort f).
Proof.
  intros _ _ _. unfold regions_grow. apply wp_bind, wp_gets.
  destruct (_ <? _); [apply wp_ret; auto|]. destruct (_ <? _); [apply wp_ret; auto|].
  apply wp_bind. unfold ra_sys. apply wp_zoom. eapply wp_mono; [apply protect_fault| |auto].
  intros failed o _. destruct failed; [apply wp_ret; auto|].
  destruct (rehash _ _ _ _); [|apply wp_fail; auto].
  apply wp_bind, wp_modify, wp_bind, wp_zoom. eapply wp_mono; [apply map_fixed_fault| |auto].
  intros failed o' _. destruct failed; apply wp_bind, wp_modify, wp_bind, wp_modify, wp_ret; auto.
Qed.
Lemma insert_fault g s p size gd m : usable_config g = true -> ra_ok g (rs_ra s) m -> ra_leftover (rs_ra s) = false ->
  wp (regions_insert g p size gd) s (fun _ _ => True) (fun f => f = Hang \/ os_abort f).
Proof.
  intros U R L. unfold regions_insert. apply wp_bind, wp_gets, wp_bind.
  apply wp_mono with (Q := fun _ _ => True) (E := fun f => f = Hang \/ os_abort f); [|intros failed s' _|auto].
  - destruct (_ <? _); [eapply grow_fault; eauto|apply wp_ret; auto].
  - destruct failed; [apply wp_ret; auto|]. apply wp_bind, wp_gets. destruct (probe_empty _ _ _ _); [|apply wp_fail; auto].
    apply wp_bind, wp_modify, wp_ret. auto.
Qed.
Lemma insert_fault' g s p size gd m : usable_config g = true -> ra_ok g (rs_ra s) m -> ra_leftover (rs_ra s) = false ->
  p <> 0 -> m p = None ->
  wp (regions_insert g p size gd) s (fun _ _ => True) os_abort.
Proof.
  intros U R L Hp Hm. pose proof (wp_conj _ _ _ _ _ _ (regions_insert_wp g s m p size gd U R L Hp Hm) (insert_fault g s p size gd m U R L)) as H.
  eapply wp_mono; [exact H|auto|]. intros f [(msg & -> & _) [X|X]]; [discriminate|exact X].
Qed.

Lemma fset_rupd m p v : fset m p v = rupd m p v. Proof. reflexivity. Qed.

(** one step; the map may be taken up to pointwise equality *)
Lemma t_step_wp g op s m : usable_config g = true -> ra_ok g (rs_ra s) m -> ra_leftover (rs_ra s) = false -> allowed m op ->
  wp (t_step g op) s (fun a s' => right_answer m op a /\ ra_ok g (rs_ra s') (map_after m op a)) os_abort.
Proof.
  intros U R L A. destruct op; cbn [t_step allowed right_answer map_after] in *.
  - destruct A as [Hp Hm]. apply wp_bind.
    pose proof (wp_conj _ _ _ _ _ _ (regions_insert_wp g s m p size guard U R L Hp Hm) (insert_fault' g s p size guard m U R L Hp Hm)) as H.
    eapply wp_mono; [exact H| |intros f [_ X]; exact X].
    intros failed s' [[_ H1] _]. apply wp_ret. destruct failed.
    + destruct H1 as (H1 & _). auto.
    + destruct H1 as (H1 & _). auto.
  - apply wp_bind. eapply regions_find_wp; [exact R|]. intros oi Hoi. apply wp_bind, wp_gets.
    destruct oi as [i|].
    + destruct Hoi as (Hi & Hp & sz & gd & Em & Ec). apply wp_bind. eapply regions_delete_wp; eauto.
      intros r' R' S' L'. apply wp_ret. rewrite Ec, Em. cbn [rg_size rg_guard answer_of rs_ra]. auto.
    + apply wp_ret. rewrite Hoi. auto.
  - apply wp_bind. eapply regions_find_wp; [exact R|]. intros oi Hoi. apply wp_bind, wp_gets.
    apply wp_ret. destruct oi as [i|].
    + destruct Hoi as (Hi & Hp & sz & gd & Em & Ec). rewrite Ec, Em. auto.
    + rewrite Hoi. auto.
  - apply wp_bind. eapply regions_find_wp; [exact R|]. intros oi Hoi. apply wp_bind, wp_gets.
    destruct oi as [i|].
    + destruct Hoi as (Hi & Hp & sz & gd & Em & Ec). apply wp_bind. eapply regions_set_size_wp; eauto.
      intros r' R' S' L'. apply wp_ret. rewrite Ec, Em. cbn [rg_size rg_guard answer_of rs_ra]. auto.
    + apply wp_ret. rewrite Hoi. auto.
Qed.

Lemma t_exec_leftover g ops : forall s l s', t_exec g ops s = Ok (l, s') -> ra_leftover (rs_ra s') = false -> ra_leftover (rs_ra s) = false.
Proof.
  induction ops as [|op ops IH]; intros s l s' E L; cbn [t_exec] in E.
  - injection E as <- <-. auto.
  - unfold bind in E. destruct (t_step g op s) as [[a s1]|] eqn:E1; [|discriminate].
    destruct (t_exec g ops s1) as [[l1 s2]|] eqn:E2; [|discriminate]. injection E as <- <-.
    specialize (IH _ _ _ E2 L). destruct (ra_leftover (rs_ra s)) eqn:L0; [|auto].
    pose proof (wp_Ok _ _ _ _ _ _ (step_leftover g op s L0) E1) as X. cbn in X. congruence.
Qed.

Lemma t_exec_spec g : usable_config g = true -> forall ops s m l s',
  ra_ok g (rs_ra s) m -> t_exec g ops s = Ok (l, s') -> ra_leftover (rs_ra s') = false -> legal m ops l ->
  right_answers m ops l /\ ra_ok g (rs_ra s') (map_end m ops l).
Proof.
  intros U. induction ops as [|op ops IH]; intros s m l s' R E L A.
  - injection E as <- <-. cbn. auto.
  - pose proof (t_exec_leftover _ _ _ _ _ E L) as L0. cbn [t_exec] in E.
    unfold bind in E. destruct (t_step g op s) as [[a s1]|] eqn:E1; [|discriminate].
    destruct (t_exec g ops s1) as [[l1 s2]|] eqn:E2; [|discriminate].
    injection E as <- <-. destruct A as [A1 A2]. cbn [right_answers map_end].
    destruct (wp_Ok _ _ _ _ _ _ (t_step_wp g op s m U R L0 A1) E1) as [Ra R1].
    destruct (IH _ _ _ _ R1 E2 L A2) as [X Y]. auto.
Qed.

Lemma C23_map g o a b rng ops l s : usable_config g = true ->
  t_exec g ops (mkRas o (ra_init g a b rng)) = Ok (l, s) -> ra_leftover (rs_ra s) = false -> legal fempty ops l ->
  right_answers fempty ops l.
Proof. intros U E L A. apply (t_exec_spec g U ops (mkRas o (ra_init g a b rng)) fempty l s (ra_init_ok g a b rng) E L A). Qed.

Lemma C23_progress g o a b rng ops l s op : usable_config g = true ->
  t_exec g ops (mkRas o (ra_init g a b rng)) = Ok (l, s) -> ra_leftover (rs_ra s) = false -> legal fempty ops l ->
  allowed (map_end fempty ops l) op ->
  match t_step g op s with Ok (x, _) => right_answer (map_end fempty ops l) op x | Fail f => os_abort f end.
Proof.
  intros U E L A Al. destruct (t_exec_spec g U ops (mkRas o (ra_init g a b rng)) fempty l s (ra_init_ok g a b rng) E L A) as [_ R].
  pose proof (t_step_wp g op s _ U R L Al) as W. unfold wp in W. destruct (t_step g op s) as [[x s']|]; tauto.
Qed.

(** the ghost flag stays false if the kernel refuses nothing *)
Definition kernel_grants (o : os) : Prop := forall n, sa_errno (sysq o n) = 0.
Definition tables_placed (g : config) (r : ralloc) : Prop :=
  forall b, ra_addr r b mod 4096 = 0 /\ 0 <= ra_addr r b /\ ra_addr r b + 268435440 + 4095 <= ADDR_MAX.

Lemma sysq_protect p size pr o : wp (memory_protect_prot p size pr) o (fun _ o' => sysq o' = sysq o) (fun _ => True).
Proof.
  eapply wp_mono; [apply memory_protect_wp| |auto]. intros [] o' H; [now subst|]. destruct H as (-> & _). reflexivity.
Qed.
Lemma map_fixed_granted p size o : kernel_grants o -> p mod 4096 = 0 -> 0 < size -> p + size + 4095 <= ADDR_MAX ->
  wp (memory_map_fixed p size) o (fun failed o' => failed = false /\ sysq o' = sysq o) (fun _ => False).
Proof.
  intros K Hp Hs Ha. unfold memory_map_fixed, check_enomem, sys_mmap_fixed. apply wp_bind, wp_bind, sys_answer_wp.
  rewrite (K (sysn o)). cbn [negb Z.eqb]. replace (p mod 4096 =? 0) with true by lia. replace (size =? 0) with false by lia.
  cbn [negb orb]. replace (p + size + 4095 <=? ADDR_MAX) with true by lia. cbn [negb].
  apply wp_bind, wp_modify, wp_bind, wp_modify, wp_ret. cbn [negb Z.eqb]. apply wp_ret. auto.
Qed.
Lemma step_keeps g op s m : usable_config g = true -> ra_ok g (rs_ra s) m -> ra_leftover (rs_ra s) = false ->
  kernel_grants (rs_os s) -> tables_placed g (rs_ra s) ->
  wp (t_step g op) s (fun _ s' => ra_leftover (rs_ra s') = false /\ kernel_grants (rs_os s') /\ tables_placed g (rs_ra s')) (fun _ => True).
Proof.
  intros U R L K P.
  assert (forall p (Q : option Z -> rastate -> Prop), (forall oi, Q oi s) -> wp (regions_find p) s Q (fun _ => True)) as F.
  { intros p Q HQ. unfold regions_find. apply wp_bind, wp_gets. destruct (probe_key _ _ _ _ _); [apply wp_ret; auto|apply wp_fail; auto]. }
  destruct op; cbn [t_step].
  - apply wp_bind. unfold regions_insert. apply wp_bind, wp_gets, wp_bind.
    apply wp_mono with (Q := fun _ s' => ra_leftover (rs_ra s') = false /\ kernel_grants (rs_os s') /\ tables_placed g (rs_ra s')) (E := fun _ => True); [|clear s L F R K P|auto].
    + destruct (_ <? _); [|apply wp_ret; auto].
      destruct (max_table_bounds g U) as (Hmax & _). pose proof (total_bounds _ _ _ R) as TB. change (2 ^ 30) with 1073741824 in TB.
      unfold regions_grow. apply wp_bind, wp_gets.
      destruct (_ <? _); [apply wp_ret; auto|]. destruct (Z.ltb_spec (MAX_REGION_TABLE_SIZE g) (ra_total (rs_ra s) * 2)); [apply wp_ret; auto|].
      apply wp_bind. unfold ra_sys. apply wp_zoom. eapply wp_mono; [apply sysq_protect| |auto].
      intros failed o Eq. assert (kernel_grants o) as K' by (intros n; rewrite Eq; apply K).
      destruct failed; [apply wp_ret; auto|].
      destruct (rehash _ _ _ _); [|apply wp_fail; auto].
      apply wp_bind, wp_modify, wp_bind, wp_zoom.
      assert (w64 (ra_total (rs_ra s) * sizeof_region_metadata) = ra_total (rs_ra s) * 24) as ->.
      { unfold sizeof_region_metadata. apply w64_small. change (2 ^ 64) with 18446744073709551616. lia. }
      eapply wp_mono; [apply map_fixed_granted| |auto].
      * exact K'.
      * apply P.
      * lia.
      * specialize (P (ra_cur (rs_ra s))). lia.
      * intros failed o' (-> & Eq'). apply wp_bind, wp_modify, wp_bind, wp_modify, wp_ret. cbn.
        split; [auto|]. split; [intros n; rewrite Eq'; apply K'|exact P].
    + intros failed s (L & K & P). destruct failed; [apply wp_ret, wp_ret; auto|].
      apply wp_bind, wp_gets. destruct (probe_empty _ _ _ _); [|apply wp_fail; auto].
      apply wp_bind, wp_modify, wp_ret, wp_ret. auto.
  - apply wp_bind, F. intros oi. apply wp_bind, wp_gets. destruct oi; [|apply wp_ret; auto].
    apply wp_bind. unfold regions_delete. apply wp_bind, wp_gets.
    destruct (delete_loop _ _ _ _ _); [|apply wp_fail; auto]. apply wp_modify, wp_ret. auto.
  - apply wp_bind, F. intros oi. apply wp_bind, wp_gets, wp_ret. auto.
  - apply wp_bind, F. intros oi. apply wp_bind, wp_gets. destruct oi; [|apply wp_ret; auto].
    apply wp_bind. unfold regions_set_size. apply wp_modify, wp_ret. auto.
Qed.
Lemma t_exec_keeps g : usable_config g = true -> forall ops s m l s',
  ra_ok g (rs_ra s) m -> ra_leftover (rs_ra s) = false -> kernel_grants (rs_os s) -> tables_placed g (rs_ra s) ->
  t_exec g ops s = Ok (l, s') -> legal m ops l -> ra_leftover (rs_ra s') = false.
Proof.
  intros U. induction ops as [|op ops IH]; intros s m l s' R L K P E A; cbn [t_exec] in E.
  - injection E as <- <-. auto.
  - unfold bind in E. destruct (t_step g op s) as [[a s1]|] eqn:E1; [|discriminate].
    destruct (t_exec g ops s1) as [[l1 s2]|] eqn:E2; [|discriminate]. injection E as <- <-.
    destruct A as [A1 A2].
    destruct (wp_Ok _ _ _ _ _ _ (t_step_wp g op s m U R L A1) E1) as [Ra R1].
    destruct (wp_Ok _ _ _ _ _ _ (step_keeps g op s m U R L K P) E1) as (L1 & K1 & P1).
    eapply IH; eauto.
Qed.
Lemma C23_granted g o a b rng ops l s : usable_config g = true ->
  (forall n, sa_errno (sysq o n) = 0) ->
  a mod 4096 = 0 -> b mod 4096 = 0 -> 0 <= a <= 2 ^ 46 -> 0 <= b <= 2 ^ 46 ->
  t_exec g ops (mkRas o (ra_init g a b rng)) = Ok (l, s) -> legal fempty ops l -> ra_leftover (rs_ra s) = false.
Proof.
  intros U K Ha Hb Ra Rb E A. eapply (t_exec_keeps g U ops (mkRas o (ra_init g a b rng)) fempty); eauto; [apply ra_init_ok|].
  intros []; cbn; change (2 ^ 46) with 70368744177664 in *; change ADDR_MAX with 140737488355328; lia.
Qed.

(** decision procedures for concrete histories *)
Definition allowedb (m : fmap) (op : top) : bool :=
  match op with TInsert p _ _ => negb (p =? 0) && match m p with None => true | Some _ => false end | _ => true end.
Fixpoint legalb (m : fmap) (ops : list top) (l : list tans) : bool :=
  match ops, l with
  | op :: ops, a :: l => allowedb m op && legalb (map_after m op a) ops l
  | _, _ => true
  end.
Lemma legalb_ok ops : forall m l, legalb m ops l = true -> legal m ops l.
Proof.
  induction ops as [|op ops IH]; intros m [|a l] H; cbn [legalb legal] in *; auto.
  apply andb_true_iff in H. destruct H as [H1 H2]. split; [|auto].
  destruct op; cbn in *; auto. destruct (m p); [lia|]. split; [lia|auto].
Qed.
Definition ans_eqb (a b : tans) : bool :=
  match a, b with
  | ADone, ADone | ARefused, ARefused | AMissing, AMissing => true
  | AFound s g, AFound s' g' => (s =? s') && (g =? g')
  | _, _ => false
  end.
Definition rightb (m : fmap) (op : top) (a : tans) : bool :=
  match op with
  | TInsert _ _ _ => ans_eqb a ADone || ans_eqb a ARefused
  | TLookup p | TRemove p | TResize p _ => ans_eqb a (answer_of (m p))
  end.
Fixpoint rightsb (m : fmap) (ops : list top) (l : list tans) : bool :=
  match ops, l with
  | [], [] => true
  | op :: ops, a :: l => rightb m op a && rightsb (map_after m op a) ops l
  | _, _ => false
  end.
Lemma ans_eqb_refl a : ans_eqb a a = true. Proof. destruct a; cbn; lia. Qed.
Lemma rightsb_ok ops : forall m l, right_answers m ops l -> rightsb m ops l = true.
Proof.
  induction ops as [|op ops IH]; intros m [|a l] H; cbn [right_answers rightsb] in *; try contradiction; auto.
  destruct H as [H1 H2]. rewrite (IH _ _ H2), andb_true_r.
  destruct op; cbn in *; try (subst a; apply ans_eqb_refl). destruct H1; subst; reflexivity.
Qed.
Definition exec_answers (g : config) (ops : list top) (s : rastate) : option (list tans) :=
  match t_exec g ops s with Ok (l, _) => Some l | Fail _ => None end.
Lemma exec_answers_ok g ops s l : exec_answers g ops s = Some l -> exists s', t_exec g ops s = Ok (l, s').
Proof. unfold exec_answers. destruct (t_exec g ops s) as [[l' s']|]; [|discriminate]. intros E. injection E as <-. eauto. Qed.
