(** Answers of the kernel other than success and ENOMEM end the process. *)
From Coq Require Import String ZArith List Bool Lia ZifyBool.
From Verif Require Import M_Base M_Config M_SizeClass M_OS M_Random M_Slab M_Region M_Api M_Hist P_Base P_Heap4 P_Api0.
Import ListNotations.
Open Scope Z_scope.
Ltac Zify.zify_post_hook ::= idtac.

Definition fine (o o' : os) : Prop :=
  sysq o' = sysq o /\ entq o' = entq o /\ (sysn o <= sysn o')%nat /\ (entn o <= entn o')%nat /\
  (forall n, (sysn o <= n < sysn o')%nat -> sa_errno (sysq o n) = 0 \/ sa_errno (sysq o n) = ENOMEM) /\
  (forall n, (entn o <= n < entn o')%nat -> en_errno (entq o n) = EINTR \/ en_errno (entq o n) = 0 /\ en_bytes (entq o n) <> []).
Lemma fine_same o o' : sysq o' = sysq o -> entq o' = entq o -> sysn o' = sysn o -> entn o' = entn o -> fine o o'.
Proof. intros A B C D. unfold fine. rewrite A, B, C, D. repeat split; intros; lia. Qed.
Lemma fine_refl o : fine o o. Proof. apply fine_same; reflexivity. Qed.
Lemma fine_trans a b c : fine a b -> fine b c -> fine a c.
Proof.
  intros (A1 & A2 & A3 & A4 & A5 & A6) (B1 & B2 & B3 & B4 & B5 & B6). rewrite A1 in *. rewrite A2 in *. unfold fine. repeat split; try congruence; try lia.
  - intros n Hn. destruct (le_lt_dec (sysn b) n); [apply B5|apply A5]; lia.
  - intros n Hn. destruct (le_lt_dec (entn b) n); [apply B6|apply A6]; lia.
Qed.

Section Traverse.
Context {S : Type} (pr : S -> os).
Definition mf {A} (m : M S A) : Prop := forall s, wp m s (fun _ s' => fine (pr s) (pr s')) anyf.
Lemma mf_ret {A} (a : A) : mf (ret a). Proof. intros s. apply wp_ret, fine_refl. Qed.
Lemma mf_fail {A} f : mf (@fail S A f). Proof. intros s. exact I. Qed.
Lemma mf_fatal {A} f : mf (@fatal S A f). Proof. intros s. exact I. Qed.
Lemma mf_get : mf get. Proof. intros s. apply wp_get, fine_refl. Qed.
Lemma mf_gets {A} (f : S -> A) : mf (gets f). Proof. intros s. apply wp_gets, fine_refl. Qed.
Lemma mf_bind {A B} (m : M S A) (f : A -> M S B) : mf m -> (forall a, mf (f a)) -> mf (bind m f).
Proof. intros H1 H2 s. apply wp_bind. eapply wp_mono; [apply H1| |intros; exact I]. intros a s1 R1. eapply wp_mono; [apply H2| |intros; exact I]. intros b s2 R2. exact (fine_trans _ _ _ R1 R2). Qed.
Lemma mf_modify (f : S -> S) : (forall s, pr (f s) = pr s) -> mf (modify f).
Proof. intros H s. apply wp_modify. rewrite H. apply fine_refl. Qed.
Lemma mf_modify_os (f : S -> S) : (forall s, fine (pr s) (pr (f s))) -> mf (modify f).
Proof. intros H s. apply wp_modify. apply H. Qed.
Lemma mf_aget {A} (l : list A) i : mf (aget l i).
Proof. unfold aget. destruct (lget l i); [apply mf_ret|apply mf_fail]. Qed.
Lemma mf_bitmap i : mf (chk_bitmap i).
Proof. unfold chk_bitmap. destruct (in_bitmap i); [apply mf_ret|apply mf_fail]. Qed.
(** every step of a program *)
Fixpoint pf {A} (p : prog S A) : Prop := match p with Ret _ => True | Act m k => mf m /\ forall b, pf (k b) end.
Lemma pf_ret {A} (a : A) : pf (Ret a). Proof. exact I. Qed.
Lemma pf_act {A} (m : M S A) : mf m -> pf (act m). Proof. intros H. split; [exact H|intros; exact I]. Qed.
Lemma pf_bind {A B} (p : prog S A) (f : A -> prog S B) : pf p -> (forall a, pf (f a)) -> pf (pbind p f).
Proof. intros H1 H2. induction p as [a|C m k IH]; cbn [pbind]; [apply H2|]. destruct H1 as [H1 H3]. split; [exact H1|]. intros b. apply IH, H3. Qed.
Lemma pf_run {A} (p : prog S A) : pf p -> mf (run p).
Proof.
  induction p as [a|C m k IH]; intros H; [apply mf_ret|]. destruct H as [H1 H2]. intros s. cbn [run]. apply wp_bind. eapply wp_mono; [apply H1| |intros; exact I].
  intros b s1 R1. eapply wp_mono; [apply (IH b (H2 b))| |intros; exact I]. intros a s2 R2. exact (fine_trans _ _ _ R1 R2).
Qed.
End Traverse.
Lemma mf_zoom {S T A} (pr : S -> os) (pr' : T -> os) gt st (m : M T A) :
  (forall s, pr' (gt s) = pr s) -> (forall t s, pr (st t s) = pr' t) -> mf pr' m -> mf pr (zoom gt st m).
Proof. intros H1 H2 H s. apply wp_zoom. eapply wp_mono; [apply H| |intros; exact I]. intros a t R. rewrite H1 in R. rewrite H2. exact R. Qed.

(** ** system calls *)
Definition id_os : os -> os := fun o => o.
(** one answer was taken, and a failure became the result *)
Definition asked (o o' : os) (e : Z) : Prop :=
  sysq o' = sysq o /\ entq o' = entq o /\ sysn o' = Datatypes.S (sysn o) /\ entn o' = entn o /\ (sa_errno (sysq o (sysn o)) = 0 \/ e = sa_errno (sysq o (sysn o))).
Definition asks {A} (err : A -> Z) (m : M os A) : Prop := forall o, wp m o (fun r o' => asked o o' (err r)) anyf.
Lemma sys_result_wp e o (Q : Z -> os -> Prop) (E : fault -> Prop) : (forall o', sysq o' = sysq o -> entq o' = entq o -> sysn o' = sysn o -> entn o' = entn o -> Q e o') -> wp (sys_result e) o Q E.
Proof. intros H. unfold sys_result. destruct (Z.eqb_spec e 0) as [->|]; [apply wp_ret; auto|]. apply wp_bind, wp_modify, wp_ret. apply H; reflexivity. Qed.
Ltac asks_tac :=
  repeat lazymatch goal with
  | |- wp (bind _ _) _ _ _ => apply wp_bind
  | |- wp get _ _ _ => apply wp_get
  | |- wp (ret _) _ _ _ => apply wp_ret
  | |- wp (modify _) _ _ _ => apply wp_modify
  | |- wp (put _) _ _ _ => apply wp_put
  | |- wp (sys_result _) _ _ _ => apply sys_result_wp; intros
  | |- wp (if ?b then _ else _) _ _ _ => destruct b eqn:?
  | |- wp (let _ := _ in _) _ _ _ => cbv zeta
  end.
Ltac asks_done := unfold asked; cbn [fst sysq entq sysn entn map_pages zero_pages set_pages set_mem set_errno next_sys] in *; repeat split; try congruence; try (right; congruence); try (left; lia).
Ltac asks_start := intros o; unfold asks; apply wp_bind; unfold sys_answer, wp at 1; cbv zeta.
Lemma asks_answer {A} (err : A -> Z) (k : sysans -> M os A) :
  (forall o, wp (k (sysq o (sysn o))) (next_sys o) (fun r o' => asked o o' (err r)) anyf) -> asks err (bind sys_answer k).
Proof. intros H o. unfold wp, bind, sys_answer. apply H. Qed.
Lemma asks_mmap n : asks fst (sys_mmap n).
Proof. apply asks_answer. intros o. asks_tac; asks_done. Qed.
Lemma asks_fixed a n : asks (fun e => e) (sys_mmap_fixed a n).
Proof. apply asks_answer. intros o. asks_tac; asks_done. Qed.
Lemma asks_munmap a n : asks (fun e => e) (sys_munmap a n).
Proof. apply asks_answer. intros o. asks_tac; asks_done. Qed.
Lemma asks_mprotect a n p : asks (fun e => e) (sys_mprotect a n p).
Proof. apply asks_answer. intros o. asks_tac; asks_done. Qed.
Lemma asks_madvise a n : asks (fun e => e) (sys_madvise a n).
Proof. apply asks_answer. intros o. asks_tac; asks_done. Qed.
Lemma asks_mremap a n b m : asks (fun e => e) (sys_mremap_fixed a n b m).
Proof. apply asks_answer. intros o. asks_tac; asks_done. Qed.
Lemma asked_fine o o' e : asked o o' e -> e = 0 \/ e = ENOMEM -> fine o o'.
Proof.
  intros (A & B & C & D & F) He. unfold fine. rewrite A, B, C, D. repeat split; intros; try lia. assert (n = sysn o) as -> by lia. destruct F as [F|F]; [auto|]. rewrite <- F. destruct He; auto.
Qed.
Lemma mf_enomem msg m : asks (fun e => e) m -> mf id_os (check_enomem msg m).
Proof.
  intros H o. unfold check_enomem. apply wp_bind. eapply wp_mono; [apply H| |intros; exact I]. intros e o' K. unfold id_os.
  destruct (e =? 0) eqn:E0; cbn [negb]; [apply wp_ret; apply (asked_fine _ _ e K); lia|]. destruct (e =? ENOMEM) eqn:E1; cbn [negb]; [apply wp_ret; apply (asked_fine _ _ e K); lia|exact I].
Qed.
Lemma mf_map n : mf id_os (memory_map n).
Proof.
  intros o. unfold memory_map. apply wp_bind. eapply wp_mono; [apply asks_mmap| |intros; exact I]. intros [e p] o' K. cbn [fst] in K. unfold id_os.
  destruct (e =? 0) eqn:E0; cbn [negb]; [apply wp_ret; apply (asked_fine _ _ e K); lia|]. destruct (e =? ENOMEM) eqn:E1; cbn [negb]; [apply wp_ret; apply (asked_fine _ _ e K); lia|exact I].
Qed.
Lemma mf_fixed a n : mf id_os (memory_map_fixed a n). Proof. apply mf_enomem, asks_fixed. Qed.
Lemma mf_unmap a n : mf id_os (memory_unmap a n). Proof. apply mf_enomem, asks_munmap. Qed.
Lemma mf_protect a n p : mf id_os (memory_protect_prot a n p). Proof. apply mf_enomem, asks_mprotect. Qed.
Lemma mf_protect_rw a n : mf id_os (memory_protect_rw a n). Proof. apply mf_protect. Qed.
Lemma mf_protect_md a n : mf id_os (memory_protect_rw_metadata a n). Proof. apply mf_protect. Qed.
Lemma mf_purge a n : mf id_os (memory_purge a n). Proof. apply mf_enomem, asks_madvise. Qed.
Lemma mf_remap a n b m : mf id_os (memory_remap_fixed a n b m). Proof. apply mf_enomem, asks_mremap. Qed.
Lemma mf_set_errno e : mf id_os (modify (set_errno e)). Proof. apply mf_modify_os. intros s. apply fine_same; reflexivity. Qed.
Lemma mf_load_bytes a n : mf id_os (load_bytes a n).
Proof. intros o. unfold load_bytes. apply wp_bind, wp_get. destruct (pages_all _ _ _ _); [apply wp_ret, fine_refl|exact I]. Qed.
Lemma mf_mem_set a v n : mf id_os (mem_set a v n).
Proof. intros o. unfold mem_set. apply wp_bind, wp_get. destruct (_ || _); [apply wp_put; apply fine_same; reflexivity|exact I]. Qed.
Lemma mf_mem_copy a v n : mf id_os (mem_copy a v n).
Proof. intros o. unfold mem_copy. apply wp_bind, wp_get. destruct (_ || _); [apply wp_put; apply fine_same; reflexivity|exact I]. Qed.
Lemma mf_store_u64 a v : mf id_os (store_u64 a v).
Proof. intros o. unfold store_u64. apply wp_bind, wp_get. destruct (pages_all _ _ _ _); [apply wp_put; apply fine_same; reflexivity|exact I]. Qed.

(** ** the tactic that walks through the code *)
Ltac mf0 := fail.
Ltac mf_step :=
  lazymatch goal with
  | |- mf _ (ret _) => apply mf_ret
  | |- mf _ (fail _) => apply mf_fail
  | |- mf _ (fatal _) => apply mf_fatal
  | |- mf _ get => apply mf_get
  | |- mf _ (gets _) => apply mf_gets
  | |- mf _ (aget _ _) => apply mf_aget
  | |- mf _ (chk_bitmap _) => apply mf_bitmap
  | |- mf _ (bind _ _) => apply mf_bind; [|intros ?]
  | |- mf _ (if ?b then _ else _) => destruct b
  | |- mf _ (let '(_, _) := ?x in _) => destruct x
  | |- mf _ (match ?x with _ => _ end) => destruct x
  | |- mf _ (memory_map_fixed _ _) => apply mf_fixed
  | |- mf _ (memory_unmap _ _) => apply mf_unmap
  | |- mf _ (memory_protect_rw _ _) => apply mf_protect_rw
  | |- mf _ (memory_protect_rw_metadata _ _) => apply mf_protect_md
  | |- mf _ (memory_purge _ _) => apply mf_purge
  | |- mf _ (memory_remap_fixed _ _ _ _) => apply mf_remap
  | |- mf _ (memory_map _) => apply mf_map
  | |- mf _ (modify (set_errno _)) => apply mf_set_errno
  | |- mf _ (modify _) => apply mf_modify; intros; reflexivity
  | |- mf _ (load_bytes _ _) => apply mf_load_bytes
  | |- mf _ (mem_set _ _ _) => apply mf_mem_set
  | |- mf _ (mem_copy _ _ _) => apply mf_mem_copy
  | |- mf _ (store_u64 _ _) => apply mf_store_u64
  | |- mf _ _ => mf0
  end.
Ltac mfs := cbv zeta; repeat (mf_step; cbv zeta).
Lemma mf_load_u64 a : mf id_os (load_u64 a). Proof. unfold load_u64. mfs. Qed.
Lemma pf_pages n gd u : pf id_os (allocate_pages n gd u).
Proof.
  unfold allocate_pages. destruct (add_guards n gd); [|apply pf_bind; [apply pf_act, mf_set_errno|intros; apply pf_ret]]. apply pf_bind; [apply pf_act, mf_map|]. intros [p|]; [|apply pf_ret]. cbv zeta.
  apply pf_bind; [destruct u; [apply pf_act, mf_protect|apply pf_ret]|]. intros []; [|apply pf_ret]. apply pf_bind; [apply pf_act, mf_unmap|intros; apply pf_ret].
Qed.
Ltac pf0 := fail.
Ltac pf_step :=
  lazymatch goal with
  | |- pf _ (Ret _) => apply pf_ret
  | |- pf _ (pbind _ _) => apply pf_bind; [|intros ?]
  | |- pf _ (act _) => apply pf_act
  | |- pf _ (if ?b then _ else _) => destruct b
  | |- pf _ (let '(_, _) := ?x in _) => destruct x
  | |- pf _ (match ?x with _ => _ end) => destruct x
  | |- pf _ _ => pf0
  | |- mf _ _ => mf_step
  end.
Ltac pfs := cbv zeta; repeat (pf_step; cbv zeta).
Lemma pf_aligned n al gd : pf id_os (allocate_pages_aligned n al gd).
Proof. unfold allocate_pages_aligned. pfs. Qed.
Lemma pf_dealloc n al gd : pf id_os (deallocate_pages n al gd).
Proof. unfold deallocate_pages. pfs. Qed.

(** ** random numbers *)
Lemma mf_seed f : forall n b, mf id_os (seed_loop f n b).
Proof.
  induction f as [|f IH]; intros n b; cbn [seed_loop]; [mfs|]. destruct (n =? 0); [apply mf_ret|]. intros o. apply wp_bind. unfold sys_getrandom, wp at 1. cbv zeta.
  destruct (en_errno (entq o (entn o)) =? 0) eqn:E0; cbn [negb].
  - rewrite Z.eqb_refl. cbn [negb]. set (l := map w8 _). destruct (zlen l =? 0) eqn:El; [exact I|]. eapply wp_mono; [apply IH| |intros; exact I]. unfold id_os. intros r o' F.
    eapply fine_trans; [|exact F]. unfold fine. cbn [next_ent sysq entq sysn entn]. repeat split; intros; try lia. assert (n0 = entn o) as -> by lia. right. split; [lia|]. intros X. unfold l in El. rewrite X in El. rewrite firstn_nil in El. cbn in El. discriminate.
  - rewrite E0. cbn [negb]. destruct (en_errno (entq o (entn o)) =? EINTR) eqn:E1; [|exact I]. eapply wp_mono; [apply IH| |intros; exact I]. unfold id_os. intros r o' F.
    eapply fine_trans; [|exact F]. unfold fine. cbn [next_ent set_errno sysq entq sysn entn]. repeat split; intros; try lia. assert (n0 = entn o) as -> by lia. left. lia.
Qed.
Lemma mf_r_sys {A} (m : M os A) : mf id_os m -> mf r_os (r_sys m). Proof. apply mf_zoom; reflexivity. Qed.
Lemma mf_rinit : mf r_os random_state_init.
Proof. unfold random_state_init, get_random_seed. mfs. apply mf_r_sys. apply mf_bind; [apply mf_get|]. intros. apply mf_seed. Qed.
Lemma mf_refill : mf r_os refill.
Proof.
  unfold refill. mfs. apply mf_rinit.
Qed.
Lemma mf_cache st n : mf r_os (cache_read st n). Proof. unfold cache_read. mfs. Qed.
Lemma mf_bytes_loop f : forall n b, mf r_os (random_bytes_loop f n b).
Proof. induction f as [|f IH]; intros n b; cbn [random_bytes_loop]; destruct (n =? 0); try apply mf_ret; try apply mf_fail. mfs; first [apply mf_refill|apply mf_cache|apply IH]. Qed.
Lemma mf_bytes n : mf r_os (get_random_bytes n).
Proof. unfold get_random_bytes. mfs. apply mf_bytes_loop. Qed.
Lemma mf_from old : mf r_os (random_state_init_from_random_state old).
Proof. unfold random_state_init_from_random_state. mfs. apply mf_bytes. Qed.
Lemma mf_int n : mf r_os (get_random_int n).
Proof. unfold get_random_int. mfs; first [apply mf_refill|apply mf_cache]. Qed.
Lemma mf_u16loop f : forall b t m, mf r_os (u16_reject_loop f b t m).
Proof. induction f as [|f IH]; intros b t m; cbn [u16_reject_loop]; mfs; first [apply mf_int|apply IH]. Qed.
Lemma mf_u16 b : mf r_os (get_random_u16_uniform b).
Proof. unfold get_random_u16_uniform. mfs; first [apply mf_int|apply mf_u16loop]. Qed.
Lemma mf_u64loop f : forall b t m, mf r_os (u64_reject_loop f b t m).
Proof. induction f as [|f IH]; intros b t m; cbn [u64_reject_loop]; mfs; first [apply mf_int|apply IH]. Qed.
Lemma mf_u64 b : mf r_os (get_random_u64_uniform b).
Proof. unfold get_random_u64_uniform. mfs; first [apply mf_int|apply mf_u64loop]. Qed.

(** ** size classes *)
Lemma mf_c_sys {A} (m : M os A) : mf id_os m -> mf cs_os (c_sys m). Proof. apply mf_zoom; reflexivity. Qed.
Lemma mf_c_rand {A} (m : M rstate A) : mf r_os m -> mf cs_os (c_rand m). Proof. apply mf_zoom; reflexivity. Qed.
Lemma mf_upd_c f : mf cs_os (upd_c f). Proof. apply mf_modify. reflexivity. Qed.
Ltac mf0 ::= first [ apply mf_load_u64 | apply mf_rinit | apply mf_from | apply mf_bytes | apply mf_int | apply mf_u16 | apply mf_u64 | apply mf_upd_c | apply mf_c_sys | apply mf_c_rand ].
Lemma mf_md i : mf cs_os (md i). Proof. unfold md. mfs. Qed.
Lemma mf_upd_md i f : mf cs_os (upd_md i f). Proof. unfold upd_md, set_md, md. mfs. Qed.
Lemma mf_waf g p n : mf id_os (write_after_free_check g p n). Proof. unfold write_after_free_check. mfs. Qed.
Ltac mf0 ::= first [ apply mf_load_u64 | apply mf_rinit | apply mf_from | apply mf_bytes | apply mf_int | apply mf_u16 | apply mf_u64 | apply mf_upd_c | apply mf_md | apply mf_upd_md | apply mf_waf | apply mf_c_sys | apply mf_c_rand ].
Create HintDb mfd discriminated.
#[local] Hint Constants Opaque : mfd.
#[local] Hint Variables Opaque : mfd.
Lemma mf_u64r : mf r_os get_random_u64. Proof. unfold get_random_u64. mfs; first [apply mf_int|apply mf_bytes]. Qed.
Lemma mf_u16r : mf r_os get_random_u16. Proof. unfold get_random_u16. mfs; first [apply mf_int|apply mf_bytes]. Qed.
#[local] Hint Resolve mf_u64r mf_u16r mf_load_u64 mf_rinit mf_from mf_bytes mf_int mf_u16 mf_u64 mf_upd_c mf_md mf_upd_md mf_waf : mfd.
Ltac mf0 ::= lazymatch goal with
  | |- mf _ (c_sys _) => apply mf_c_sys
  | |- mf _ (c_rand _) => apply mf_c_rand
  | |- _ => solve [auto 1 with mfd nocore]
  end.
Lemma mf_is_used_slot (m : slab) (index : Z) : mf cs_os (is_used_slot m index). Proof. unfold is_used_slot. mfs. Qed.
#[local] Hint Resolve mf_is_used_slot : mfd.
Lemma mf_set_used_slot (i index : Z) : mf cs_os (set_used_slot i index). Proof. unfold set_used_slot. mfs. Qed.
#[local] Hint Resolve mf_set_used_slot : mfd.
Lemma mf_clear_used_slot (i index : Z) : mf cs_os (clear_used_slot i index). Proof. unfold clear_used_slot. mfs. Qed.
#[local] Hint Resolve mf_clear_used_slot : mfd.
Lemma mf_is_quarantine_slot (m : slab) (index : Z) : mf cs_os (is_quarantine_slot m index). Proof. unfold is_quarantine_slot. mfs. Qed.
#[local] Hint Resolve mf_is_quarantine_slot : mfd.
Lemma mf_set_quarantine_slot (i index : Z) : mf cs_os (set_quarantine_slot i index). Proof. unfold set_quarantine_slot. mfs. Qed.
#[local] Hint Resolve mf_set_quarantine_slot : mfd.
Lemma mf_clear_quarantine_slot (i index : Z) : mf cs_os (clear_quarantine_slot i index). Proof. unfold clear_quarantine_slot. mfs. Qed.
#[local] Hint Resolve mf_clear_quarantine_slot : mfd.
Lemma mf_get_free_slot (g : config) (slots : Z) (i : Z) : mf cs_os (get_free_slot g slots i). Proof. unfold get_free_slot. mfs. Qed.
#[local] Hint Resolve mf_get_free_slot : mfd.
Lemma mf_alloc_metadata (g : config) (slab_size : Z) (non_zero_size : bool) : mf cs_os (alloc_metadata g slab_size non_zero_size). Proof. unfold alloc_metadata. mfs. Qed.
#[local] Hint Resolve mf_alloc_metadata : mfd.
Lemma mf_get_metadata (p : Z) : mf cs_os (get_metadata p). Proof. unfold get_metadata. mfs. Qed.
#[local] Hint Resolve mf_get_metadata : mfd.
Lemma mf_set_slab_canary_value (g : config) (i : Z) : mf cs_os (set_slab_canary_value g i). Proof. unfold set_slab_canary_value. mfs. Qed.
#[local] Hint Resolve mf_set_slab_canary_value : mfd.
Lemma mf_set_canary (g : config) (i p size : Z) : mf cs_os (set_canary g i p size). Proof. unfold set_canary. mfs. Qed.
#[local] Hint Resolve mf_set_canary : mfd.
Lemma mf_check_canary (g : config) (i p size : Z) : mf cs_os (check_canary g i p size). Proof. unfold check_canary. mfs. Qed.
#[local] Hint Resolve mf_check_canary : mfd.
Lemma mf_stats_small_allocate (g : config) (size : Z) : mf cs_os (stats_small_allocate g size). Proof. unfold stats_small_allocate. mfs. Qed.
#[local] Hint Resolve mf_stats_small_allocate : mfd.
Lemma mf_stats_small_deallocate (g : config) (size : Z) : mf cs_os (stats_small_deallocate g size). Proof. unfold stats_small_deallocate. mfs. Qed.
#[local] Hint Resolve mf_stats_small_deallocate : mfd.
Lemma mf_stats_slab_allocate (g : config) (slab_size : Z) : mf cs_os (stats_slab_allocate g slab_size). Proof. unfold stats_slab_allocate. mfs. Qed.
#[local] Hint Resolve mf_stats_slab_allocate : mfd.
Lemma mf_stats_slab_deallocate (g : config) (slab_size : Z) : mf cs_os (stats_slab_deallocate g slab_size). Proof. unfold stats_slab_deallocate. mfs. Qed.
#[local] Hint Resolve mf_stats_slab_deallocate : mfd.
Lemma mf_take_slot (g : config) (slots i : Z) : mf cs_os (take_slot g slots i). Proof. unfold take_slot. mfs. Qed.
#[local] Hint Resolve mf_take_slot : mfd.
Lemma mf_enqueue (g : config) (metadata : Z) : mf cs_os (enqueue_free_slab g metadata). Proof. unfold enqueue_free_slab. mfs. Qed.
#[local] Hint Resolve mf_enqueue : mfd.
Lemma mf_quarantine_pass (g : config) (size p : Z) : mf cs_os (quarantine_pass g size p). Proof. unfold quarantine_pass. mfs. Qed.
#[local] Hint Resolve mf_quarantine_pass : mfd.
Lemma mf_locate (g : config) (slab_size p : Z) : mf cs_os (locate g slab_size p). Proof. unfold locate. mfs. Qed.
#[local] Hint Resolve mf_locate : mfd.
Lemma mf_release_slot (g : config) (class : Z) (slots slab_size metadata slab slot : Z) : mf cs_os (release_slot g class slots slab_size metadata slab slot). Proof. unfold release_slot. mfs. Qed.
#[local] Hint Resolve mf_release_slot : mfd.
Lemma mf_alloc_small (g : config) (class : Z) (requested : bool) : mf cs_os (allocate_small_class g class requested). Proof. unfold allocate_small_class. mfs. Qed.
#[local] Hint Resolve mf_alloc_small : mfd.
Lemma mf_dealloc_small (g : config) (class p : Z) (expected : option Z) : mf cs_os (deallocate_small_class g class p expected). Proof. unfold deallocate_small_class. mfs. Qed.
#[local] Hint Resolve mf_dealloc_small : mfd.
Lemma mf_check (g : config) (class p : Z) : mf cs_os (memory_corruption_check_class g class p). Proof. unfold memory_corruption_check_class. mfs. Qed.
#[local] Hint Resolve mf_check : mfd.
Lemma mf_object (g : config) (class p : Z) : mf cs_os (object_size_class g class p). Proof. unfold object_size_class. mfs. Qed.
#[local] Hint Resolve mf_object : mfd.
Lemma mf_trim_loop g n : forall b i t, mf cs_os (trim_loop g b n i t).
Proof. induction n as [|n IH]; intros b i t; cbn [trim_loop]; destruct i; try apply mf_ret; try apply mf_fail. unfold stats_slab_deallocate. mfs; first [apply mf_enqueue|apply IH]. Qed.
Lemma mf_purge_list l n : mf cs_os (purge_list l n).
Proof. induction l as [|p l IH]; cbn [purge_list]; mfs. Qed.
Lemma mf_trim g k : mf cs_os (malloc_trim_class g k).
Proof. unfold malloc_trim_class. mfs; first [apply mf_trim_loop|apply mf_purge_list]. Qed.

(** ** large blocks *)
Lemma mf_ra_sys {A} (m : M os A) : mf id_os m -> mf rs_os (ra_sys m). Proof. apply mf_zoom; reflexivity. Qed.
Lemma mf_ra_rand {A} (m : M rstate A) : mf r_os m -> mf rs_os (ra_rand m). Proof. apply mf_zoom; reflexivity. Qed.
Lemma mf_upd_ra f : mf rs_os (upd_ra f). Proof. apply mf_modify. reflexivity. Qed.
Lemma pf_zoom {S T A} (pr : S -> os) (pr' : T -> os) gt st (p : prog T A) :
  (forall s, pr' (gt s) = pr s) -> (forall t s, pr (st t s) = pr' t) -> (forall s, gt (st (gt s) s) = gt s) -> (forall t s, gt (st t s) = t) -> pf pr' p -> pf pr (pzoom gt st p).
Proof. intros H1 H2 H3 H4. induction p as [a|B m k IH]; intros H; [exact I|]. destruct H as [H H']. cbn [pzoom]. split; [eapply mf_zoom; eauto|]. intros b. apply IH, H'. Qed.
Lemma pf_ra_psys {A} (p : prog os A) : pf id_os p -> pf rs_os (ra_psys p). Proof. apply pf_zoom; try reflexivity. Qed.
#[local] Hint Resolve mf_upd_ra mf_trim_loop mf_purge_list mf_trim : mfd.
Ltac mf0 ::= lazymatch goal with
  | |- mf _ (c_sys _) => apply mf_c_sys
  | |- mf _ (c_rand _) => apply mf_c_rand
  | |- mf _ (ra_sys _) => apply mf_ra_sys
  | |- mf _ (ra_rand _) => apply mf_ra_rand
  | |- _ => solve [auto 1 with mfd nocore]
  end.
Ltac pf0 ::= first [ apply pf_pages | apply pf_aligned | apply pf_dealloc | apply pf_ra_psys ].
Lemma mf_regions_grow (g : config) : mf rs_os (regions_grow g). Proof. unfold regions_grow. mfs. Qed.
#[local] Hint Resolve mf_regions_grow : mfd.
Lemma mf_regions_insert (g : config) (p size guard_size : Z) : mf rs_os (regions_insert g p size guard_size). Proof. unfold regions_insert. mfs. Qed.
#[local] Hint Resolve mf_regions_insert : mfd.
Lemma mf_regions_find (p : Z) : mf rs_os (regions_find p). Proof. unfold regions_find. mfs. Qed.
#[local] Hint Resolve mf_regions_find : mfd.
Lemma mf_regions_delete (index : Z) : mf rs_os (regions_delete index). Proof. unfold regions_delete. mfs. Qed.
#[local] Hint Resolve mf_regions_delete : mfd.
Lemma mf_regions_set_size (index size : Z) : mf rs_os (regions_set_size index size). Proof. unfold regions_set_size. mfs. Qed.
#[local] Hint Resolve mf_regions_set_size : mfd.
Lemma mf_region_quarantine_pass (g : config) (target : Z * Z) : mf rs_os (region_quarantine_pass g target). Proof. unfold region_quarantine_pass. mfs. Qed.
#[local] Hint Resolve mf_region_quarantine_pass : mfd.
Lemma mf_get_guard_size (g : config) (size : Z) : mf rs_os (get_guard_size g size). Proof. unfold get_guard_size. mfs. Qed.
#[local] Hint Resolve mf_get_guard_size : mfd.
Lemma mf_stats_large_allocate (g : config) (size : Z) : mf rs_os (stats_large_allocate g size). Proof. unfold stats_large_allocate. mfs. Qed.
#[local] Hint Resolve mf_stats_large_allocate : mfd.
Lemma mf_stats_large_deallocate (g : config) (size : Z) : mf rs_os (stats_large_deallocate g size). Proof. unfold stats_large_deallocate. mfs. Qed.
#[local] Hint Resolve mf_stats_large_deallocate : mfd.
Lemma mf_insert_section (g : config) (stats : bool) (p size guard_size : Z) : mf rs_os (insert_section g stats p size guard_size). Proof. unfold insert_section. mfs. Qed.
#[local] Hint Resolve mf_insert_section : mfd.
Lemma mf_remove_section (g : config) (p : Z) (expected : option Z) : mf rs_os (remove_section g p expected). Proof. unfold remove_section. mfs. Qed.
#[local] Hint Resolve mf_remove_section : mfd.
Ltac regions := unfold allocate_large, allocate_large_aligned, deallocate_large, regions_quarantine_deallocate_pages.
Lemma pf_alloc_large g n : pf rs_os (allocate_large g n). Proof. regions. pfs. Qed.
Lemma pf_alloc_large_al g al n : pf rs_os (allocate_large_aligned g al n). Proof. regions. pfs. Qed.
Lemma pf_quar g p n gd : pf rs_os (regions_quarantine_deallocate_pages g p n gd). Proof. regions. pfs. Qed.
Lemma pf_dealloc_large g p e : pf rs_os (deallocate_large g p e). Proof. regions. pfs. Qed.

(** ** the exported functions *)
Lemma mf_on_os {A} (m : M os A) : mf id_os m -> mf st_os (on_os m). Proof. apply mf_zoom; reflexivity. Qed.
Lemma mf_on_ra {A} (m : M rastate A) : mf rs_os m -> mf st_os (on_ra m). Proof. apply mf_zoom; reflexivity. Qed.
Lemma pf_p_os {A} (p : prog os A) : pf id_os p -> pf st_os (p_os p). Proof. apply pf_zoom; reflexivity. Qed.
Lemma pf_p_ra {A} (p : prog rastate A) : pf rs_os p -> pf st_os (p_ra p).
Proof. apply pf_zoom; try reflexivity. intros [] s. reflexivity. Qed.
Lemma mf_on_class {A} g a k (m : M cstate A) : mf cs_os m -> mf st_os (on_class g a k m).
Proof. intros H. unfold on_class. destruct (_ && _); [|apply mf_fail]. apply (mf_zoom st_os cs_os); try reflexivity. exact H. Qed.
Lemma mf_at {A} g p (m : Z -> Z -> M state A) : (forall a k, mf st_os (m a k)) -> mf st_os (fun s => let '(a, k) := slab_size_class g s p in m a k s).
Proof. intros H s. unfold wp. destruct (slab_size_class g s p) as [a k]. apply H. Qed.
Lemma mf_rst {A} (r : random_state) (m : M rstate A) : mf r_os m -> mf st_os (zoom (fun s => mkRst (st_os s) r) (fun r s => set_st_os (r_os r) s) m).
Proof. apply mf_zoom; reflexivity. Qed.
Lemma mf_init_classes g b st l : forall c, mf r_os (init_classes g b st l c).
Proof. induction l as [|[a k] l IH]; intros c; cbn [init_classes]; [apply mf_ret|]. apply mf_bind; [|intros; apply IH]. unfold init_class. mfs. Qed.
Lemma mf_need {A} m (r : option A) : mf st_os (need m r). Proof. unfold need. mfs. Qed.
Lemma mf_must m r : mf st_os (must m r). Proof. unfold must. mfs. Qed.
#[local] Hint Resolve mf_init_classes mf_need mf_must : mfd.
Ltac mf0 ::= lazymatch goal with
  | |- mf _ (c_sys _) => apply mf_c_sys
  | |- mf _ (c_rand _) => apply mf_c_rand
  | |- mf _ (ra_sys _) => apply mf_ra_sys
  | |- mf _ (ra_rand _) => apply mf_ra_rand
  | |- mf _ (on_os _) => apply mf_on_os
  | |- mf _ (on_ra _) => apply mf_on_ra
  | |- mf _ (on_class _ _ _ _) => apply mf_on_class
  | |- mf _ (zoom _ _ _) => apply mf_rst
  | |- mf _ (fun s => _) => apply mf_at; intros
  | |- mf _ (run _) => apply pf_run; first [apply pf_pages | apply pf_dealloc]
  | |- _ => solve [auto 1 with mfd nocore]
  end.
Lemma mf_init_slow g : mf st_os (init_slow_path g).
Proof. unfold init_slow_path. mfs. Qed.
Lemma mf_pick g tid : mf st_os (pick_arena g tid).
Proof. intros s. unfold pick_arena. apply wp_bind, wp_get. destruct (N_ARENA g =? 1); [apply wp_ret, fine_refl|]. destruct (st_arena s tid <? N_ARENA g); [apply wp_ret, fine_refl|]. apply wp_bind, wp_put, wp_ret. apply fine_refl. Qed.
Lemma pf_init g tid : pf st_os (init g tid).
Proof. unfold init. apply pf_bind; [apply pf_act, mf_pick|]. intros [a r]. apply pf_bind; [|intros; apply pf_ret]. destruct r; [apply pf_ret|apply pf_act, mf_init_slow]. Qed.
Lemma pf_trim g l : forall b, pf st_os (trim_classes g l b).
Proof. induction l as [|[a k] l IH]; intros b; cbn [trim_classes]; [apply pf_ret|]. apply pf_bind; [|intros; apply IH]. destruct (k =? 0); [apply pf_ret|]. apply pf_act, mf_on_class, mf_trim. Qed.
Ltac pf0 ::= first [ apply pf_init | apply pf_trim | apply pf_alloc_large | apply pf_alloc_large_al | apply pf_quar | apply pf_dealloc_large | apply pf_dealloc | apply pf_p_os | apply pf_p_ra ].
Lemma mf_store g x v : mf st_os (store g x v).
Proof. unfold store. mfs. intros o. apply wp_modify. apply fine_same; reflexivity. Qed.
Lemma op_fine g tid c : pf st_os (op_run g tid c).
Proof.
  destruct c; cbn [op_run]; unfold pmap; (apply pf_bind; [|intros; apply pf_ret]);
  unfold h_malloc, h_calloc, h_realloc, h_posix_memalign, h_aligned_alloc, h_valloc, h_pvalloc, alloc_aligned_simple, alloc_aligned, allocate_aligned, alloc,
    realloc_copy, realloc_shrink, realloc_mremap, h_free, h_free_sized, deallocate_small, deallocate_large_top, h_malloc_usable_size, h_malloc_object_size, h_malloc_object_size_fast, h_malloc_trim,
    set_errno_to, enforce_init, allocate, allocate_small, realloc_find, realloc_resize, realloc_delete, usable_find, object_find, regions_find, regions_delete, regions_set_size, stats_large_deallocate;
  pfs; try apply mf_store.
  all: match goal with |- mf _ (fun s => on_class ?g ?a ?k ?m s) => change (mf st_os (on_class g a k m)) end; mfs.
Qed.

(** ** statements *)
From Verif Require Import S_Heap S_Err.
Lemma fine_spec o o' : fine o o' -> sysq o' = sysq o /\ entq o' = entq o /\ (forall n, received o o' n -> ~ unexpected_failure o n) /\ (forall n, received_entropy o o' n -> ~ entropy_failure o n).
Proof.
  intros (A & B & _ & _ & C & D). repeat split; auto.
  - intros n H [X Y]. destruct (C n H); auto.
  - intros n H. specialize (D n H). intros [[X Y]|[X Y]]; destruct D as [D|[D D']]; auto. rewrite D in X. discriminate.
Qed.
Lemma op_ok g tid c s a s' : run (op_run g tid c) s = Ok (a, s') -> fine (st_os s) (st_os s').
Proof. intros E. pose proof (pf_run _ _ (op_fine g tid c) s) as F. unfold wp in F. rewrite E in F. exact F. Qed.
Lemma C26_call_l g tid c s a s' : run (op_run g tid c) s = Ok (a, s') ->
  sysq (st_os s') = sysq (st_os s) /\ entq (st_os s') = entq (st_os s) /\ (forall n, received (st_os s) (st_os s') n -> ~ unexpected_failure (st_os s) n) /\ (forall n, received_entropy (st_os s) (st_os s') n -> ~ entropy_failure (st_os s) n).
Proof. intros E. exact (fine_spec _ _ (op_ok _ _ _ _ _ _ E)). Qed.
Lemma C26_history_l g W o t s : history g W o t s ->
  sysq (st_os s) = sysq o /\ entq (st_os s) = entq o /\ (forall n, received o (st_os s) n -> ~ unexpected_failure o n) /\ (forall n, received_entropy o (st_os s) n -> ~ entropy_failure o n).
Proof.
  intros H. apply fine_spec. induction H as [|t s tid c a s' H IH _ _ _ _ E]; [apply fine_refl|]. exact (fine_trans _ _ _ IH (op_ok _ _ _ _ _ _ E)).
Qed.
Section Direct.
Context (o : os) (F : unexpected_failure o (sysn o)).
Let NZ : (sa_errno (sysq o (sysn o)) =? 0) = false. Proof. destruct F. lia. Qed.
Let NE : (sa_errno (sysq o (sysn o)) =? ENOMEM) = false. Proof. destruct F. lia. Qed.
Ltac direct := unfold memory_map, memory_map_fixed, memory_unmap, memory_protect_ro, memory_protect_rw, memory_protect_prot, memory_remap_fixed, memory_purge, check_enomem, sys_mmap, sys_mmap_fixed, sys_munmap, sys_mprotect, sys_mremap_fixed, sys_madvise, sys_answer, sys_result, bind, get, modify, ret, fatal, fail;
  repeat (rewrite ?NZ, ?NE; cbn [negb]); reflexivity.
Lemma C26_map_l n : memory_map n o = Fail (Fatal "non-ENOMEM mmap failure"). Proof. direct. Qed.
Lemma C26_fixed_l p n : memory_map_fixed p n o = Fail (Fatal "non-ENOMEM MAP_FIXED mmap failure"). Proof. direct. Qed.
Lemma C26_unmap_l p n : memory_unmap p n o = Fail (Fatal "non-ENOMEM munmap failure"). Proof. direct. Qed.
Lemma C26_protect_ro_l p n : memory_protect_ro p n o = Fail (Fatal "non-ENOMEM mprotect failure"). Proof. direct. Qed.
Lemma C26_protect_rw_l p n : memory_protect_rw p n o = Fail (Fatal "non-ENOMEM mprotect failure"). Proof. direct. Qed.
Lemma C26_remap_l p n q m : memory_remap_fixed p n q m o = Fail (Fatal "non-ENOMEM MREMAP_FIXED mremap failure"). Proof. direct. Qed.
Lemma C26_purge_l p n : memory_purge p n o = Fail (Fatal "non-ENOMEM MADV_DONTNEED madvise failure"). Proof. direct. Qed.
End Direct.
Lemma C26_random_l o n : entropy_failure o (entn o) -> 0 < n -> (0 < fuel o)%nat -> get_random_seed n o = Fail (Fatal "getrandom failed").
Proof.
  intros F N P. unfold get_random_seed, bind, get. destruct (fuel o) as [|f]; [lia|]. cbn [seed_loop]. replace (n =? 0) with false by lia. unfold sys_getrandom, bind. destruct F as [[X Y]|[X Y]].
  - replace (en_errno (entq o (entn o)) =? 0) with false by lia. cbn [negb]. replace (en_errno (entq o (entn o)) =? 0) with false by lia. cbn [negb]. replace (en_errno (entq o (entn o)) =? EINTR) with false by lia. reflexivity.
  - rewrite X, Y. cbn [negb Z.eqb]. rewrite firstn_nil. reflexivity.
Qed.

(** ** a program whose tenth memory system call (the mmap of a large block) fails with
    EPERM *)
From Verif Require Import S_Class P_Api2 P_Demo.
Definition oE : os := mkOs (fun _ => None) (fun _ => 7) (fun n => mkSysans (if Nat.eqb n 9 then 1 else 0) (4294967296 + Z.of_nat n * 4294967296)) 0 (entq o0) 0 8 0.
(** and one whose first getrandom fails with EIO *)
Definition oR : os := mkOs (fun _ => None) (fun _ => 7) (sysq o0) 0 (fun n => mkEntans 5 []) 0 8 0.
Definition tE : trace := [mkEv 0 (OMalloc 100) (APtr 25784834800)].
Definition sE : state := final g0 oE true [fun _ => (0, OMalloc 100)].
Definition countE (s : state) : bool := Nat.eqb (sysn (st_os s)) 9.
Lemma checkE : check g0 oE true [fun _ => (0, OMalloc 100)] tE [LEnd 0 (OMalloc 200000) (Fatal "non-ENOMEM mmap failure"); LOther countE] = true.
Proof. vm_cast_no_check (eq_refl true). Qed.
Lemma checkR : check g0 oR true [] [] [LEnd 0 (OMalloc 100) (Fatal "getrandom failed")] = true.
Proof. vm_cast_no_check (eq_refl true). Qed.
Lemma histE : history g0 (own_store g0) oE tE sE.
Proof. exact (proj1 (check_ok _ _ _ _ _ _ checkE)). Qed.
Lemma looksE k : In k [LEnd 0 (OMalloc 200000) (Fatal "non-ENOMEM mmap failure"); LOther countE] -> looks g0 true tE sE k.
Proof. exact (proj2 (check_ok _ _ _ _ _ _ checkE) k). Qed.
Lemma countE_received s : looks g0 true tE s (LOther countE) -> received oE (st_os s) 8.
Proof. cbn [looks]. unfold countE, received. intros E. apply PeanoNat.Nat.eqb_eq in E. rewrite E. cbn. lia. Qed.
