(** Interleaved calls: what no action of any call changes once it is set. *)
From Coq Require Import String ZArith List Bool Lia ZifyBool.
From Verif Require Import M_Base M_Config M_SizeClass M_OS M_Random M_Slab M_Region M_Api M_Hist M_Conc S_Heap M_Flow S_Flow P_Base P_SizeClass P_Heap1 P_Heap4 P_Api0 P_Flow2 P_Flow3.
Import ListNotations.
Open Scope Z_scope.
Ltac Zify.zify_post_hook ::= idtac.

(** every action of a program *)
Fixpoint each {S A} (P : forall B, M S B -> Prop) (p : prog S A) : Prop :=
  match p with Ret _ => True | Act m k => P _ m /\ forall b, each P (k b) end.
Lemma each_act {S A} (P : forall B, M S B -> Prop) (m : M S A) : P A m -> each P (act m). Proof. intros H. split; [exact H|]. intros b. exact I. Qed.
Lemma each_bind {S A B} (P : forall B, M S B -> Prop) (p : prog S A) (f : A -> prog S B) : each P p -> (forall a, each P (f a)) -> each P (pbind p f).
Proof. intros Hp Hf. induction p as [a|C m k IH]; cbn [pbind]; [apply Hf|]. destruct Hp as [H1 H2]. split; [exact H1|]. intros b. apply IH, H2. Qed.
Lemma each_zoom {S T A} (P : forall B, M S B -> Prop) (gt : S -> T) (st : T -> S -> S) (p : prog T A) : (forall B (m : M T B), P B (zoom gt st m)) -> each P (pzoom gt st p).
Proof. intros H. induction p as [a|C m k IH]; cbn [pzoom]; [exact I|]. split; [apply H|]. exact IH. Qed.

Section G.
Context (g : config).
(** thread indices *)
Definition arenas (s : state) : Prop := 0 <= st_ctr s /\ forall t, 0 <= st_arena s t <= N_ARENA g.
Record stays (s s' : state) : Prop := {
  sy_site : sited s s';
  sy_arena : forall t, st_arena s t < N_ARENA g -> st_arena s' t = st_arena s t;
  sy_range : 1 <= N_ARENA g -> arenas s -> arenas s' }.
Definition msy (B : Type) (m : M state B) : Prop := forall s, wp m s (fun _ s' => stays s s') anyf.
Lemma stays_refl s : stays s s. Proof. constructor; auto using sited_refl. Qed.
Lemma stays_trans s1 s2 s3 : stays s1 s2 -> stays s2 s3 -> stays s1 s3.
Proof. intros [A1 B1 C1] [A2 B2 C2]. constructor; [eapply sited_trans; eauto| |auto]. intros t Ht. rewrite B2; rewrite B1; auto. Qed.
Lemma msy_ret {A} (a : A) : msy A (ret a). Proof. intros s. apply wp_ret, stays_refl. Qed.
Lemma msy_bind {A B} (m : M state A) (f : A -> M state B) : msy A m -> (forall a, msy B (f a)) -> msy B (bind m f).
Proof. intros H1 H2 s. apply wp_bind. eapply wp_mono; [apply H1| |intros; exact I]. intros a s1 R1. eapply wp_mono; [apply H2| |intros; exact I]. intros b s2 R2. exact (stays_trans _ _ _ R1 R2). Qed.
Lemma msy_fail {A} f : msy A (@fail state A f). Proof. intros s. exact I. Qed.
Lemma msy_get : msy _ get. Proof. intros s. apply wp_get, stays_refl. Qed.
Lemma msy_gets {A} (f : state -> A) : msy _ (gets f). Proof. intros s. apply wp_gets, stays_refl. Qed.
Lemma msy_os {A} (m : M os A) : msy _ (on_os m). Proof. intros s. apply wp_zoom, wp_any. intros a o. constructor; auto. intros _. auto. Qed.
Lemma msy_ra {A} (m : M rastate A) : msy _ (on_ra m). Proof. intros s. apply wp_zoom, wp_any. intros a o. constructor; auto. intros _. auto. Qed.
Lemma msy_class {A} a k (m : M cstate A) : msy _ (on_class g a k m).
Proof. intros s. unfold on_class. destruct (_ && _); [|exact I]. apply wp_zoom, wp_any. intros x o. constructor; auto. intros _. auto. Qed.
Lemma msy_at {A} p (m : Z -> Z -> M state A) : (forall a k, msy _ (m a k)) -> msy _ (fun s => let '(a, k) := slab_size_class g s p in m a k s).
Proof. intros H s. unfold wp. destruct (slab_size_class g s p) as [a k]. apply H. Qed.
Lemma msy_pick tid : msy _ (pick_arena g tid).
Proof.
  intros s. unfold pick_arena. apply wp_bind, wp_get. destruct (N_ARENA g =? 1); [apply wp_ret, stays_refl|].
  destruct (Z.ltb_spec (st_arena s tid) (N_ARENA g)) as [L|L]; [apply wp_ret, stays_refl|].
  apply wp_bind, wp_put, wp_ret. constructor; [intros _; auto| |].
  - intros t Ht. cbn. unfold fupd. destruct (Z.eqb_spec t tid) as [->|]; [lia|reflexivity].
  - intros Hn [H1 H2]. split; cbn; [unfold w32; apply Z.mod_pos_bound; lia|]. intros t. unfold fupd. destruct (t =? tid); [|apply H2].
    pose proof (Z.mod_pos_bound (st_ctr s) (N_ARENA g) ltac:(lia)). lia.
Qed.
(** a test of initialization keeps the thread indices *)
Definition same_ctr (s s' : state) : Prop := st_ctr s' = st_ctr s /\ st_arena s' = st_arena s.
Definition mct {A} (m : M state A) : Prop := forall s, wp m s (fun _ s' => same_ctr s s') anyf.
Lemma mct_ret {A} (a : A) : mct (ret a). Proof. intros s. apply wp_ret. split; reflexivity. Qed.
Lemma mct_bind {A B} (m : M state A) (f : A -> M state B) : mct m -> (forall a, mct (f a)) -> mct (bind m f).
Proof. intros H1 H2 s. apply wp_bind. eapply wp_mono; [apply H1| |intros; exact I]. intros a s1 [A1 B1]. eapply wp_mono; [apply H2| |intros; exact I]. intros b s2 [A2 B2]. split; congruence. Qed.
Lemma mct_fail {A} f : mct (@fail state A f). Proof. intros s. exact I. Qed.
Lemma mct_os {A} (m : M os A) : mct (on_os m). Proof. intros s. apply wp_zoom, wp_any. split; reflexivity. Qed.
Lemma mct_rng {A} rng (m : M rstate A) : mct (zoom (fun s => mkRst (st_os s) rng) (fun r s => set_st_os (r_os r) s) m). Proof. intros s. apply wp_zoom, wp_any. split; reflexivity. Qed.
Lemma mct_modify (f : state -> state) : (forall s, same_ctr s (f s)) -> mct (modify f). Proof. intros H s. apply wp_modify, H. Qed.
Ltac mct := repeat first
  [ apply mct_ret | apply mct_fail | apply mct_os | apply mct_rng | apply mct_modify; intros; split; reflexivity | apply mct_bind; intros
  | match goal with |- mct (let '(_, _) := ?x in _) => destruct x end ].
Lemma pst_init_slow : mst (init_slow_path g).
Proof. intros s. unfold init_slow_path. apply wp_bind, wp_get. destruct (is_init s) eqn:E; [apply wp_ret, sited_refl|]. apply wp_any. intros x s' H. congruence. Qed.
Lemma mct_init : mct (init_slow_path g).
Proof.
  intros s. unfold init_slow_path. apply wp_bind, wp_get. destruct (is_init s) eqn:E; [apply wp_ret; split; reflexivity|].
  match goal with |- wp ?m s _ _ => assert (mct m) as H; [|exact (H s)] end. unfold need, must, fatal. mct;
  match goal with |- mct (match ?o with Some _ => _ | None => _ end) => destruct o | |- mct (if ?b then _ else _) => destruct b end; mct.
Qed.
Lemma msy_init : msy _ (init_slow_path g).
Proof.
  intros s. pose proof (mct_init s) as C. pose proof (pst_init_slow s) as P. unfold wp in *. destruct (init_slow_path g s) as [[u s']|f]; [|exact I]. destruct C as [A B].
  constructor; [exact P|intros t _; rewrite B; reflexivity|]. intros _ [H1 H2]. split; rewrite ?A, ?B; auto.
Qed.
Lemma esy_init tid : each msy (init g tid).
Proof.
  unfold init. apply each_bind; [apply each_act, msy_pick|]. intros [a r]. apply each_bind; [|intros _; exact I]. destruct r; [exact I|apply each_act, msy_init].
Qed.
Lemma esy_trim l : forall b, each msy (trim_classes g l b).
Proof. induction l as [|[a k] l IH]; intros b; cbn [trim_classes]; [exact I|]. apply each_bind; [|intros; apply IH]. destruct (k =? 0); [exact I|apply each_act, msy_class]. Qed.
Lemma msy_enforce : msy _ enforce_init.
Proof. intros s. unfold enforce_init. apply wp_bind, wp_get. destruct (is_init s); [apply wp_ret, stays_refl|exact I]. Qed.
Lemma msy_store a v : msy _ (store g a v).
Proof.
  intros s. unfold store. apply wp_bind, wp_get. destruct (negb _); [exact I|]. destruct (_ && _); [exact I|]. apply msy_os.
Qed.
Ltac esy := repeat first
  [ exact I | apply msy_store | apply msy_enforce | apply esy_init | apply esy_trim | (apply each_zoom; intros; apply msy_ra) | (apply each_zoom; intros; apply msy_os) | apply msy_class | apply msy_os | apply msy_ra | apply msy_get | apply msy_gets | apply msy_fail | apply msy_ret
  | apply msy_at; intros | apply each_act | apply each_bind; intros | apply msy_bind; intros
  | match goal with
    | |- each _ (if ?b then _ else _) => destruct b
    | |- msy _ (if ?b then _ else _) => destruct b
    | |- each _ (match ?o with Some _ => _ | None => _ end) => destruct o
    | |- each _ (match ?o with inl _ => _ | inr _ => _ end) => destruct o
    | |- each _ (let '(_, _) := ?x in _) => destruct x
    end ].
Lemma esy_op tid c : each msy (op_run g tid c).
Proof.
  destruct c; cbn [op_run]; unfold pmap; (apply each_bind; [|intros; exact I]);
  unfold h_malloc, h_calloc, h_realloc, h_posix_memalign, h_aligned_alloc, h_valloc, h_pvalloc, alloc_aligned_simple, alloc_aligned, allocate_aligned, alloc,
    realloc_copy, realloc_shrink, realloc_mremap, h_free, h_free_sized, deallocate_small, deallocate_large_top, h_malloc_usable_size, h_malloc_object_size, h_malloc_object_size_fast, h_malloc_trim,
    set_errno_to, allocate, allocate_small; esy.
Qed.

(** ** all schedules *)
Definition running (x : conc) : Prop := forall tid c p, co_run x tid = Some (c, p) -> each msy p.
Lemma running_step x e x' : running x -> cstep g x e x' -> running x' /\ stays (co_st x) (co_st x').
Proof.
  intros R S. destruct S as [x tid c N|x tid c B m k b s' E Em|x tid c a E|x tid a v s' N Em].
  - split; [|apply stays_refl]. intros t c0 p. cbn. unfold fupd. destruct (t =? tid); [|apply R]. intros [= <- <-]. apply esy_op.
  - destruct (R _ _ _ E) as [H1 H2]. pose proof (H1 (co_st x)) as W. unfold wp in W. rewrite Em in W. split; [|exact W].
    intros t c0 p. cbn. unfold fupd. destruct (t =? tid); [|apply R]. intros [= <- <-]. apply H2.
  - split; [|apply stays_refl]. intros t c0 p. cbn. unfold fupd. destruct (t =? tid); [discriminate|apply R].
  - pose proof (msy_store a v (co_st x)) as H. unfold wp in H. rewrite Em in H. split; [exact R|exact H].
Qed.
Lemma running_sched x0 t x : running x0 -> schedule g x0 t x -> running x /\ stays (co_st x0) (co_st x).
Proof.
  intros R S. induction S as [|t x e x' S IH St]; [split; [exact R|apply stays_refl]|]. destruct IH as [R1 S1]. destruct (running_step _ _ _ R1 St) as [R2 S2].
  split; [exact R2|eapply stays_trans; eauto].
Qed.
Lemma running_first o : running (first g o). Proof. intros tid c p. discriminate. Qed.
Lemma schedule_from o t1 x1 t2 x2 : schedule g (first g o) t1 x1 -> schedule g x1 t2 x2 -> running x1 /\ stays (co_st x1) (co_st x2).
Proof. intros S1 S2. destruct (running_sched _ _ _ (running_first o) S1) as [R1 _]. split; [exact R1|]. apply (running_sched x1 t2 x2 R1 S2). Qed.
(** the memory obtained by the initialization never moves *)
Lemma sched_fixed o t1 x1 t2 x2 : schedule g (first g o) t1 x1 -> schedule g x1 t2 x2 -> is_init (co_st x1) = true ->
  st_start (co_st x2) = st_start (co_st x1) /\ st_end (co_st x2) = st_end (co_st x1) /\ st_base (co_st x2) = st_base (co_st x1).
Proof. intros S1 S2 I0. destruct (schedule_from _ _ _ _ _ S1 S2) as [_ S]. apply (sy_site _ _ S I0). Qed.
Lemma sched_arena o t1 x1 t2 x2 tid : 1 <= N_ARENA g -> schedule g (first g o) t1 x1 -> schedule g x1 t2 x2 ->
  0 <= st_arena (co_st x1) tid <= N_ARENA g /\ (st_arena (co_st x1) tid < N_ARENA g -> st_arena (co_st x2) tid = st_arena (co_st x1) tid).
Proof.
  intros Hn S1 S2. destruct (schedule_from _ _ _ _ _ S1 S2) as [_ S]. split; [|apply (sy_arena _ _ S)].
  destruct (running_sched _ _ _ (running_first o) S1) as [_ [_ _ A]]. apply A; [exact Hn|]. split; cbn; [lia|]. intros. lia.
Qed.
(** the index a call works with *)
Lemma init_result tid s a s' : 1 <= N_ARENA g -> 0 <= st_arena s tid ->
  run (init g tid) s = Ok (a, s') -> 0 <= a < N_ARENA g /\ (1 < N_ARENA g -> st_arena s' tid = a /\ (st_arena s tid < N_ARENA g -> a = st_arena s tid)).
Proof.
  intros Hn Ha. unfold init. rewrite run_pbind. unfold bind. cbn [run act]. unfold bind, ret.
  destruct (pick_arena g tid s) as [[[a0 r] s1]|f] eqn:E; [|discriminate]. rewrite run_pbind.
  assert (0 <= a0 < N_ARENA g /\ (1 < N_ARENA g -> st_arena s1 tid = a0 /\ (st_arena s tid < N_ARENA g -> a0 = st_arena s tid))) as (H1 & H2).
  { revert E. unfold pick_arena, bind, get, ret, put. destruct (Z.eqb_spec (N_ARENA g) 1) as [E1|E1].
    - intros [= <- <- <-]. repeat split; lia.
    - destruct (Z.ltb_spec (st_arena s tid) (N_ARENA g)).
      + intros [= <- <- <-]. repeat split; auto; lia.
      + intros [= <- <- <-]. pose proof (Z.mod_pos_bound (st_ctr s) (N_ARENA g) ltac:(lia)). repeat split; try lia. cbn. unfold fupd. rewrite Z.eqb_refl. reflexivity. }
  intros R. assert (a = a0 /\ st_arena s' tid = st_arena s1 tid) as (-> & Ea).
  { destruct r; cbn [run act] in R; unfold bind, ret in R; [injection R as <- <-; auto|].
    pose proof (mct_init s1) as W. unfold wp in W. destruct (init_slow_path g s1) as [[u s2]|f] eqn:Ei; [|discriminate]. injection R as <- <-. destruct W as [_ W]. rewrite W. auto. }
  split; [exact H1|]. intros Q. rewrite Ea. auto.
Qed.
(** calls that need an initialized allocator *)
Definition needs_init (c : op) : bool :=
  match c with OFree p | OFreeSized p _ | OUsableSize p => negb (p =? 0) | ORealloc p _ => negb (p =? 0) | _ => false end.
End G.
Lemma pool_ready g f s i l t : 0 <= N_ARENA g -> (forall i, life g (f i)) -> runs_to (start f) s ->
  todo s i = ITouch l :: t -> l <> LInit -> inited s = true.
Proof.
  intros Hn Hf Hs E N. destruct (pinv_runs g Hn f s Hf Hs) as (x & I). apply (pi_lock _ s x I i l); [|exact N]. apply (pi_hold _ s x I). apply (pool_touch g Hn f s i l t Hf Hs). auto.
Qed.
Lemma large_nonzero g n : 0 < n <= 7 * 2 ^ 61 -> get_large_size_class g n <> 0.
Proof.
  intros Hn. destruct (Z_le_gt_dec n 16384) as [L|L].
  - unfold get_large_size_class. destruct (LARGE_SIZE_CLASSES g).
    + assert (forallb (fun x => negb (si_size (get_size_info (4096 + x)) =? 0)) (zrange 0 12289) = true) as F by (vm_compute; reflexivity).
      rewrite forallb_forall in F. specialize (F (Z.max n PAGE_SIZE - 4096)). replace (4096 + (Z.max n PAGE_SIZE - 4096)) with (Z.max n PAGE_SIZE) in F by lia.
      assert (In (Z.max n PAGE_SIZE - 4096) (zrange 0 12289)) as Hi by (unfold PAGE_SIZE; apply in_zrange; lia). specialize (F Hi). lia.
    + destruct (page_align_facts n) as [P1 P2]; [change (2 ^ 40) with 1099511627776; lia|]. lia.
  - destruct (large_class_all g n) as (A & _); [change (2 ^ 61) with 2305843009213693952 in Hn; change (2 ^ 64) with 18446744073709551616; lia|].
    intros E. apply A in E. revert E. destruct (LARGE_SIZE_CLASSES g); change (2 ^ 64) with 18446744073709551616; change (2 ^ 61) with 2305843009213693952 in *; lia.
Qed.
Lemma uninit_aborts g tid c s : is_init s = false -> needs_init c = true -> (forall p n, c = ORealloc p n -> 0 <= n <= 2 ^ 63) ->
  (match c with OFree p | OFreeSized p _ | OUsableSize p | ORealloc p _ => 0 <= p | _ => True end) ->
  run (op_run g tid c) s = Fail (Fatal "invalid uninitialized allocator usage").
Proof.
  intros Hi Hn Hr Hp. assert (forall p, 0 <= p -> in_slab_region p s = false) as NS by (intros p H; unfold in_slab_region, is_init in *; lia).
  destruct c; cbn [needs_init] in Hn; try discriminate; cbn [op_run]; unfold pmap;
  rewrite run_pbind; unfold bind at 1.
  - unfold h_realloc. replace (p =? 0) with false by lia. specialize (Hr p n eq_refl). change (2 ^ 63) with 9223372036854775808 in Hr.
    match goal with |- context [if ?b && ?c then _ else _] => destruct (b && c) eqn:Q end.
    { exfalso. apply andb_true_iff in Q. destruct Q as [Q1 Q2]. rewrite Q1 in Q2.
      assert (0 < adjust_size_for_canary g n <= 7 * 2 ^ 61) as B.
      { change (2 ^ 61) with 2305843009213693952. assert (0 <= max_slab_size_class g) by (unfold max_slab_size_class; destruct (EXTENDED_SIZE_CLASSES g); lia).
        unfold adjust_size_for_canary in *. assert (0 <= canary_size g <= 8) by (unfold canary_size; destruct (SLAB_CANARY g); lia). destruct (_ && _) eqn:QQ; [rewrite w64_small by (change (2 ^ 64) with 18446744073709551616; lia)|]; lia. }
      pose proof (large_nonzero g _ B). lia. }
    cbn [run pbind act]. unfold bind, get, ret. rewrite NS by auto. cbn [run pbind act]. unfold enforce_init, bind, get. rewrite Hi. reflexivity.
  - unfold h_free. replace (p =? 0) with false by lia. cbn [run pbind act]. unfold bind, get, ret. rewrite NS by auto. cbn [run pbind act deallocate_large_top]. unfold gets, enforce_init, bind, get. rewrite Hi. reflexivity.
  - unfold h_free_sized. replace (p =? 0) with false by lia. cbn [run pbind act]. unfold bind, get, ret. rewrite NS by auto. unfold deallocate_large_top. cbn [run pbind act]. unfold enforce_init, bind, get. rewrite Hi. reflexivity.
  - unfold h_malloc_usable_size. replace (p =? 0) with false by lia. cbn [run pbind act]. unfold bind, get, ret. rewrite NS by auto. cbn [run pbind act]. unfold enforce_init, bind, get. rewrite Hi. reflexivity.
Qed.
Lemma before_init g o t x tid c : schedule g (first g o) t x -> is_init (co_st x) = false ->
  match c with
  | OFree p | OFreeSized p _ | OUsableSize p => 0 < p
  | ORealloc p n => 0 < p /\ 0 <= n <= 2 ^ 63
  | _ => False
  end ->
  run (op_run g tid c) (co_st x) = Fail (Fatal "invalid uninitialized allocator usage").
Proof.
  intros _ Hi Hc. apply uninit_aborts; [exact Hi|..].
  - destruct c; cbn; try contradiction; lia.
  - intros p n ->. apply Hc.
  - destruct c; auto; lia.
Qed.

(** ** calls one after the other are a schedule *)
Lemma sched_trans g x0 t1 x1 t2 x2 : schedule g x0 t1 x1 -> schedule g x1 t2 x2 -> schedule g x0 (t2 ++ t1) x2.
Proof. intros S1 S2. induction S2 as [|t x e x' S IH St]; [exact S1|]. rewrite <- app_assoc. eapply schedule_step; eauto. Qed.
Lemma alone g tid c : forall p x a s', co_run x tid = Some (c, p) -> run p (co_st x) = Ok (a, s') ->
  exists x', schedule g x [] x' /\ co_run x' tid = Some (c, Ret a) /\ co_st x' = s' /\ forall i, i <> tid -> co_run x' i = co_run x i.
Proof.
  induction p as [a0|B m k IH]; intros x a s' E R; cbn [run] in R.
  - injection R as <- <-. exists x. split; [apply schedule_start|auto].
  - unfold bind in R. destruct (m (co_st x)) as [[b s1]|f] eqn:Em; [|discriminate].
    set (x1 := mkConc s1 (fupd (co_run x) tid (Some (c, k b)))).
    destruct (IH b x1 a s') as (x' & S & Q1 & Q2 & Q3); [cbn; unfold fupd; rewrite Z.eqb_refl; reflexivity|exact R|].
    exists x'. split; [|split; [exact Q1|split; [exact Q2|]]].
    + change (@nil cev) with (@nil cev ++ ([] ++ [])). eapply sched_trans; [|exact S]. eapply schedule_step; [apply schedule_start|]. eapply step_act; eauto.
    + intros i Hi. rewrite (Q3 i Hi). cbn. unfold fupd. replace (i =? tid) with false by lia. reflexivity.
Qed.
Lemma call_alone g x tid c a s' : co_run x tid = None -> run (op_run g tid c) (co_st x) = Ok (a, s') ->
  exists x', schedule g x [Ended tid c a; Began tid c] x' /\ co_st x' = s' /\ forall i, co_run x' i = co_run x i.
Proof.
  intros N R. destruct (alone g tid c (op_run g tid c) (begin g tid c x) a s') as (x1 & S & Q1 & Q2 & Q3); [cbn; unfold fupd; rewrite Z.eqb_refl; reflexivity|exact R|].
  exists (mkConc (co_st x1) (fupd (co_run x1) tid None)). split; [|split; [exact Q2|]].
  - change [Ended tid c a; Began tid c] with ([Ended tid c a] ++ [Began tid c]). eapply schedule_step; [|apply step_return; exact Q1].
    change [Began tid c] with ([] ++ [Began tid c]). eapply sched_trans; [|exact S]. change [Began tid c] with ([Began tid c] ++ []). eapply schedule_step; [apply schedule_start|apply step_call; exact N].
  - intros i. cbn. unfold fupd. destruct (Z.eqb_spec i tid) as [->|NE]; [auto|]. rewrite (Q3 i NE). cbn. unfold fupd. replace (i =? tid) with false by lia. reflexivity.
Qed.
Lemma history_sched g W o t s : history g W o t s -> exists te x, schedule g (first g o) te x /\ co_st x = s /\ forall i, co_run x i = None.
Proof.
  induction 1 as [|t s tid c a s' H (te & x & S & Q1 & Q2) _ _ _ _ R]; [exists [], (first g o); split; [apply schedule_start|auto]|]. rewrite <- Q1 in R.
  destruct (call_alone g x tid c a s' (Q2 tid) R) as (x' & S' & Q3 & Q4). exists ([Ended tid c a; Began tid c] ++ te), x'. split; [eapply sched_trans; eauto|]. split; [exact Q3|]. intros i. rewrite Q4. auto.
Qed.
