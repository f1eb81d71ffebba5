(** Single calls: calloc, aligned allocation, free, realloc, sizes, failures. *)
From Coq Require Import String ZArith List Bool Lia ZifyBool Permutation.
From Verif Require Import M_Base M_Config M_SizeClass M_Libdivide M_OS M_Random M_Slab M_Region M_Api M_Hist S_SizeClass S_Heap
  P_Base P_Count P_SizeClass P_SizeClass2 P_Libdivide P_Random P_OS P_Slab1 P_Slab2 P_Region P_Heap1 P_Heap2 P_Heap3 P_Heap4 P_Heap5 P_Heap6 P_Heap7 P_Heap8 P_Heap9 P_Heap10 P_Heap11 P_Init P_Api0 P_Api1 P_Api2 P_Api3.
Import ListNotations.
Open Scope Z_scope.
Ltac Zify.zify_post_hook ::= idtac.

Lemma sys_abort f : sys_fault f -> kernel_abort f.
Proof. intros (m & -> & H). right. apply in_map. cbn in *. tauto. Qed.
Lemma rng_abort f : rng_fault f -> kernel_abort f.
Proof. intros [->| ->]; [left; reflexivity|right]. apply in_map. cbn. tauto. Qed.
Lemma start_abort f : init_fault f -> kernel_abort f \/ startup_abort f.
Proof. intros [H|[H|H]]; [left; apply sys_abort; auto|left; apply rng_abort; auto|right]. exact H. Qed.
Lemma pow2_iff a : 0 <= a < 2 ^ 64 -> pow2 a <-> power_of_two a.
Proof.
  intros Ha. split; intros (k & Hk & ->); exists k; [split; [lia|reflexivity]|]. split; [|reflexivity]. split; [auto|]. apply (Z.pow_lt_mono_r_iff 2); lia.
Qed.
Lemma adjust_padded g n : 0 <= n < 2 ^ 64 -> adjust_size_for_canary g n = padded g n.
Proof. intros H. apply adjust_spec. auto. Qed.

(** ** new blocks *)
Lemma fresh_wp g t s LL tid c : linv g t s LL -> table_cleared s -> words c -> fresh c ->
  wp (run (op_run g tid c)) s (fun a s' =>
    match a with
    | APtr p => ~ bad_alignment c /\ exists LL' m, ares g s LL s' LL' p m /\ request c <= m
    | _ => anone g s LL s' /\ (fails c a s' EINVAL /\ bad_alignment c \/ fails c a s' ENOMEM /\ ~ bad_alignment c \/ a = ANull /\ plain c /\ table_limit g s /\ max_slab_size_class g < request c + canary_size g)
    end) (api_fault g s).
Proof.
  intros LI TC WD [AL RO]. pose proof (li_ready _ _ _ _ LI) as R. change (table_limit g s) with (tfull g s).
  destruct c; try discriminate AL; cbn [op_run words bad_alignment request fails plain] in *; apply wp_pmap.
  - eapply wp_mono; [apply (malloc_wp g tid s LL n R TC WD)| |auto]. intros [p|] s'; cbn [ans_ptr]; [|intros (A & [H|H])].
    + intros (LL' & m & A & H1 & _). split; [tauto|]. eauto.
    + split; auto.
    + split; [auto|]. right. right. cbn. auto.
  - destruct WD as [WD1 WD2]. eapply wp_mono; [apply (calloc_wp g tid s LL nmemb n R TC WD1 WD2)| |auto]. intros [p|] s'; cbn [ans_ptr]; [|intros (A & [H|(H0 & H)])].
    + intros (_ & LL' & m & A & H1 & _). split; [tauto|]. eauto.
    + split; auto.
    + split; [auto|]. right. right. cbn. auto.
  - rewrite (RO p n eq_refl). destruct WD as [WD1 WD2]. change (h_realloc g tid 0 n) with (h_malloc g tid n).
    eapply wp_mono; [apply (malloc_wp g tid s LL n R TC WD2)| |auto]. intros [q|] s'; cbn [ans_ptr]; [|intros (A & [H|H])].
    + intros (LL' & m & A & H1 & _). split; [tauto|]. eauto.
    + split; auto.
    + split; [auto|]. right. right. cbn. auto.
  - destruct WD as [WD1 WD2]. eapply wp_mono; [apply (aligned_wp g tid s LL al n 8 R TC WD2 WD1 ltac:(lia))| |auto]. unfold word in *. pose proof (pow2_iff al WD1) as P2. intros [e|p] s'; cbn [ans_code].
    + intros (A & [(-> & H)|(-> & H1 & H2)]); (split; [exact A|]); [left|right; left]; (split; [reflexivity|]); tauto.
    + intros (H1 & H2 & LL' & u & A & H3 & _). split; [tauto|]. eauto.
  - destruct WD as [WD1 WD2]. eapply wp_mono; [apply (simple_wp g tid s LL al n R TC WD2 WD1)| |auto]. unfold word in *. pose proof (pow2_iff al WD1) as P2. intros [p|] s'; cbn [ans_ptr].
    + intros (H1 & LL' & u & A & H3 & _). split; [tauto|]. eauto.
    + intros (A & [(E & H)|(E & H)]); (split; [exact A|]); [left|right; left]; (split; [auto|]); tauto.
  - destruct WD as [WD1 WD2]. eapply wp_mono; [apply (simple_wp g tid s LL al n R TC WD2 WD1)| |auto]. unfold word in *. pose proof (pow2_iff al WD1) as P2. intros [p|] s'; cbn [ans_ptr].
    + intros (H1 & LL' & u & A & H3 & _). split; [tauto|]. eauto.
    + intros (A & [(E & H)|(E & H)]); (split; [exact A|]); [left|right; left]; (split; [auto|]); tauto.
  - eapply wp_mono; [apply (valloc_wp g tid s LL n R TC WD)| |auto]. intros [p|] s'; cbn [ans_ptr].
    + intros (H1 & LL' & u & A & H3 & _). split; [tauto|]. eauto.
    + intros (A & E). split; auto.
  - eapply wp_mono; [apply (pvalloc_wp g tid s LL n R TC WD)| |intros f [H _]; auto]. intros [p|] s'; cbn [ans_ptr].
    + intros (N & H1 & LL' & u & A & H3 & _). split; [tauto|]. exists LL', u. split; [auto|]. destruct (page_align_ge n WD N). lia.
    + intros (A & E). split; auto.
Qed.

(** ** C12 *)
Lemma C12_zeroed g o t s tid c p s' n x : usable_config g = true -> ZERO_ON_FREE g = true -> history g (own_store g) o t s -> calls g (own_store g) t s tid c (APtr p) s' -> fresh c ->
  extent g s' p c n -> p <= x < p + n -> content s' x = 0.
Proof.
  intros U ZF H K F X Hx. destruct (history_linv _ _ _ _ _ U H) as (LL & LI). pose proof K as (TC & WD & _).
  destruct (calls_wp _ _ _ _ _ _ _ _ _ _ K (fresh_wp g t s LL tid c LI TC WD F)) as (_ & LL' & m & A & Rq).
  apply (ar_zero _ _ _ _ _ _ _ A ZF (history_steady _ _ _ _ U H)). assert (n <= m); [|lia]. destruct X as [->|X]; [auto|].
  pose proof (ar_inv _ _ _ _ _ _ _ A) as HI'. assert (block g s' LL' p m) as B by (apply A; right; reflexivity). pose proof (block_word _ _ _ _ _ HI' B) as PW.
  rewrite (block_fun g s' LL' [] (hi_inv _ _ _ HI') p n m); [lia|apply usable_block; auto; left; auto|auto].
Qed.

(** ** C04 *)
Lemma C04_overflow_l g W t s tid m n a s' : calls g W t s tid (OCalloc m n) a s' -> 2 ^ 64 <= m * n -> a = ANull /\ errno (st_os s') = ENOMEM /\ st_os s' = set_errno ENOMEM (st_os s).
Proof.
  intros (_ & _ & _ & _ & E) O. cbn [op_run] in E. apply run_pmap in E. destruct E as (r & E & ->). unfold h_calloc in E. destruct (2 ^ 64 <=? m * n) eqn:Eq; [|lia].
  cbn in E. injection E as <- <-. auto.
Qed.
Lemma C04_zero_l g W o t s tid m n p s' : usable_config g = true -> history g W o t s -> calls g W t s tid (OCalloc m n) (APtr p) s' -> (ZERO_ON_FREE g = true -> W = own_store g) ->
  m * n < 2 ^ 64 /\ (forall x, p <= x < p + m * n -> accessible s' x /\ content s' x = 0).
Proof.
  intros U H K ZW. pose proof K as (TC & [WD1 WD2] & _). destruct (history_linv _ _ _ _ _ U H) as (LL & LI).
  pose proof K as (_ & _ & _ & _ & E). cbn [op_run] in E. apply run_pmap in E. destruct E as ([q|] & E & [=]). subst q.
  destruct (run_wp _ _ _ _ _ _ (calloc_wp g tid s LL m n (li_ready _ _ _ _ LI) TC WD1 WD2) E) as (O & LL' & u & A & H1 & _ & _ & _ & Z0).
  split; [auto|]. intros x Hx. split.
  - pose proof (ar_inv _ _ _ _ _ _ _ A) as HI'. unfold accessible. apply (block_rw g s' LL' [] (hi_inv _ _ _ HI') p u); [apply A; right; reflexivity|lia].
  - apply Z0; [|auto]. intros ZF. rewrite (ZW ZF) in H. apply (history_steady _ _ _ _ U H).
Qed.

(** ** C06, C25 *)
Lemma C25_failure g W o t s tid c a s' : usable_config g = true -> history g W o t s -> calls g W t s tid c a s' -> allocates c = true -> (forall p, a <> APtr p) ->
  undisturbed g (live t) s s' /\ live (mkEv tid c a :: t) = live t /\
  (fails c a s' EINVAL /\ bad_alignment c \/ fails c a s' ENOMEM /\ ~ bad_alignment c \/ a = ANull /\ plain c /\ table_limit g s /\ max_slab_size_class g < request c + canary_size g).
Proof.
  intros U H K AL NA. pose proof K as (TC & WD & PM & _ & E). destruct (history_linv _ _ _ _ _ U H) as (LL & LI).
  assert (live (mkEv tid c a :: t) = live t) as EL by (destruct c; try discriminate AL; destruct a; try reflexivity; elim (NA _ eq_refl)).
  assert (fresh c \/ exists p n, c = ORealloc p n /\ p <> 0) as [F|(p & n & -> & P0)].
  { destruct c; try discriminate AL; try (left; split; [auto|intros; discriminate]). destruct (Z.eq_dec p 0) as [->|N]; [left; split; [auto|]; intros p0 n0 [= <- _]; auto|right; eauto]. }
  - pose proof (calls_wp _ _ _ _ _ _ _ _ _ _ K (fresh_wp g t s LL tid c LI TC WD F)) as Wp.
    assert (anone g s LL s' /\ (fails c a s' EINVAL /\ bad_alignment c \/ fails c a s' ENOMEM /\ ~ bad_alignment c \/ a = ANull /\ plain c /\ table_limit g s /\ max_slab_size_class g < request c + canary_size g)) as [_ Wp'] by (destruct a; auto; elim (NA _ eq_refl)).
    split; [|split; [exact EL|exact Wp']]. destruct (releases c) as [p|] eqn:Rl.
    + assert (a = ANull) as ->. { destruct c; try discriminate AL; try discriminate Rl. cbn [op_run] in E. apply run_pmap in E. destruct E as ([q|] & _ & ->); [elim (NA q eq_refl)|reflexivity]. }
      eapply frame_all; eauto. destruct c; auto; discriminate AL.
    + eapply frame_all; eauto. destruct c; auto; discriminate AL.
  - cbn [op_run] in E. apply run_pmap in E. destruct E as ([q|] & E & ->); [elim (NA q eq_refl)|]. destruct WD as [WD1 WD2]. destruct PM as [PM|(b & Hb & NO)]; [lia|].
    destruct (li_blk _ _ _ _ LI _ _ Hb) as (n0 & B & _ & _ & G & _ & _ & PP). destruct G as [G|G]; [contradiction|]. pose proof (ready_block _ _ _ _ _ (li_ready _ _ _ _ LI) B) as HI. unfold word in *.
    destruct (run_wp _ _ _ _ _ _ (realloc_wp g tid s LL p n0 n HI TC WD2 ltac:(lia) B G) E) as (A & Er). split; [|split; [exact EL|]].
    + eapply frame_all; eauto.
    + right. cbn [fails bad_alignment request]. destruct Er as [Er|(T & S)]; [left; auto|right]. cbn. auto.
Qed.
Lemma C06_rejects g W o t s tid c a s' : usable_config g = true -> history g W o t s -> calls g W t s tid c a s' -> allocates c = true -> ~ plain c ->
  (bad_alignment c <-> fails c a s' EINVAL).
Proof.
  intros U H K AL NP. assert ((exists p, a = APtr p) \/ forall p, a <> APtr p) as [(p & ->)|NA] by (destruct a; eauto; right; discriminate).
  - split; [|intros FF; exfalso; destruct c; cbn in FF; try discriminate FF; destruct FF; discriminate].
    intros BA. exfalso. destruct (history_linv _ _ _ _ _ U H) as (LL & LI). pose proof K as (TC & WD & _).
    assert (fresh c) as F by (split; [auto|]; intros q n ->; elim BA). destruct (calls_wp _ _ _ _ _ _ _ _ _ _ K (fresh_wp g t s LL tid c LI TC WD F)) as (NB & _). auto.
  - destruct (C25_failure _ _ _ _ _ _ _ _ _ U H K AL NA) as (_ & _ & [D|[D|D]]); [tauto| |tauto].
    split; [tauto|]. intros FF. exfalso. destruct D as [D _]. unfold fails in *. destruct c; try (destruct D, FF; unfold EINVAL, ENOMEM in *; congruence). unfold EINVAL, ENOMEM in *. congruence.
Qed.
