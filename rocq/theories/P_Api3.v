(** Consequences of the heap invariant for programs. *)
From Coq Require Import String ZArith List Bool Lia ZifyBool Permutation.
From Verif Require Import M_Base M_Config M_SizeClass M_Libdivide M_OS M_Random M_Slab M_Region M_Api M_Hist S_Heap
  P_Base P_Count P_SizeClass P_Libdivide P_Random P_OS P_Slab1 P_Slab2 P_Region P_Heap1 P_Heap2 P_Heap3 P_Heap4 P_Heap5 P_Heap6 P_Heap7 P_Heap8 P_Heap9 P_Heap10 P_Heap11 P_Init P_Api0 P_Api1 P_Api2.
Import ListNotations.
Open Scope Z_scope.
Ltac Zify.zify_post_hook ::= idtac.

Lemma calls_history g W o t s tid c a s' : history g W o t s -> calls g W t s tid c a s' -> history g W o (mkEv tid c a :: t) s'.
Proof. intros H (H1 & H2 & H3 & H4 & H5). econstructor; eauto. Qed.
Lemma calls_step g W t s tid c a s' LL : linv g t s LL -> calls g W t s tid c a s' -> exists LL', stepped g t s LL tid c a s' LL'.
Proof. intros LI (H1 & H2 & H3 & H4 & H5). exact (run_wp _ _ _ _ _ _ (op_step g t s LL tid c LI H1 H2 H3) H5). Qed.
Lemma calls_any g W t s tid c a s' : calls g W t s tid c a s' -> calls g any_store t s tid c a s'.
Proof. intros (H1 & H2 & H3 & H4 & H5). repeat split; auto. destruct c; exact I. Qed.
Lemma calls_wp g W t s tid c a s' (Q : ans -> state -> Prop) (E : fault -> Prop) : calls g W t s tid c a s' -> wp (run (op_run g tid c)) s Q E -> Q a s'.
Proof. intros (_ & _ & _ & _ & H) K. exact (run_wp _ _ _ _ _ _ K H). Qed.
Lemma block_word g s LL p n : hinv g s LL -> block g s LL p n -> 0 < p < 2 ^ 64.
Proof.
  intros HI B. destruct (block_bounds g s LL [] (hi_inv _ _ _ HI) p n B) as (P1 & P2 & P3). change (2 ^ 48) with 281474976710656 in *. change (2 ^ 64) with 18446744073709551616. lia.
Qed.
Lemma live_block g t s LL p c : linv g t s LL -> In (p, c) (live t) -> exists n, block g s LL p n /\ request c <= n /\ hinv g s LL /\ 0 < p < 2 ^ 64 /\ 0 <= n.
Proof.
  intros LI H. destruct (li_blk _ _ _ _ LI _ _ H) as (n & B & R & _). pose proof (ready_block _ _ _ _ _ (li_ready _ _ _ _ LI) B) as HI.
  exists n. split; [auto|]. split; [auto|]. split; [auto|]. split; [apply (block_word _ _ _ _ _ HI B)|]. apply (block_bounds g s LL [] (hi_inv _ _ _ HI) p n B).
Qed.
Lemma usable_eq g t s LL p c n m : linv g t s LL -> In (p, c) (live t) -> block g s LL p n -> usable_size g s p m -> m = n.
Proof.
  intros LI H B U. destruct (live_block _ _ _ _ _ _ LI H) as (n' & B' & _ & HI & P & _). apply (block_fun g s LL [] (hi_inv _ _ _ HI) p); [|auto]. apply usable_block; auto. apply LI.
Qed.
Lemma ext_block g t s LL p c n : linv g t s LL -> In (p, c) (live t) -> extent g s p c n -> exists m, block g s LL p m /\ n <= m.
Proof.
  intros LI H X. destruct (live_block _ _ _ _ _ _ LI H) as (m & B & R & HI & P & _). exists m. split; [auto|]. destruct X as [->|X]; [auto|]. rewrite (usable_eq _ _ _ _ _ _ _ _ LI H B X). lia.
Qed.
Lemma size_rw g t s LL p c n : linv g t s LL -> In (p, c) (live t) -> block g s LL p n -> forall x, p <= x < p + n -> accessible s x.
Proof.
  intros LI H B x Hx. destruct (live_block _ _ _ _ _ _ LI H) as (n' & B' & _ & HI & _). unfold accessible. apply (block_rw g s LL [] (hi_inv _ _ _ HI) p n x B Hx).
Qed.

(** ** C01, C05, C07 *)
Lemma C01_live g W o t s p c : usable_config g = true -> history g W o t s -> In (p, c) (live t) ->
  exists n, request c <= n /\ (forall x, p <= x < p + n -> accessible s x) /\ (forall m, usable_size g s p m -> m = n).
Proof.
  intros U H K. destruct (history_linv _ _ _ _ _ U H) as (LL & LI). destruct (live_block _ _ _ _ _ _ LI K) as (n & B & R & HI & P & _). exists n. split; [auto|]. split.
  - eapply size_rw; eauto.
  - intros m. eapply usable_eq; eauto.
Qed.
Lemma usable_returns g o t s p c : usable_config g = true -> history g (own_store g) o t s -> In (p, c) (live t) -> exists n, usable_size g s p n.
Proof.
  intros U H K. destruct (history_linv _ _ _ _ _ U H) as (LL & LI). destruct (live_block _ _ _ _ _ _ LI K) as (n & B & R & HI & P & _).
  pose proof (history_steady _ _ _ _ U H (hinv_init _ _ _ HI)) as CL. pose proof (usable_wp g s LL p (li_ready _ _ _ _ LI) ltac:(lia)) as Wp. unfold wp in Wp.
  unfold usable_size. destruct (run (h_malloc_usable_size g p) s) as [[m s']|f]; [exists m, s'; reflexivity|]. exfalso. destruct Wp as (_ & _ & [X|(_ & _ & _ & X)]); [apply (X _ B)|auto].
Qed.
Lemma C01_reported g o t s p c : usable_config g = true -> history g (own_store g) o t s -> In (p, c) (live t) -> exists n, usable_size g s p n /\ request c <= n.
Proof.
  intros U H K. destruct (usable_returns _ _ _ _ _ _ U H K) as (n & X). exists n. split; [auto|]. destruct (C01_live _ _ _ _ _ _ _ U H K) as (m & R & _ & E). rewrite (E _ X). auto.
Qed.
Lemma C01_alloc g W o t s tid c p s' : usable_config g = true -> history g W o t s -> calls g W t s tid c (APtr p) s' -> allocates c = true ->
  exists n, request c <= n /\ (forall x, p <= x < p + n -> accessible s' x) /\ (forall m, usable_size g s' p m -> m = n).
Proof.
  intros U H K A. apply (C01_live g W o (mkEv tid c (APtr p) :: t) s' p c U); [eapply calls_history; eauto|]. destruct c; try discriminate A; left; reflexivity.
Qed.
Lemma C05_live g W o t s p c : usable_config g = true -> history g W o t s -> In (p, c) (live t) -> 0 < p /\ p mod 16 = 0 /\ p mod alignment c = 0.
Proof.
  intros U H K. destruct (history_linv _ _ _ _ _ U H) as (LL & LI). destruct (li_blk _ _ _ _ LI _ _ K) as (n & _ & _ & _ & _ & A & B & C). auto.
Qed.
Lemma C07_distinct_l g W o t s : usable_config g = true -> history g W o t s -> NoDup (map fst (live t)).
Proof. intros U H. destruct (history_linv _ _ _ _ _ U H) as (LL & LI). apply LI. Qed.
Lemma C07_apart g W o t s p c n q d m x : usable_config g = true -> history g W o t s -> In (p, c) (live t) -> In (q, d) (live t) -> p <> q ->
  extent g s p c n -> extent g s q d m -> ~ (p <= x < p + n /\ q <= x < q + m).
Proof.
  intros U H K1 K2 N X1 X2 [Y1 Y2]. destruct (history_linv _ _ _ _ _ U H) as (LL & LI). destruct (ext_block _ _ _ _ _ _ _ LI K1 X1) as (n' & B1 & L1). destruct (ext_block _ _ _ _ _ _ _ LI K2 X2) as (m' & B2 & L2).
  apply N. pose proof (ready_block _ _ _ _ _ (li_ready _ _ _ _ LI) B1) as HI. apply (block_disjoint g s LL [] (hi_inv _ _ _ HI) p n' q m' x); auto; lia.
Qed.

(** ** framing *)
Lemma frame g W o t s tid c a s' l : usable_config g = true -> history g W o t s -> calls g W t s tid c a s' ->
  (forall p d, In (p, d) l -> In (p, d) (live t) /\ keeps c a p) -> stores c = None -> undisturbed g l s s'.
Proof.
  intros U H K HL ST p d HI. destruct (HL p d HI) as [HP KP]. destruct (history_linv _ _ _ _ _ U H) as (LL & LI). destruct (calls_step _ _ _ _ _ _ _ _ _ LI K) as (LL' & [LI' KB KM _]).
  destruct (live_block _ _ _ _ _ _ LI HP) as (n0 & B & R & Hi & P & _). pose proof (KB p n0 B KP) as B'. pose proof (ready_block _ _ _ _ _ (li_ready _ _ _ _ LI') B') as HI'.
  split.
  - intros n x X Hx. destruct (ext_block _ _ _ _ _ _ _ LI HP X) as (n1 & B1 & L1). assert (n1 = n0) as -> by (apply (block_fun g s LL [] (hi_inv _ _ _ Hi) p); auto). split.
    + apply (block_rw g s' LL' [] (hi_inv _ _ _ HI') p n0 x B'). lia.
    + apply (KM p n0 x B KP); [lia|]. rewrite ST. discriminate.
  - intros n m X Y. rewrite (usable_eq _ _ _ _ _ _ _ _ LI HP B X). apply (block_fun g s' LL' [] (hi_inv _ _ _ HI') p); [|auto]. apply usable_block; auto. apply LI'.
Qed.
Lemma frame_all g W o t s tid c a s' : usable_config g = true -> history g W o t s -> calls g W t s tid c a s' -> (releases c = None \/ a = ANull) -> stores c = None -> undisturbed g (live t) s s'.
Proof. intros U H K R ST. eapply frame; eauto. intros p d HI. split; [auto|]. destruct R as [R|R]; [left; rewrite R; discriminate|right; auto]. Qed.
Lemma frame_released g W o t s tid c a s' p : usable_config g = true -> history g W o t s -> calls g W t s tid c a s' -> releases c = Some p -> undisturbed g (forget p (live t)) s s'.
Proof.
  intros U H K R. eapply frame; eauto.
  - intros q d HI. apply forget_In in HI. split; [apply HI|]. left. rewrite R. intros [= ->]. apply (proj2 HI). reflexivity.
  - destruct c; try discriminate R; reflexivity.
Qed.
(** later: blocks that are kept *)
Lemma cont_history g W o t s t' s' : history g W o t s -> continues g W t s t' s' -> history g W o t' s'.
Proof. intros H K. induction K; [auto|]. eapply calls_history; eauto. Qed.
Lemma cont_len g W t s t' s' : continues g W t s t' s' -> (length t <= length t')%nat.
Proof. intros K. induction K; cbn; lia. Qed.
Lemma since_here t : since t t = []. Proof. unfold since. rewrite Nat.sub_diag. reflexivity. Qed.
Lemma since_call t t' e : (length t <= length t')%nat -> since t (e :: t') = e :: since t t'.
Proof. intros H. unfold since. cbn [length]. replace (S (length t') - length t)%nat with (S (length t' - length t)) by lia. reflexivity. Qed.
Lemma cont_linv g W o t s t' s' : usable_config g = true -> history g W o t s -> continues g W t s t' s' -> forall LL, linv g t s LL ->
  exists LL', linv g t' s' LL' /\ (forall p n, block g s LL p n -> (forall e, In e (since t t') -> keeps (e_op e) (e_ans e) p) -> block g s' LL' p n).
Proof.
  intros U H K LL LI. induction K as [|t1 s1 tid c a s2 K IH C].
  - exists LL. split; auto.
  - destruct IH as (L1 & LI1 & KB). destruct (calls_step _ _ _ _ _ _ _ _ _ LI1 C) as (L2 & [LI2 KB2 _ _]). exists L2. split; [auto|]. intros p n B KP. rewrite since_call in KP by (eapply cont_len; eauto).
    apply KB2; [apply KB; [auto|]|].
    + intros e He. apply KP. right. auto.
    + apply (KP (mkEv tid c a)). left. reflexivity.
Qed.
