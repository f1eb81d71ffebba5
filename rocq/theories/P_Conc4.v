(** Interleaved calls: the allocation and deallocation functions. *)
From Coq Require Import String ZArith List Bool Lia ZifyBool Permutation.
From Verif Require Import M_Base M_Config M_SizeClass M_Libdivide M_OS M_Random M_Slab M_Region M_Api M_Hist S_Heap
  P_Base P_Count P_SizeClass P_Libdivide P_Random P_Bitmap P_Bitmap2 P_OS P_Links P_Slab1 P_Slab2 P_Slab3 P_Slab4 P_Slab9 P_Slab10 P_Slab11 P_Path
  P_Region P_Region2 P_Heap1 P_Heap2 P_Heap3 P_Heap4 P_Heap5 P_Heap6 P_Heap7 P_Init P_Heap8 P_Heap9 P_Heap10 P_Heap11 P_Api1 P_Conc1 P_Conc2 P_Conc3.
Import ListNotations.
Open Scope Z_scope.
Ltac Zify.zify_post_hook ::= idtac.

Section M.
Context (g : config) (md : bool) (sz : mode).
Notation up := (up g md).
Notation J := (J g md).
Notation keep := (keep md).
Notation csafe := (csafe g md sz).
Notation efault := (efault md sz).
Notation mine := (mine md sz).
Notation others := (others md).
Notation covd := (covd md).
Notation owns := (owns md).
Notation gone := (gone md).
Notation loan := (loan md).

(** ** stores into blocks of the thread *)
Lemma up_tok bal s LL T t : md = true -> up bal s LL T -> In t T -> tok_ok g s LL t.
Proof. intros Em [_ _ _ _ _ _ G] H. unfold ghost in G. rewrite Em in G. apply G, H. Qed.
Lemma up_block bal s LL T p n : md = true -> up bal s LL T -> In (p, n) (blks T) -> block g s LL p n.
Proof. intros Em U H. apply in_blks in H. destruct H as (t & Ht & Hb). eapply tok_block; [eapply up_tok; eauto|exact Hb]. Qed.
Lemma up_nodup bal s LL T : md = true -> up bal s LL T -> NoDup (ptrs T).
Proof. intros Em [_ _ _ _ _ _ G]. unfold ghost in G. rewrite Em in G. apply G. Qed.
Lemma up_poke bal s LL T o' : up bal s LL T -> onward (st_os s) o' -> pages o' = pages (st_os s) -> (forall x, mem o' x <> mem (st_os s) x -> pages (st_os s) (page_of x) = Some PRW) ->
  (md = true -> forall x, mem o' x <> mem (st_os s) x -> exists p n, In (p, n) (blks T) /\ p <= x < p + n) -> up bal (set_st_os o' s) LL T.
Proof.
  intros U ON P M H. pose proof U as [I O S C A T0 G]. constructor; auto.
  - apply ginv_poke; auto.
  - unfold ghost in *. destruct (md_dec md) as [E|E]; rewrite E in *.
    + destruct G as (G1 & G2 & G3). split; [|split; [|auto]].
      * eapply clean_poke; [exact I| |exact G1]. intros x Hx. destruct (H eq_refl x Hx) as (p & n & Hb & Hr). exists p, n. split; [|auto]. apply in_blks in Hb. destruct Hb as (t & Ht & Hb). eapply tok_block; [apply G2, Ht|exact Hb].
      * intros t Ht. specialize (G2 t Ht). destruct t; cbn in *; auto.
    + exact G.
Qed.
Lemma keep_poke bal s LL r rest o' : md = true -> up bal s LL (r ++ rest) -> (forall x, mem o' x <> mem (st_os s) x -> exists p n, In (p, n) (blks r) /\ p <= x < p + n) -> keep rest s (set_st_os o' s).
Proof.
  intros Em U H. assert (forall x, mem o' x <> mem (st_os s) x -> user g s LL (page_of x)) as HU.
  { intros x Hx. destruct (H x Hx) as (p & n & Hp & Hr). eapply (block_user g s LL _ (up_inv _ _ _ _ _ _ U)); [|exact Hr]. eapply up_block; [exact Em|exact U|]. rewrite blks_app. apply in_or_app. auto. }
  split; [|intros f x Hf Hq; destruct (Z.eq_dec (mem o' x) (mem (st_os s) x)) as [|N]; [auto|]; exfalso; exact (user_away g s LL _ (fl_in f) _ (up_inv _ _ _ _ _ _ U) ltac:(right; apply in_or_app; right; apply in_map; rewrite flights_app; apply in_or_app; auto) Hq (HU x N))].
  intros _ p n x Hp Hx. cbn [set_st_os st_os]. destruct (Z.eq_dec (mem o' x) (mem (st_os s) x)) as [|N]; [auto|]. exfalso. destruct (H x N) as (q & m & Hq & Hx').
  assert (In (q, m) (blks (r ++ rest)) /\ In (p, n) (blks (r ++ rest))) as [K1 K2] by (rewrite blks_app, !in_app_iff; auto).
  pose proof (block_disjoint g s LL _ (up_inv _ _ _ _ _ _ U) _ _ _ _ x (up_block _ _ _ _ _ _ Em U K1) (up_block _ _ _ _ _ _ Em U K2) Hx' Hx) as ->.
  pose proof (up_nodup _ _ _ _ Em U) as ND. rewrite ptrs_app in ND. apply NoDup_app_inv in ND. destruct ND as (_ & _ & ND). apply (ND p); unfold ptrs; [apply (in_map fst _ (p, m)), Hq|apply (in_map fst _ (p, n)), Hp].
Qed.
Definition rwb (r : list tok) (o : os) : Prop := forall p n x, In (p, n) (blks r) -> p <= x < p + n -> pages o (page_of x) = Some PRW.
Lemma poke_csafe {A} tid (m : M os A) r a e p n (Q : A -> list tok -> Prop) : md = true -> In (TI a e) r -> mine tid r -> In (p, n) (blks r) ->
  (forall o, held r o -> rwb r o -> wp m o (fun b o' => poke (fun x => p <= x < p + n) o o' /\ Q b r) efault) -> csafe tid (act (on_os m)) r Q.
Proof.
  intros Em Hi Mr Hb H. eapply csafe_up; [exact Hi|]. intros s rest bal LL T U O Es Ee. apply wp_zoom. pose proof (up_inv _ _ _ _ _ _ U) as I.
  eapply wp_mono; [apply (H (st_os s))| |auto].
  - intros f q Hf. apply (gi_fl _ _ _ _ I). rewrite flights_app. apply in_or_app. auto.
  - intros q k x Hq Hx. eapply (block_rw g s LL _ I); [|exact Hx]. eapply up_block; [auto|exact U|]. rewrite blks_app. apply in_or_app. left. exact Hq.
  - intros b o' ([P1 P2 P3 P4] & HQ). exists r.
    assert (forall x, mem o' x <> mem (st_os s) x -> exists p n, In (p, n) (blks r) /\ p <= x < p + n) as D.
    { intros x Hx. exists p, n. split; [auto|]. destruct (Z_le_dec p x), (Z_lt_dec x (p + n)); try lia; elim Hx; apply P3; lia. }
    split; [exists LL; apply up_poke; auto; intros _ x Hx; destruct (D x Hx) as (q & k & D1 & D2); exists q, k; split; [rewrite blks_app; apply in_or_app; auto|auto]|].
    split; [eapply keep_poke; eauto|]. auto.
Qed.

(** ** allocation *)
Definition fit (t : tok) : Prop := forall r, t = TL r -> max_slab_size_class g < rg_size r.
Definition new_block (t : tok) (p size : Z) : Prop := owns t p (grant g size) /\ (max_slab_size_class g < size -> grant g size <> 0) /\ fit t.
Lemma allocate_csafe tid arena size a e : may_own md sz -> 0 <= arena < N_ARENA g -> 0 <= size < 2 ^ 64 ->
  csafe tid (allocate g arena size) [TI a e] (fun x r' => match x with None => r' = [TI a e] | Some p => exists t, r' = [t; TI a e] /\ new_block t p size end).
Proof.
  intros MO Ha Hs. unfold allocate. destruct (Z.leb_spec size (max_slab_size_class g)) as [S|L].
  - eapply csafe_mono; [apply (small_csafe g md sz tid arena size a e MO Ha ltac:(lia))|]. intros [p|] r'; [|auto]. intros (t & -> & Ht). exists t. split; [auto|]. unfold new_block, grant. replace (size <=? max_slab_size_class g) with true by lia.
    split; [apply small_owns, Ht|]. split; [lia|]. unfold got_small in Ht. intros r ->. destruct md; discriminate.
  - eapply csafe_mono; [apply (allocate_large_csafe g md sz tid size [TI a e] a e); auto; [left; auto|reflexivity|apply mine_TI]|].
    intros [p|] r'; [|auto]. intros (t & -> & Ht & N0). exists t. split; [auto|]. unfold new_block, grant. replace (size <=? max_slab_size_class g) with false by lia.
    split; [apply got_owns, Ht|]. split; [auto|]. intros r ->. unfold got_large in Ht. destruct (large_any g size Hs) as (_ & L2 & _). specialize (L2 N0). destruct md; [|discriminate]. destruct Ht as (gd & [= ->]). cbn. lia.
Qed.
Definition apost (size : Z) (x : option Z) (r' : list tok) : Prop :=
  exists a e, match x with None => r' = [TI a e] | Some p => exists t, r' = [t; TI a e] /\ new_block t p size end.
Lemma alloc_csafe tid size : may_own md sz -> 0 <= size < 2 ^ 64 -> csafe tid (alloc g tid size) [] (apost size).
Proof.
  intros MO Hs. unfold alloc. eapply csafe_bind; [apply init_csafe|]. intros ar r' (Ha & a & e & ->). eapply csafe_mono; [apply allocate_csafe; auto|]. intros x r' H. exists a, e. exact H.
Qed.
(** what a call that allocates at least [n] bytes returns and leaves *)
Definition given (n : Z) (x : option Z) (r' : list tok) : Prop :=
  match x with None => ends [] r' | Some p => exists t m, ends [t] r' /\ owns t p m /\ n <= m /\ fit t end.
(** a block of at least [n] bytes which realloc can take if [F] *)
Definition given_if (F : Prop) (n : Z) (x : option Z) (r' : list tok) : Prop :=
  match x with None => ends [] r' | Some p => exists t m, ends [t] r' /\ owns t p m /\ n <= m /\ (F -> fit t) end.
Lemma given_given F n x r' : given n x r' -> given_if F n x r'.
Proof. destruct x; [|auto]. intros (t & m & A & B & C & D). exists t, m. auto. Qed.
Lemma ends_nil a e : ends [] [TI a e].
Proof. split; [reflexivity|]; split; [reflexivity|]; split; [intros t [[=]|[]]|apply Permutation_refl]. Qed.
Lemma ends_0 : ends [] []. Proof. split; [reflexivity|]; split; [reflexivity|]; split; [intros t []|apply Permutation_refl]. Qed.
Lemma owns_facts t p n : owns t p n -> is_bt t = true /\ (forall i, t <> TP i) /\ flights [t] = [] /\ opens [t] = [].
Proof. unfold P_Conc2.owns. destruct md; [intros [->|(gd & ->)]|intros ->]; repeat (split; [reflexivity || discriminate|]); reflexivity. Qed.
Lemma ends_own t p n a e : owns t p n -> ends [t] [t; TI a e].
Proof.
  intros H. destruct (owns_facts _ _ _ H) as (A & B & C & D). unfold flights, opens in C, D. cbn in C, D. rewrite app_nil_r in C, D.
  split; [cbn; rewrite C; reflexivity|]. split; [cbn; rewrite D; reflexivity|]. split; [intros i [Ht|[[=]|[]]]; elim (B i); auto|]. cbn. rewrite A. apply Permutation_refl.
Qed.
Lemma ends_perm X r r' : Permutation r r' -> ends X r -> ends X r'.
Proof.
  intros P (A & B & C & D). split; [|split; [|split]].
  - apply Permutation_nil. rewrite <- A. apply flights_perm, P.
  - apply Permutation_nil. rewrite <- B. apply opens_perm, P.
  - intros t H. apply (C t). eapply perm_in_l; eauto.
  - eapply Permutation_trans; [|exact D]. apply Permutation_sym. unfold bts. clear -P. induction P; cbn; auto.
    + destruct (is_bt x); auto.
    + destruct (is_bt x), (is_bt y); auto. apply perm_swap.
    + eapply Permutation_trans; eauto.
Qed.
Lemma apost_given n v x r' : 0 <= n < 2 ^ 64 -> (grant g v <> 0 \/ n <= max_slab_size_class g -> n <= grant g v) -> (max_slab_size_class g < n -> max_slab_size_class g < v) -> apost v x r' -> given n x r'.
Proof.
  intros Hn Ge Lg (a & e & H). destruct x as [p|]; cbn.
  - destruct H as (t & -> & Ow & Nz & F). exists t, (grant g v). split; [eapply ends_own; eauto|]. split; [auto|]. split; [|auto]. apply Ge. destruct (Z_le_dec n (max_slab_size_class g)); [auto|]. left. apply Nz, Lg. lia.
  - subst r'. apply ends_nil.
Qed.
Lemma malloc_csafe tid n : may_own md sz -> 0 <= n < 2 ^ 64 -> csafe tid (h_malloc g tid n) [] (given n).
Proof.
  intros MO Hn. unfold h_malloc. destruct (adjust_spec g n Hn) as (A1 & A2 & A3). eapply csafe_mono; [apply (alloc_csafe tid _ MO A1)|]. intros x r'. apply apost_given; [auto|apply grant_ge, Hn|lia].
Qed.
Lemma calloc_csafe tid m n : may_own md sz -> 0 <= m < 2 ^ 64 -> 0 <= n < 2 ^ 64 -> (md = false -> ZERO_ON_FREE g = true) -> csafe tid (h_calloc g tid m n) [] (given (m * n)).
Proof.
  intros MO Hm Hn Hz. unfold h_calloc. destruct (Z.leb_spec (2 ^ 64) (m * n)) as [O|O].
  { eapply csafe_bind; [apply errno_csafe, mine_nil|]. intros _ r' ->. cbn. apply ends_0. }
  assert (0 <= m * n < 2 ^ 64) as Ht by nia. set (t := m * n) in *. destruct (adjust_spec g t Ht) as (A1 & A2 & A3). pose proof (grant_ge g t Ht) as GE. set (u := adjust_size_for_canary g t) in *. cbv zeta in GE. fold u in GE.
  assert (forall x r', apost u x r' -> given t x r') as AG by (intros x r'; apply apost_given; [auto|auto|lia]).
  eapply csafe_bind; [apply (alloc_csafe tid u MO A1)|]. intros [p|] r' AP; [|exact (AG None r' AP)].
  destruct (negb (ZERO_ON_FREE g) && negb (u =? 0) && (u <=? max_slab_size_class g)) eqn:Q; [|exact (AG (Some p) r' AP)].
  assert (u - canary_size g = t) as Eu. { destruct ((0 <? t) && (t <=? max_slab_size_class g)) eqn:Q2; [lia|]. assert (t = 0 \/ max_slab_size_class g < t) by lia. pose proof (canary_le g). lia. }
  assert (md = true) as Em by (destruct (md_dec md) as [|E]; [auto|rewrite (Hz E) in Q; discriminate]).
  rewrite Eu. specialize (AG _ _ AP). destruct AP as (a & e & tk & -> & Ow & _ & _). assert (In (p, grant g u) (blks [tk; TI a e])) as Hb.
  { revert Ow. unfold P_Conc2.owns. rewrite Em. intros [->|(gd & ->)]; cbn; auto. }
  assert (t <= grant g u) as GT by (apply GE; lia).
  eapply csafe_bind with (Q := fun _ r' => r' = [tk; TI a e]); [|intros _ r' ->; exact AG].
  apply (poke_csafe tid _ _ a e p (grant g u)); auto; [right; left; auto|eapply mine_own; eauto; exact MO|]. intros o Hh Hrw.
  assert (forall x, p <= x < p + t -> pages o (page_of x) = Some PRW) as RW by (intros x Hx; apply (Hrw p (grant g u)); [auto|lia]).
  apply mem_set_wp; [intros Hp; apply rw_all; [auto|]; intros x Hx; rewrite RW by auto; reflexivity|]. split; [|auto].
  eapply poke_mono; [|apply poke_set; exact RW]. cbn. intros x Hx. lia.
Qed.
Lemma ends_mine X r tid : ends X r -> (forall p, ~ In (TG p) X) -> mine tid r.
Proof.
  intros (A & B & C & D) NG. split; [|split; [intros t Ht; elim (C t Ht)|intros p Ht; elim (NG p); eapply Permutation_in; [exact D|apply in_bts; auto]]]. intros x Hr. apply in_opens in Hr. rewrite B in Hr. destruct Hr.
Qed.
Lemma gone_G p q : ~ In (TG q) (gone p). Proof. unfold P_Conc2.gone. destruct md; [intros []|intros [[=]|[]]]. Qed.
Definition reallocable (al n : Z) : Prop := al <= 4096 \/ max_slab_size_class g < n + canary_size g.
Definition given' (F : Prop) (n : Z) (x : Z + Z) (r' : list tok) : Prop := given_if F n (match x with inl _ => None | inr p => Some p end) r'.
Lemma aligned_csafe tid al n mn : may_own md sz -> 0 <= n < 2 ^ 64 -> 0 <= al < 2 ^ 64 -> al <= 4096 \/ m_ob sz -> 1 <= mn -> csafe tid (alloc_aligned g tid al n mn) [] (given' (reallocable al n) n).
Proof.
  intros MO Hn Ha Hob Hmn. unfold alloc_aligned. destruct (adjust_spec g n Hn) as (A1 & A2 & A3). pose proof (grant_ge g n Hn) as GE. set (u := adjust_size_for_canary g n) in *. cbv zeta in GE. fold u in GE.
  eapply csafe_bind; [apply init_csafe|]. intros ar r' (Har & a & e & ->). unfold allocate_aligned.
  destruct (negb (Z.land (w64 (al - 1)) al =? 0) || (al <? mn)) eqn:Ck; [apply ends_nil|].
  assert (pow2 al) as P2 by (apply pow2_check; lia). pose proof P2 as (k & Hk & Ek). pose proof (max_slab_bounds g) as MB. pose proof (canary_le g) as CB.
  unfold PAGE_SIZE. destruct (Z.leb_spec al 4096) as [L4|L4].
  2:{ destruct Hob as [Hob|OB]; [lia|]. assert (12 < k < 64) as Hk12.
      { split; [apply (Z.pow_lt_mono_r_iff 2); [lia|lia|]; rewrite <- Ek; change (2 ^ 12) with 4096; lia|apply (Z.pow_lt_mono_r_iff 2); [lia|lia|]; rewrite <- Ek; lia]. }
      rewrite Ek. eapply csafe_mono; [apply (allocate_large_aligned_csafe g md sz tid k u [TI a e] a e OB MO); auto; [left; auto|reflexivity|apply mine_TI]|].
      intros [er|p] r'; [intros ->; apply ends_nil|]. intros (t & -> & Ht & N0). destruct (large_any g u A1) as (_ & LA & _). specialize (LA N0). cbn. exists t, (get_large_size_class g u). pose proof (got_owns _ _ _ _ Ht) as Ow.
      split; [eapply ends_own; eauto|]. split; [exact Ow|]. split; [lia|]. intros [RF|RF]; [lia|]. intros r ->. unfold got_large in Ht. destruct md; [|discriminate]. destruct Ht as (gd & [= ->]). cbn [rg_size]. destruct ((0 <? n) && (n <=? max_slab_size_class g)) eqn:Q3; lia. }
  assert (k <= 12) as Hk12. { apply (Z.pow_le_mono_r_iff 2); [lia|lia|]. rewrite <- Ek. lia. }
  assert (forall v, 0 <= v < 2 ^ 64 -> (grant g v <> 0 \/ n <= max_slab_size_class g -> n <= grant g v) -> (max_slab_size_class g < n -> max_slab_size_class g < v) ->
     csafe tid (do! p := allocate g ar v in match p with None => Ret (inl ENOMEM) | Some p => Ret (inr p) end) [TI a e] (given' (reallocable al n) n)) as W.
  { intros v Hv Ge Lg. eapply csafe_bind; [apply (allocate_csafe tid ar v a e MO Har Hv)|]. intros x r' Hx. assert (apost v x r') as AP by (exists a, e; exact Hx). pose proof (given_given (reallocable al n) _ _ _ (apost_given n v x r' Hn Ge Lg AP)) as K. destruct x; exact K. }
  destruct ((u <=? max_slab_size_class g) && (min_align <? al)) eqn:Q.
  - destruct (gsia_spec g u k ltac:(lia) ltac:(lia)) as (info & E1 & E2 & E3 & E4 & E5 & E6 & _). rewrite Ek, E1, <- Ek. cbn [pbind].
    pose proof (gsi_fix g _ _ E2) as F. assert (0 <= si_class info < N_SIZE_CLASSES g) as KR. { destruct (gsi_class_range g (si_size info) ltac:(lia)) as (K & _). rewrite F in K. exact K. }
    pose proof (class_size_some g (si_class info) KR) as CS. assert (slot_size g (si_class info) = si_size info) as SS.
    { rewrite <- class_size_slot by lia. rewrite CS in E2. congruence. }
    apply W; [lia| |lia].
    intros _. unfold grant. replace (si_size info <=? max_slab_size_class g) with true by lia. rewrite F. cbn [si_class]. unfold usable_of. replace (si_class info =? 0) with false by lia. rewrite SS.
    destruct ((0 <? n) && (n <=? max_slab_size_class g)) eqn:Q2; [lia|]. assert (n = 0) as -> by lia. pose proof (class_facts_all g _ KR) as CF. destruct CF. rewrite SS in *. lia.
  - cbn [pbind]. apply W; [lia|auto|lia].
Qed.
Lemma simple_csafe tid al n : may_own md sz -> 0 <= n < 2 ^ 64 -> 0 <= al < 2 ^ 64 -> al <= 4096 \/ m_ob sz -> csafe tid (alloc_aligned_simple g tid al n) [] (given_if (reallocable al n) n).
Proof.
  intros MO Hn Ha Hob. unfold alloc_aligned_simple. eapply csafe_bind; [apply (aligned_csafe tid al n 1 MO Hn Ha Hob ltac:(lia))|]. intros [er|p] r' H; [|exact H]. cbn in H.
  eapply csafe_bind; [apply errno_csafe, (ends_mine _ _ _ H); intros p []|intros _ r'' ->; exact H].
Qed.
Lemma given_page n x r' : given_if (reallocable 4096 n) n x r' -> given n x r'.
Proof. destruct x; [|auto]. intros (t & m & A & B & C & D). exists t, m. split; [auto|]. split; [auto|]. split; [auto|]. apply D. left. lia. Qed.
Lemma given_le n n' x r' : n' <= n -> given n x r' -> given n' x r'.
Proof. intros H. destruct x as [p|]; cbn; [|auto]. intros (t & m & A & B & C & D). exists t, m. split; [auto|]. split; [auto|]. split; [lia|auto]. Qed.
Lemma pvalloc_csafe tid n : may_own md sz -> 0 <= n < 2 ^ 64 -> csafe tid (h_pvalloc g tid n) [] (given n).
Proof.
  intros MO Hn. unfold h_pvalloc. destruct (Z.eqb_spec (page_align n) 0) as [E|E].
  - eapply csafe_bind; [apply errno_csafe, mine_nil|]. intros _ r' ->. cbn. apply ends_0.
  - destruct (page_align_ge n Hn E) as (P1 & P2). eapply csafe_mono; [apply (simple_csafe tid _ _ MO); unfold PAGE_SIZE; change (2 ^ 64) with 18446744073709551616 in *; lia|]. intros x r' H. apply (given_le (page_align n)); [lia|]. apply (given_page _ _ _ H).
Qed.

(** ** deallocation *)
Definition known (E : list tok) : Prop := forall t, In t E -> exists a e, t = TI a e.
Lemma known_ends E X : known E -> ends X X -> ends X (X ++ E).
Proof.
  intros K (A & B & C & D). induction E as [|t E IH]; [rewrite app_nil_r; split; [exact A|]; split; [exact B|]; split; auto|].
  destruct (K t ltac:(left; auto)) as (a & e & ->). eapply ends_perm; [apply Permutation_middle|]. apply ends_TI, IH. intros x Hx. apply K. right. auto.
Qed.
Lemma known_quiet E : known E -> quiet E /\ opens E = [].
Proof.
  intros K. unfold quiet. induction E as [|t E IH]; [auto|]. destruct (K t ltac:(left; auto)) as (a & e & ->). apply IH. intros x Hx. apply K. right. auto.
Qed.
Lemma known_mine tid E : known E -> mine tid E.
Proof. intros K. apply mine_plain. intros t Ht. destruct (K t Ht) as (a & e & ->). exact Logic.I. Qed.
Lemma ends_gone p : ends (gone p) (gone p).
Proof. unfold P_Conc2.gone. destruct md; [apply ends_0|]. split; [reflexivity|]; split; [reflexivity|]; split; [intros t [[=]|[]]|apply Permutation_refl]. Qed.
Lemma mine_lent tid p l E : lent_large md p l -> mine tid E -> mine tid (E ++ l).
Proof.
  intros H (M1 & M2 & M3). assert (forall t, In t l -> match t with TO _ | TP _ | TG _ => False | _ => True end) as P.
  { unfold lent_large in H. destruct md; [destruct H as (n & gd & ->)|subst l]; intros t Ht; repeat destruct Ht as [<-|Ht]; try exact Logic.I; destruct Ht. }
  split.
  - apply covd_app; [exact M1|]. intros r Hr. elim (P _ Hr).
  - split; [intros t Ht; apply in_app_iff in Ht; destruct Ht as [Ht|Ht]; [auto|elim (P _ Ht)]|]. intros t Ht. apply in_app_iff in Ht. destruct Ht as [Ht|Ht]; [eauto|elim (P _ Ht)].
Qed.
Lemma dlarge_csafe tid p ex l E : lent_large md p l -> known E -> (md = true -> E <> []) -> (ex = None \/ m_sz sz = true) ->
  csafe tid (deallocate_large_top g p ex) (E ++ l) (fun _ r' => ends (gone p) r').
Proof.
  intros HL KE NE Hx. unfold deallocate_large_top. eapply csafe_bind; [apply enforce_csafe|].
  - eapply mine_lent; [exact HL|apply known_mine, KE].
  - intros Em. destruct E as [|t E]; [elim (NE Em); auto|]. destruct (KE t ltac:(left; auto)) as (a & e & ->). exists a, e. left. auto.
  - intros [] r' (a & e & ->). assert (known (TI a e :: E)) as K' by (intros t [<-|Ht]; [eauto|auto]). destruct (known_quiet _ K') as [Q1 Q2].
    apply (csafe_perm g md sz tid _ (l ++ TI a e :: E)); [apply (Permutation_app_comm l (TI a e :: E))|intros _ x y P; apply ends_perm, P|].
    eapply csafe_mono; [apply (deallocate_large_csafe g md sz tid p ex l (TI a e :: E) a e); auto; [left; auto|apply known_mine, K']|].
    intros _ r' ->. apply known_ends; [exact K'|apply ends_gone].
Qed.
(** the bounds, read by a call that has been lent a block *)
Lemma get_loan tid p t r : 0 <= p -> p <> 0 -> loan t p r -> csafe tid (act get) r (fun s r' =>
  exists E, r' = E ++ r /\ known E /\ (md = true -> E <> []) /\
    (if in_slab_region p s then exists n, E = [TI (st_start s) (st_end s)] /\ r = lent_small md p n /\ (md = true -> is_init s = true /\ exists bal LL rest, up bal s LL (r ++ rest)) else lent_large md p r)).
Proof.
  intros P0 N0 L. pose proof (loan_mine md sz _ _ _ tid L) as Mr. apply get_csafe; [exact Mr| |].
  - intros s Ei (bal & LL & rest & U). exists [TI (st_start s) (st_end s)]. split; [reflexivity|]. split; [intros x [<-|[]]; eauto|]. split; [discriminate|].
    destruct (in_slab_region p s) eqn:Sl.
    + destruct (md_dec md) as [Em|Em].
      * pose proof L as L'. unfold P_Conc2.loan in L'. rewrite Em in L'. destruct L' as (-> & n & [->|(gd & ->)]).
        -- exists n. split; [auto|]. split; [unfold lent_small; rewrite Em; reflexivity|]. intros _. split; [auto|]. eauto.
        -- exfalso. pose proof (up_tok _ _ _ _ (TL (mkRegion p n gd)) Em U ltac:(left; auto)) as Ht. cbn in Ht. pose proof (up_inv _ _ _ _ _ _ U) as I.
           destruct (region_p g s LL _ I _ Ht) as (B1 & _). cbn in B1. rewrite (region_not_slab g s LL _ I _ Ht) in Sl; [discriminate|cbn; lia].
      * pose proof L as L'. unfold P_Conc2.loan in L'. rewrite Em in L'. subst r. exists 0. split; [auto|]. split; [unfold lent_small; rewrite Em; reflexivity|]. congruence.
    + unfold lent_large. destruct (md_dec md) as [Em|Em].
      * rewrite Em. destruct (loan_block g md bal s LL t p r rest [] Em L U) as [_ H]. destruct (H Sl) as (n & gd & _ & ->). unfold P_Conc2.loan in L. rewrite Em in L. destruct L as (-> & _). eauto.
      * rewrite Em. unfold P_Conc2.loan in L. rewrite Em in L. exact L.
  - intros Hr s E0. assert (md = false) as Em.
    { destruct (md_dec md) as [Em|Em]; [exfalso|auto]. unfold P_Conc2.loan in L. rewrite Em in L. destruct L as (-> & n & L). destruct (lent_facts _ _ _ L) as (_ & _ & C & _). destruct (Hr t ltac:(left; auto)) as (i & K). exact (C i K). }
    assert (in_slab_region p s = false) as Sl by (unfold in_slab_region; rewrite E0; lia).
    exists []. split; [auto|]. split; [intros x []|]. split; [congruence|]. rewrite Sl. unfold lent_large. rewrite Em. unfold P_Conc2.loan in L. rewrite Em in L. exact L.
Qed.
Lemma dsmall_top tid p n ex E : 0 <= p < 2 ^ 64 -> known E -> (exists a e, In (TI a e) E /\ (p <? e) && (a <=? p) = true) -> (ex = None \/ m_sz sz = true) ->
  csafe tid (deallocate_small g p ex) (E ++ lent_small md p n) (fun _ r' => ends (gone p) r').
Proof.
  intros Hp KE (a & e & Hi & Hb) Hx. destruct (in_split _ _ Hi) as (E1 & E2 & ->).
  assert (known (E1 ++ E2)) as K' by (intros t Ht; apply KE; apply in_app_iff in Ht; apply in_or_app; cbn; tauto).
  apply (csafe_perm g md sz tid _ ((lent_small md p n ++ [TI a e]) ++ (E1 ++ E2))).
  - eapply Permutation_trans; [|apply Permutation_app_comm]. rewrite <- app_assoc. apply Permutation_app_head. cbn [app]. apply Permutation_middle.
  - intros _ x y P. apply ends_perm, P.
  - pose proof (known_mine tid _ K') as (M1 & M2 & M3).
    assert (forall t, ~ In (TP t) (E1 ++ E2)) as NP by (intros t Ht; destruct (K' _ Ht) as (? & ? & [=])). assert (forall t, ~ In (TG t) (E1 ++ E2)) as NG by (intros t Ht; destruct (K' _ Ht) as (? & ? & [=])).
    eapply csafe_mono; [apply (csafe_frame g md sz tid (E1 ++ E2) _ M1 (NP tid) NP NG), (dsmall_csafe g md sz tid p n ex a e Hp Hb Hx)|].
    intros _ r' (r0 & -> & ->). rewrite <- app_assoc. apply known_ends; [|apply ends_gone]. intros t [<-|Ht]; [eauto|auto].
Qed.
Lemma free_csafe tid p t r : 0 <= p < 2 ^ 64 -> p <> 0 -> loan t p r -> csafe tid (h_free g p) r (fun _ r' => ends (gone p) r').
Proof.
  intros Hp N0 L. unfold h_free. replace (p =? 0) with false by lia. eapply csafe_bind; [apply (get_loan tid p t r); auto; lia|].
  intros s r' (E & -> & KE & NE & H). cbn beta. destruct (in_slab_region p s) eqn:Sl.
  - destruct H as (n & EE & Er & _). rewrite Er. apply dsmall_top; auto. exists (st_start s), (st_end s). split; [rewrite EE; left; auto|exact Sl].
  - eapply csafe_bind; [apply geterrno_csafe, (mine_lent _ p); [exact H|apply known_mine, KE]|]. intros er r' ->.
    eapply csafe_bind; [apply dlarge_csafe; auto|]. intros [] r' H'. eapply csafe_mono; [apply errno_csafe; eapply ends_mine; [exact H'|apply gone_G]|]. intros _ r'' ->. exact H'.
Qed.
Lemma free_sized_csafe tid p n t r : 0 <= p < 2 ^ 64 -> p <> 0 -> m_sz sz = true -> loan t p r -> csafe tid (h_free_sized g p n) r (fun _ r' => ends (gone p) r').
Proof.
  intros Hp N0 Hz L. unfold h_free_sized. replace (p =? 0) with false by lia. eapply csafe_bind; [apply (get_loan tid p t r); auto; lia|].
  intros s r' (E & -> & KE & NE & H). cbn beta. destruct (in_slab_region p s) eqn:Sl.
  - destruct H as (k & EE & Er & _). rewrite Er. apply dsmall_top; auto. exists (st_start s), (st_end s). split; [rewrite EE; left; auto|exact Sl].
  - apply dlarge_csafe; auto.
Qed.
End M.
