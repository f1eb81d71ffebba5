(** How calls can end the process; guards, isolation, trimming, page allocation. *)
From Coq Require Import String ZArith List Bool Lia ZifyBool Permutation.
From Verif Require Import M_Base M_Config M_SizeClass M_Libdivide M_OS M_Random M_Slab M_Region M_Api M_Hist S_SizeClass S_Heap
  P_Base P_Count P_SizeClass P_SizeClass2 P_Libdivide P_Random P_OS P_Slab1 P_Slab2 P_Slab3 P_Slab4 P_Region P_Heap1 P_Heap2 P_Heap3 P_Heap4 P_Heap5 P_Heap6 P_Heap7 P_Heap8 P_Heap9 P_Heap10 P_Heap11 P_Init P_Api0 P_Api1 P_Api2 P_Api3 P_Api4 P_Api5 P_Api6.
Import ListNotations.
Open Scope Z_scope.
Ltac Zify.zify_post_hook ::= idtac.

(** how a call ends, by kind of cause *)
Definition call_fault (g : config) (t : trace) (s : state) (LL : regs) (c : op) (f : fault) : Prop :=
  kernel_abort f \/ (startup_abort f /\ is_init s = false /\ allocates c = true) \/
  (f = Fatal "detected write after free" /\ WRITE_AFTER_FREE_CHECK g = true /\ ~ steady g s /\ allocates c = true) \/
  (f = Fatal "canary corrupted" /\ ~ steady g s) \/
  ((exists m, f = Fatal m) /\ exists p, (c = OFree p \/ (exists n, c = OFreeSized p n) \/ c = OUsableSize p) /\ p <> 0 /\ nonblock g s LL p) \/
  (exists p n, c = OFreeSized p n /\ sized_fault g s LL p n f) \/
  (exists p, c = OObjectSize p /\ in_slab_region p s = true /\ forall q n, ~ inside g s LL p q n) \/
  (exists x v, c = OWrite x v /\ (pages (st_os s) (page_of x) <> Some PRW \/ in_pages (st_base s) (sizeof_allocator_state g) (page_of x) = true /\ is_init s = true)).
Lemma api_call g t s LL c f : allocates c = true -> api_fault g s f -> call_fault g t s LL c f.
Proof.
  intros A [H|[H|[[H I0]|(-> & H1 & H2)]]].
  - left. apply sys_abort; auto.
  - left. apply rng_abort; auto.
  - destruct (start_abort f H) as [X|X]; [left; auto|]. right; left; auto.
  - right; right; left. auto.
Qed.
Lemma clean_steady g s LL : hinv g s LL -> ~ clean g s -> ~ steady g s.
Proof. intros HI N S. apply N, S, (hinv_init _ _ _ HI). Qed.
Lemma free_call g t s LL c p f : ready g s LL -> c = OFree p \/ (exists n, c = OFreeSized p n) -> p <> 0 -> free_fault g s LL p f -> call_fault g t s LL c f.
Proof.
  intros R Hc P0 [(H & _)|[(H & _)|[(H & N)|(-> & _ & (n & B) & H)]]].
  - left. apply sys_abort; auto.
  - left. apply rng_abort; auto.
  - do 4 right. left. split; [auto|]. exists p. tauto.
  - do 3 right. left. split; [auto|]. eapply clean_steady; eauto. eapply ready_block; eauto.
Qed.
Lemma ends_call g W t s LL tid c f : linv g t s LL -> ends g W t s tid c f -> call_fault g t s LL c f.
Proof.
  intros LI (TC & WD & PM & ST & E). pose proof (li_ready _ _ _ _ LI) as R.
  assert (allocates c = true -> fresh c -> call_fault g t s LL c f) as FR. { intros AL F. apply api_call; [auto|]. exact (fail_wp _ _ _ _ _ (fresh_wp g t s LL tid c LI TC WD F) E). }
  destruct c; try (apply FR; [reflexivity|split; [reflexivity|intros; discriminate]]); cbn [op_run words permitted store_ok] in *; try (apply run_pmap_fail in E).
  - destruct (Z.eq_dec p 0) as [->|P0].
    + apply FR; [reflexivity|]. split; [reflexivity|]. intros p n0 [= <- <-]. reflexivity.
    + destruct WD as [WD1 WD2]. destruct PM as [PM|(b & Hb & NO)]; [contradiction|]. destruct (li_blk _ _ _ _ LI _ _ Hb) as (n0 & B & _ & _ & [G|G] & _ & _ & PP); [contradiction|]. unfold word in *.
      pose proof (ready_block _ _ _ _ _ R B) as HI. pose proof (fail_wp _ _ _ _ _ (realloc_wp g tid s LL p n0 n HI TC WD2 ltac:(lia) B G) E) as [F|(-> & F)]; [apply api_call; auto|].
      do 3 right. left. split; [auto|]. eapply clean_steady; eauto.
  - pose proof (fail_wp _ _ _ _ _ (free_wp g s LL p R WD) E) as (P0 & F). eapply free_call; eauto.
  - destruct WD as [WD1 WD2]. pose proof (fail_wp _ _ _ _ _ (free_sized_wp g s LL p n R WD1 WD2) E) as (P0 & [F|F]); [eapply free_call; eauto|]. do 5 right. left. eauto.
  - pose proof (fail_wp _ _ _ _ _ (usable_wp g s LL p R WD) E) as (P0 & (m & ->) & [N|(-> & _ & (n & B) & C)]).
    + do 4 right. left. split; [eauto|]. exists p. tauto.
    + do 3 right. left. split; [auto|]. eapply clean_steady; eauto. eapply ready_block; eauto.
  - pose proof (fail_wp _ _ _ _ _ (object_wp g s LL p R WD) E) as (F1 & F2). do 6 right. left. eauto.
  - pose proof (fail_wp _ _ _ _ _ (object_fast_wp g s LL p R WD) E) as F. destruct F.
  - pose proof (fail_wp _ _ _ _ _ (trim_all_wp g s LL R) E) as [F|F]; left; [apply sys_abort|apply rng_abort]; auto.
  - pose proof (fail_wp _ _ _ _ _ (store_wp g s LL x v R) E) as [(_ & F)|(_ & F1 & F2)]; do 7 right; eauto 8.
Qed.
(** ** C45 *)
Lemma C45_no_misbehaviour g W o t s tid c f : usable_config g = true -> history g W o t s -> ends g W t s tid c f ->
  kernel_abort f \/ (exists m, f = Fatal m) \/ (exists p, c = OObjectSize p) \/ (exists x v, c = OWrite x v).
Proof.
  intros U H E. destruct (history_linv _ _ _ _ _ U H) as (LL & LI). destruct (ends_call _ _ _ _ _ _ _ _ LI E) as [X|[(X & _)|[(-> & _)|[(-> & _)|[(X & _)|[(p & n & -> & X)|[(p & -> & _)|(x & v & -> & _)]]]]]]]; eauto 8.
  - right; left. apply in_map_iff in X. destruct X as (m & <- & _). eauto.
  - right; left. destruct X as [((-> & _) & _)|((-> & _) & _)]; eauto.
Qed.
Lemma own_is_rw g t s LL p c n x : linv g t s LL -> In (p, c) (live t) -> usable_size g s p n -> p <= x < p + n -> pages (st_os s) (page_of x) = Some PRW /\ in_pages (st_base s) (sizeof_allocator_state g) (page_of x) = false.
Proof.
  intros LI HL US Hx. destruct (live_block _ _ _ _ _ _ LI HL) as (m & B & _ & HI & _). rewrite (usable_eq _ _ _ _ _ _ _ _ LI HL B US) in *.
  split; [apply (block_rw g s LL [] (hi_inv _ _ _ HI) p m x B Hx)|]. pose proof (block_user g s LL [] (hi_inv _ _ _ HI) p m x B Hx) as UU.
  destruct (in_pages _ _ _) eqn:Q; [|reflexivity]. exfalso. apply (user_away g s LL [] (meta_span g s) (page_of x) (hi_inv _ _ _ HI)); [left; reflexivity|exact Q|exact UU].
Qed.
Lemma C45_valid_l g o t s tid c f : usable_config g = true -> history g (own_store g) o t s -> ends g (own_store g) t s tid c f -> valid_call g t s c ->
  kernel_abort f \/ (startup_abort f /\ is_init s = false) \/ (size_mismatch f /\ exists p n, c = OFreeSized p n /\ is_live t p).
Proof.
  intros U H E V. destruct (history_linv _ _ _ _ _ U H) as (LL & LI). pose proof (history_steady _ _ _ _ U H) as SD.
  destruct (ends_call _ _ _ _ _ _ _ _ LI E) as [X|[(X & Y & _)|[(_ & _ & X & _)|[(_ & X)|[(_ & p & Hc & P0 & X)|[(p & n & -> & X)|[(p & -> & L & X)|(x & v & -> & X)]]]]]]]; auto; try contradiction.
  - exfalso. assert (p = 0 \/ is_live t p) as [|(b & Hb)] by (destruct Hc as [->|[(n & ->)| ->]]; exact V); [contradiction|]. destruct (live_block _ _ _ _ _ _ LI Hb) as (n & B & _). exact (X n B).
  - right. right. split; [destruct X as [((-> & _) & _)|((-> & _) & _)]; [left|right]; reflexivity|]. exists p, n. split; [auto|]. destruct V as [->|V]; [|auto]. exfalso.
    destruct E as (_ & _ & _ & _ & E). cbn in E. discriminate.
  - exfalso. destruct V as [->|[V|(q & b & n & Hb & SM & Hq)]].
    + destruct E as (_ & _ & _ & _ & E). cbn in E. discriminate.
    + unfold in_slab_region in L. lia.
    + destruct (small_slab _ _ _ _ _ _ _ LI Hb SM) as [L' B]. apply (X q n). split; auto.
  - exfalso. pose proof E as (_ & _ & _ & (p & c & n & HL & US & Hx) & _). destruct (own_is_rw _ _ _ _ _ _ _ _ LI HL US Hx) as [A B]. destruct X as [X|[X _]]; congruence.
Qed.

(** ** C42 *)
Lemma al_usable g t s LL W tid c p s' n m : linv g t s LL -> calls g W t s tid c (APtr p) s' -> (exists LL' u, ares g s LL s' LL' p u /\ n <= u) -> usable_size g s' p m -> n <= m.
Proof.
  intros LI K (LL' & u & A & N) US. pose proof (ar_inv _ _ _ _ _ _ _ A) as HI'. assert (block g s' LL' p u) as B by (apply A; right; reflexivity). pose proof (block_word _ _ _ _ _ HI' B) as PW.
  rewrite (block_fun g s' LL' [] (hi_inv _ _ _ HI') p m u); [auto|apply usable_block; auto; left; auto|auto].
Qed.
Lemma C42_pvalloc_l g W o t s tid n a s' : usable_config g = true -> history g W o t s -> calls g W t s tid (OPvalloc n) a s' ->
  match a with
  | APtr p => 0 < n <= 2 ^ 64 - 4096 /\ p mod 4096 = 0 /\ (forall x, p <= x < p + page_up n -> accessible s' x) /\ forall m, usable_size g s' p m -> page_up n <= m
  | ANull => errno (st_os s') = ENOMEM
  | _ => False
  end /\ (n = 0 \/ 2 ^ 64 - 4096 < n -> a = ANull).
Proof.
  intros U H K. destruct (history_linv _ _ _ _ _ U H) as (LL & LI). pose proof K as (TC & WD & _ & _ & E). cbn [op_run words] in *. apply run_pmap in E. destruct E as (r & E & ->).
  pose proof (run_wp _ _ _ _ _ _ (pvalloc_wp g tid s LL n (li_ready _ _ _ _ LI) TC WD) E) as Wp. cbv beta in Wp. pose proof (page_align_zero n WD) as PZ. unfold word in *. destruct r as [p|]; cbn [ans_ptr] in *.
  - destruct Wp as (NZ & _ & LL' & u & A & N & P1 & _). assert (0 < n <= 2 ^ 64 - 4096) as Hn by lia. assert (page_align n = page_up n) as PU by (unfold page_up; rewrite page_align_small by lia; reflexivity).
    split; [|lia]. split; [auto|]. split; [exact P1|]. rewrite <- PU. split.
    + intros x Hx. unfold accessible. pose proof (ar_inv _ _ _ _ _ _ _ A) as HI'. apply (block_rw g s' LL' [] (hi_inv _ _ _ HI') p u); [apply A; right; reflexivity|lia].
    + intros m US. eapply (al_usable g t s LL W tid _ p s'); eauto.
  - split; [apply Wp|auto].
Qed.

(** ** C20, C21 *)
Lemma in_slab_at g k c i x : geom g k c -> in_slab g k c i (page_of x) <-> slabp g k c i <= x < slabp g k c i + slab_size_of g k.
Proof.
  intros G. pose proof (class_facts_all g k (ge_k _ _ _ G)) as []. unfold in_slab. apply in_pages_aligned; [|auto]. unfold slabp. destruct (ge_start _ _ _ G) as (_ & M & _).
  rewrite Z.add_mod by lia. rewrite M, Z.mul_mod by lia. rewrite cf_bmod, Z.mul_0_r. reflexivity.
Qed.
Lemma slab_at_idx g k c i x : geom g k c -> slabp g k c i <= x < slabp g k c i + slab_size_of g k <-> i = (x - c_start c) / slab_size_of g k.
Proof.
  intros G. pose proof (class_facts_all g k (ge_k _ _ _ G)) as []. unfold slabp. split.
  - intros H. apply Z.div_unique with (x - c_start c - slab_size_of g k * i); lia.
  - intros ->. pose proof (Z.div_mod (x - c_start c) (slab_size_of g k) ltac:(lia)). pose proof (Z.mod_pos_bound (x - c_start c) (slab_size_of g k) ltac:(lia)). lia.
Qed.
Lemma class_page g s LL a k x : hinv g s LL -> class_in g a k -> let c := st_cls s a k in c_start c <= x < c_start c + CLASS_REGION_SIZE g ->
  exists E, (exists F, cinvL g k (st_os s) c E F) /\ let i := (x - c_start c) / slab_size_of g k in
  (active c E None i /\ is_slab g c i /\ pages (st_os s) (page_of x) = Some (if k =? 0 then PNone else PRW)) \/ (~ active c E None i /\ pages (st_os s) (page_of x) = Some PNone /\ mem (st_os s) x = 0).
Proof.
  intros HI Ck c Hx. pose proof (hi_inv _ _ _ HI) as I. pose proof (ggeom g s LL [] I a k Ck) as G. fold c in G. destruct (gclass g s LL [] I a k Ck) as (E & F & P & Iv & St). exists E. split; [exists F, P; auto|].
  set (i := (x - c_start c) / slab_size_of g k). assert (in_slab g k c i (page_of x)) as Hi by (apply (in_slab_at g k c i x G), (slab_at_idx g k c i x G); reflexivity).
  pose proof (ci_pages _ _ _ _ _ _ _ _ _ Iv) as Pg. fold c in Iv, Pg. assert (in_class g c (page_of x)) as IC by (apply (in_class_addr g k _ G); lia).
  destruct (Z_lt_le_dec 0 (cntof c i)) as [L|L]; [|destruct (in_dec Z.eq_dec i E) as [J|J]].
  - left. assert (active c E None i) as A by (left; auto). split; [auto|]. split; [exact (active_slab g k _ _ _ _ _ _ _ _ Iv A)|]. apply (pg_act _ _ _ _ _ Pg i _ A Hi).
  - left. assert (active c E None i) as A by (right; left; auto). split; [auto|]. split; [exact (active_slab g k _ _ _ _ _ _ _ _ Iv A)|]. apply (pg_act _ _ _ _ _ Pg i _ A Hi).
  - right. assert (~ active c E None i) as N by (intros [X|[X|X]]; [lia|auto|discriminate]). split; [auto|].
    assert (pages (st_os s) (page_of x) = Some PNone) as PN.
    { apply (pg_none _ _ _ _ _ Pg); [auto|]. intros i' A' Hi'. apply N. apply (in_slab_at g k c i' x G), (slab_at_idx g k c i' x G) in Hi'. subst i'. exact A'. }
    split; [auto|]. apply (pg_zero _ _ _ _ _ Pg); auto.
Qed.
Lemma gap_area g s LL x : hinv g s LL -> in_slab_region x s = true -> (forall a k, class_in g a k -> ~ c_start (st_cls s a k) <= x < c_start (st_cls s a k) + CLASS_REGION_SIZE g) -> inaccessible s x.
Proof.
  intros HI L N. pose proof (hi_inv _ _ _ HI) as I. apply (gi_gap _ _ _ _ I); [apply (slab_region_span g s LL [] I); auto|]. intros a k C Hc. apply (N a k C). apply (in_class_addr g k _ (ggeom g s LL [] I a k C)). exact Hc.
Qed.
Lemma class_apart g s LL a k a' k' x : hinv g s LL -> class_in g a k -> class_in g a' k' -> class_lo g s a k <= x < class_lo g s a k + REAL_CLASS_REGION_SIZE g ->
  c_start (st_cls s a' k') <= x < c_start (st_cls s a' k') + CLASS_REGION_SIZE g -> a' = a /\ k' = k.
Proof.
  intros HI C C' H H'. pose proof (hi_inv _ _ _ HI) as I. destruct (class_of_addr g s (gi_u _ _ _ _ I) (gi_pl _ _ _ _ I) a k x C H) as [_ E].
  destruct (class_of_addr g s (gi_u _ _ _ _ I) (gi_pl _ _ _ _ I) a' k' x C' (class_region_lo g s LL [] I a' k' x C' H')) as [_ E']. rewrite E in E'. injection E' as <- <-. auto.
Qed.
Lemma zero_area g s LL x : hinv g s LL -> in_slab_region x s = true -> snd (slab_size_class g s x) = 0 -> inaccessible s x.
Proof.
  intros HI L K. pose proof (hi_inv _ _ _ HI) as I. destruct (addr_class g s (gi_u _ _ _ _ I) (gi_pl _ _ _ _ I) x L) as (a & k & E & Ck & B). rewrite E in K. cbn [snd] in K. subst k.
  destruct (Z_le_gt_dec (c_start (st_cls s a 0)) x) as [L1|L1]; [destruct (Z_lt_le_dec x (c_start (st_cls s a 0) + CLASS_REGION_SIZE g)) as [L2|L2]|].
  - destruct (class_page g s LL a 0 x HI Ck ltac:(cbv zeta; lia)) as (E0 & _ & [(_ & _ & X)|(_ & X & _)]); exact X.
  - apply (gap_area g s LL x HI L). intros a' k' C' H. destruct (class_apart g s LL a 0 a' k' x HI Ck C' B H) as [-> ->]. lia.
  - apply (gap_area g s LL x HI L). intros a' k' C' H. destruct (class_apart g s LL a 0 a' k' x HI Ck C' B H) as [-> ->]. lia.
Qed.
Lemma history_hinv g W o t s : usable_config g = true -> history g W o t s -> is_init s = true -> exists LL, linv g t s LL /\ hinv g s LL.
Proof. intros U H Hi. destruct (history_linv _ _ _ _ _ U H) as (LL & LI). exists LL. split; [auto|]. apply ready_hinv; [apply LI|auto]. Qed.
Lemma calls_sited g W t s tid c a s' : calls g W t s tid c a s' -> sited s s'.
Proof. intros (_ & _ & _ & _ & E). eapply op_sited_ok; eauto. Qed.
Lemma sited_init s s' : sited s s' -> is_init s = true -> is_init s' = true.
Proof. intros S H. destruct (S H) as (E1 & E2 & E3). unfold is_init in *. rewrite ?E1, ?E2, ?E3. exact H. Qed.
Lemma cont_sited g W t s t' s' : continues g W t s t' s' -> sited s s'.
Proof.
  intros K. induction K as [|t1 s1 tid c a s2 K IH C]; [apply sited_refl|]. intros Hi. destruct (IH Hi) as (E1 & E2 & E3). destruct (calls_sited _ _ _ _ _ _ _ _ C (sited_init _ _ IH Hi)) as (F1 & F2 & F3). repeat split; congruence.
Qed.
Lemma C20_size g W o t s p c : usable_config g = true -> history g W o t s -> In (p, c) (live t) -> (c = OMalloc 0 \/ exists a b, c = OCalloc a b /\ a * b = 0) ->
  forall n, usable_size g s p n -> n = 0.
Proof.
  intros U H HL Hc n US. assert (malloc_size g 0 n) as (r & _ & ->); [|reflexivity]. eapply (C17_exact_l g W o t s p c 0); eauto; [|unfold word; lia].
  destruct Hc as [->|(a & b & -> & E)]; [auto|right; exists a, b; auto].
Qed.
Lemma C20_never_l g W o t s p c t' s' : usable_config g = true -> history g W o t s -> In (p, c) (live t) -> (c = OMalloc 0 \/ exists a b, c = OCalloc a b /\ a * b = 0) ->
  continues g W t s t' s' -> inaccessible s' p.
Proof.
  intros U H HL Hc K. destruct (history_linv _ _ _ _ _ U H) as (LL & LI). destruct (live_block _ _ _ _ _ _ LI HL) as (n & B & _ & HI & PW & _).
  destruct (live_exact _ _ _ _ _ _ 0 n LI HL ltac:(destruct Hc as [->|(a & b & -> & E)]; [auto|right; exists a, b; auto]) ltac:(lia) B) as (_ & En & _). change (padded g 0) with 0 in En.
  assert (in_slab_region p s = true /\ snd (slab_size_class g s p) = 0) as [L K0].
  { pose proof (max_slab_bounds g). assert (n = 0) as -> by (rewrite En; unfold grant; replace (0 <=? max_slab_size_class g) with true by lia; reflexivity).
    destruct B as [(a & k & i & j & SB & E0)|(gd & Hin)].
    - destruct (sblk_loc g s LL [] (hi_inv _ _ _ HI) _ _ _ _ _ SB) as [L E]. split; [auto|]. rewrite E. cbn [snd]. pose proof (usable_bounds g k ltac:(apply SB)). lia.
    - destruct (region_p g s LL [] (hi_inv _ _ _ HI) _ Hin) as (P & _). cbn in P. lia. }
  pose proof (hinv_init _ _ _ HI) as Hi. pose proof (cont_sited _ _ _ _ _ _ K) as ST. destruct (ST Hi) as (E1 & E2 & _).
  destruct (history_hinv g W o t' s' U (cont_history _ _ _ _ _ _ _ H K) (sited_init _ _ ST Hi)) as (LL' & _ & HI').
  apply (zero_area g s' LL' p HI'); [unfold in_slab_region in *; rewrite E1, E2; exact L|]. unfold slab_size_class in *. rewrite E1. exact K0.
Qed.
Lemma C21_large_l g W o t s p c n : usable_config g = true -> history g W o t s -> In (p, c) (live t) -> ~ st_start s <= p < st_end s -> usable_size g s p n ->
  exists gd, 4096 <= gd /\ gd mod 4096 = 0 /\ guarded s (p - gd) p /\ guarded s (page_up (p + n)) (page_up (p + n) + gd) /\
    forall q d m x, In (q, d) (live t) -> extent g s q d m -> q <= x < q + m -> ~ (p - gd <= x < p) /\ ~ (page_up (p + n) <= x < page_up (p + n) + gd).
Proof.
  intros U H HL OS US. destruct (history_linv _ _ _ _ _ U H) as (LL & LI). destruct (live_block _ _ _ _ _ _ LI HL) as (n' & B & _ & HI & PW & _). rewrite (usable_eq _ _ _ _ _ _ _ _ LI HL B US) in *.
  assert (in_slab_region p s = false) as L by (unfold in_slab_region; lia). destruct (large_block _ _ _ _ _ HI L B) as (gd & Hin). pose proof (gi_reg _ _ _ _ (hi_inv _ _ _ HI) _ Hin) as [K1 K2 K3 K4 K5 K6 K7]. cbn [rg_p rg_size rg_guard] in *.
  assert (page_up (p + n') mod 4096 = 0 /\ p + n' <= page_up (p + n') < p + n' + 4096) as [PM PU].
  { unfold page_up. rewrite Z.mod_mul by lia. pose proof (Z.div_mod (p + n' + 4095) 4096 ltac:(lia)). pose proof (Z.mod_pos_bound (p + n' + 4095) 4096 ltac:(lia)). lia. }
  assert (forall x, p - gd <= x < p \/ page_up (p + n') <= x < page_up (p + n') + gd -> inaccessible s x) as NA.
  { intros x Hx. apply K7.
    - unfold region_span. cbn [rg_p rg_size rg_guard]. apply in_pages_spec. unfold page_of. split; [apply Z.div_le_mono; lia|].
      apply Z.lt_le_trans with (x / 4096 + 1); [lia|]. rewrite <- Z.div_add by lia. unfold page_up in *.
      pose proof (Z.div_mod (p + n' + 4095) 4096 ltac:(lia)). pose proof (Z.mod_pos_bound (p + n' + 4095) 4096 ltac:(lia)). pose proof (Z.div_mod gd 4096 ltac:(lia)).
      replace ((p - gd + (n' + 2 * gd) + 4095) / 4096) with ((p + n' + 4095) / 4096 + gd / 4096).
      2:{ rewrite <- Z.div_add by lia. f_equal. lia. }
      rewrite Z.div_add by lia. assert (x / 4096 < (p + n' + 4095) / 4096 + gd / 4096); [|lia]. apply Z.div_lt_upper_bound; lia.
    - destruct (in_pages p n' (page_of x)) eqn:Q; [|reflexivity]. exfalso. apply in_pages_spec in Q. unfold page_of in Q. pose proof (Z.div_mod x 4096 ltac:(lia)). pose proof (Z.mod_pos_bound x 4096 ltac:(lia)).
      pose proof (Z.div_mod p 4096 ltac:(lia)). unfold page_up in *. lia. }
  exists gd. split; [lia|]. split; [lia|]. split; [split; [lia|auto]|]. split; [split; [lia|auto]|].
  intros q d m x Hq X Hx. destruct (ext_block _ _ _ _ _ _ _ LI Hq X) as (m' & Bq & Lm). pose proof (block_rw g s LL [] (hi_inv _ _ _ HI) q m' x Bq ltac:(lia)) as RW. unfold inaccessible in NA.
  split; intros Hx'; rewrite NA in RW by auto; discriminate.
Qed.
Lemma C21_slabs_l g W o t s a k x : usable_config g = true -> history g W o t s -> is_init s = true -> 0 <= a < N_ARENA g -> 0 <= k < N_SIZE_CLASSES g ->
  let c := st_cls s a k in c_start c <= x < c_start c + CLASS_REGION_SIZE g -> (x - c_start c) / slab_size_of g k mod (GUARD_SLABS_INTERVAL g + 1) = GUARD_SLABS_INTERVAL g -> inaccessible s x.
Proof.
  intros U H Hi Ha Hk c Hx Hg. destruct (history_hinv _ _ _ _ _ U H Hi) as (LL & LI & HI). destruct (class_page g s LL a k x HI (conj Ha Hk) Hx) as (E0 & _ & [(_ & [_ X] & _)|(_ & X & _)]); [|exact X]. contradiction.
Qed.
Lemma C21_classes_l g W o t s a k x : usable_config g = true -> history g W o t s -> is_init s = true -> 0 <= a < N_ARENA g -> 0 <= k < N_SIZE_CLASSES g ->
  let c := st_cls s a k in c_start c - 4096 <= x < c_start c \/ c_start c + CLASS_REGION_SIZE g <= x < c_start c + CLASS_REGION_SIZE g + 4096 -> inaccessible s x.
Proof.
  intros U H Hi Ha Hk c Hx. destruct (history_hinv _ _ _ _ _ U H Hi) as (LL & LI & HI). pose proof (hi_inv _ _ _ HI) as I. assert (class_in g a k) as C by (split; auto). destruct (gi_cls _ _ _ _ I a k C) as [_ [P1 P2 P3]]. fold c in P1, P2. pose proof (uc_crs _ (ucfg_of g U)) as CR.
  destruct (class_of_addr g s (gi_u _ _ _ _ I) (gi_pl _ _ _ _ I) a k x C ltac:(lia)) as [L _]. apply (gap_area g s LL x HI L). intros a' k' C' H'. destruct (class_apart g s LL a k a' k' x HI C C' ltac:(lia) H') as [-> ->]. fold c in H'. lia.
Qed.

(** ** C22 *)
Lemma C22_size_l g W o t s t' s' p c n q d m x : usable_config g = true -> history g W o t s -> continues g W t s t' s' ->
  In (p, c) (live t) -> In (q, d) (live t') -> usable_size g s p n -> usable_size g s' q m -> p <= x < p + n -> q <= x < q + m ->
  (st_start s <= x < st_end s /\ n = m) \/ (~ st_start s <= x < st_end s /\ ~ st_start s <= p < st_end s /\ ~ st_start s' <= q < st_end s').
Proof.
  intros U H K HL HL' US US' Hx Hx'. destruct (history_linv _ _ _ _ _ U H) as (LL & LI). destruct (live_block _ _ _ _ _ _ LI HL) as (n' & B & _ & HI & PW & _). rewrite (usable_eq _ _ _ _ _ _ _ _ LI HL B US) in *.
  destruct (history_linv _ _ _ _ _ U (cont_history _ _ _ _ _ _ _ H K)) as (LL' & LI'). destruct (live_block _ _ _ _ _ _ LI' HL') as (m' & B' & _ & HI' & PW' & _). rewrite (usable_eq _ _ _ _ _ _ _ _ LI' HL' B' US') in *.
  pose proof (hinv_init _ _ _ HI) as Hi. destruct (cont_sited _ _ _ _ _ _ K Hi) as (E1 & E2 & _).
  assert (forall y, in_slab_region y s' = in_slab_region y s) as ER by (intros y; unfold in_slab_region; rewrite E1, E2; reflexivity).
  assert (forall y, in_slab_region y s = true <-> st_start s <= y < st_end s) as IR by (intros y; unfold in_slab_region; lia).
  assert (slab_size_class g s' x = slab_size_class g s x) as EC by (unfold slab_size_class; rewrite E1; reflexivity).
  destruct B as [(a & k & i & j & SB & ->)|(gd & Hin)]; destruct B' as [(a' & k' & i' & j' & SB' & ->)|(gd' & Hin')].
  - left. pose proof (usable_bounds g k ltac:(apply SB)). pose proof (usable_bounds g k' ltac:(apply SB')).
    destruct (sblk_extent g s LL [] (hi_inv _ _ _ HI) _ _ _ _ _ SB x ltac:(lia)) as (L & E & _). destruct (sblk_extent g s' LL' [] (hi_inv _ _ _ HI') _ _ _ _ _ SB' x ltac:(lia)) as (_ & E' & _).
    split; [apply IR; auto|]. rewrite EC, E in E'. injection E' as <- <-. reflexivity.
  - exfalso. pose proof (usable_bounds g k ltac:(apply SB)). destruct (sblk_extent g s LL [] (hi_inv _ _ _ HI) _ _ _ _ _ SB x ltac:(lia)) as (L & _).
    pose proof (region_not_slab g s' LL' [] (hi_inv _ _ _ HI') _ Hin' x Hx') as N. rewrite ER in N. congruence.
  - exfalso. pose proof (usable_bounds g k' ltac:(apply SB')). destruct (sblk_extent g s' LL' [] (hi_inv _ _ _ HI') _ _ _ _ _ SB' x ltac:(lia)) as (L & _).
    pose proof (region_not_slab g s LL [] (hi_inv _ _ _ HI) _ Hin x Hx) as N. rewrite ER in L. congruence.
  - right. pose proof (region_not_slab g s LL [] (hi_inv _ _ _ HI) _ Hin) as N. pose proof (region_not_slab g s' LL' [] (hi_inv _ _ _ HI') _ Hin') as N'. cbn [rg_p rg_size] in *.
    split; [intros Y; apply IR in Y; rewrite N in Y by lia; discriminate|]. split; [intros Y; apply IR in Y; rewrite N in Y by lia; discriminate|]. rewrite E1, E2. intros Y. apply IR in Y. rewrite <- ER, N' in Y by lia. discriminate.
Qed.
Lemma C22_large_l g W o t s p c n x : usable_config g = true -> history g W o t s -> In (p, c) (live t) -> extent g s p c n -> p <= x < p + n ->
  ~ (st_base s <= x < st_base s + sizeof_allocator_state g) /\ (st_start s <= x < st_end s <-> st_start s <= p < st_end s).
Proof.
  intros U H HL X Hx. destruct (history_linv _ _ _ _ _ U H) as (LL & LI). destruct (ext_block _ _ _ _ _ _ _ LI HL X) as (m & B & L). pose proof (ready_block _ _ _ _ _ (li_ready _ _ _ _ LI) B) as HI. split.
  - intros Y. pose proof (block_user g s LL [] (hi_inv _ _ _ HI) p m x B ltac:(lia)) as UU. apply (user_away g s LL [] (meta_span g s) (page_of x) (hi_inv _ _ _ HI)) in UU; [auto|left; reflexivity|].
    unfold meta_span. apply P_OS.in_pages_addr; lia.
  - assert (forall y, in_slab_region y s = true <-> st_start s <= y < st_end s) as IR by (intros y; unfold in_slab_region; lia). rewrite <- !IR. destruct B as [(a & k & i & j & SB & ->)|(gd & Hin)].
    + pose proof (usable_bounds g k ltac:(apply SB)). destruct (sblk_extent g s LL [] (hi_inv _ _ _ HI) _ _ _ _ _ SB x ltac:(lia)) as (L1 & _). destruct (sblk_extent g s LL [] (hi_inv _ _ _ HI) _ _ _ _ _ SB p ltac:(lia)) as (L2 & _). tauto.
    + rewrite (region_not_slab g s LL [] (hi_inv _ _ _ HI) _ Hin x) by (cbn; lia). rewrite (region_not_slab g s LL [] (hi_inv _ _ _ HI) _ Hin p) by (cbn; lia). tauto.
Qed.
Lemma C19_own g o t s tid p m n : usable_config g = true -> history g (own_store g) o t s -> In (p, OMalloc m) (live t) -> word n -> m <> 0 \/ n <= 7 * 2 ^ 61 ->
  (exists s', run (op_run g tid (OFreeSized p n)) s = Ok (AUnit, s') /\ same_size g m n) \/
  (exists f, run (op_run g tid (OFreeSized p n)) s = Fail f /\ (size_mismatch f /\ ~ same_size g m n \/ kernel_abort f)).
Proof.
  intros U H HL Hn Q. pose proof (live_words _ _ _ _ _ H _ _ HL) as Wm. cbn in Wm.
  destruct (C19_call g _ o t s tid p m n U H HL Wm Hn Q) as [X|(f & E & [A|[A|[_ N]]])]; [left; exact X|right; exists f; auto|right; exists f; auto|].
  exfalso. apply N. apply (history_steady _ _ _ _ U H). destruct (history_linv _ _ _ _ _ U H) as (LL & LI).
  destruct (live_block _ _ _ _ _ _ LI HL) as (n' & B & _ & HI & _). exact (hinv_init _ _ _ HI).
Qed.
Lemma C06_quiet g W o t s tid c a s' : usable_config g = true -> history g W o t s -> calls g W t s tid c a s' -> allocates c = true -> (forall p, a <> APtr p) ->
  undisturbed g (live t) s s' /\ live (mkEv tid c a :: t) = live t.
Proof. intros U H C A N. destruct (C25_failure _ _ _ _ _ _ _ _ _ U H C A N) as (X & Y & _). split; assumption. Qed.
Lemma C20_distinct_l g W o t s p c : usable_config g = true -> history g W o t s -> In (p, c) (live t) -> 0 < p /\ NoDup (map fst (live t)).
Proof. intros U H HL. split; [apply (C05_live _ _ _ _ _ _ _ U H HL)|exact (C07_distinct_l _ _ _ _ _ U H)]. Qed.
Lemma C42_valloc_l g W o t s tid n p s' : usable_config g = true -> history g W o t s -> calls g W t s tid (OValloc n) (APtr p) s' ->
  p mod 4096 = 0 /\ exists m, n <= m /\ (forall x, p <= x < p + m -> accessible s' x) /\ (forall m', usable_size g s' p m' -> m' = m).
Proof.
  intros U H C. split; [|exact (C01_alloc _ _ _ _ _ _ _ _ _ U H C eq_refl)]. destruct C as (C1 & C2 & C3 & C4 & C5).
  assert (history g W o (mkEv tid (OValloc n) (APtr p) :: t) s') as H' by (econstructor; eauto).
  destruct (C05_live _ _ _ _ _ p (OValloc n) U H' ltac:(left; reflexivity)) as (_ & _ & X). exact X.
Qed.
Lemma C16_returns g o t s tid p n c : usable_config g = true -> history g (own_store g) o t s -> table_cleared s -> In (p, c) (live t) -> ~ overaligned g c -> word n ->
  (exists a s', run (op_run g tid (ORealloc p n)) s = Ok (a, s') /\ (a = ANull \/ exists q, a = APtr q)) \/
  (exists f, run (op_run g tid (ORealloc p n)) s = Fail f /\ kernel_abort f).
Proof.
  intros U H TC HL NO Wn. assert (word p) as Wp.
  { destruct (history_linv _ _ _ _ _ U H) as (LL & LI). destruct (live_block _ _ _ _ _ _ LI HL) as (m & B & _ & HI & PW & _). unfold word. lia. }
  destruct (run (op_run g tid (ORealloc p n)) s) as [[a s']|f] eqn:E.
  - left. exists a, s'. split; [reflexivity|]. cbn [op_run] in E. apply run_pmap in E. destruct E as (r & E & ->). destruct r; cbn; eauto.
  - right. exists f. split; [reflexivity|]. destruct (C45_valid_l g o t s tid (ORealloc p n) f U H) as [K|[[K N]|[_ (q & m & K & _)]]]; [|exact I|exact K| |discriminate].
    + unfold ends. split; [exact TC|]. split; [split; assumption|]. split; [right; exists c; auto|]. split; [exact I|exact E].
    + exfalso. destruct (history_linv _ _ _ _ _ U H) as (LL & LI). destruct (live_block _ _ _ _ _ _ LI HL) as (m & B & _ & HI & _). pose proof (hinv_init _ _ _ HI). congruence.
Qed.
