(** Invariant of one size class: definitions, geometry, primitive steps. *)
From Coq Require Import String ZArith List Bool Lia ZifyBool.
From Verif Require Import M_Base M_Config M_SizeClass M_Libdivide M_OS M_Random M_Slab
  P_Base P_Count P_SizeClass P_Libdivide P_Random P_Bitmap P_Bitmap2 P_OS P_Links.
Import ListNotations.
Open Scope Z_scope.
Ltac Zify.zify_post_hook ::= idtac.

(** ** abstract view *)
Definition used (c : size_class) (i j : Z) : bool := bm_get (sb_bitmap (c_slabs c i)) j.
Definition quar (c : size_class) (i j : Z) : bool := bm_get (sb_qbitmap (c_slabs c i)) j.
Definition cntof (c : size_class) (i : Z) : Z := sb_count (c_slabs c i).
Definition nxt (c : size_class) : links := fun i => sb_next (c_slabs c i).
Definition prv (c : size_class) : links := fun i => sb_prev (c_slabs c i).
Definition can (c : size_class) (i : Z) : Z := sb_canary (c_slabs c i).
Definition slabp (g : config) (k : Z) (c : size_class) (i : Z) : Z := c_start c + i * slab_size_of g k.
Definition sptr (g : config) (k : Z) (c : size_class) (i j : Z) : Z := slabp g k c i + j * slot_size g k.
Definition is_slab (g : config) (c : size_class) (i : Z) : Prop :=
  0 <= i < c_mcount c /\ i mod (GUARD_SLABS_INTERVAL g + 1) <> GUARD_SLABS_INTERVAL g.
(** granted: handed out and not freed *)
Definition granted (c : size_class) (i j : Z) : bool := used c i j && negb (quar c i j).

Record slab_ok (n : Z) (m : slab) : Prop := {
  so_bm : bm_ok (sb_bitmap m);
  so_qm : bm_ok (sb_qbitmap m);
  so_cnt : sb_count m = zcount (bm_get (sb_bitmap m)) 0 n;
  so_hi : forall j, n <= j < 256 -> bm_get (sb_bitmap m) j = false;
  so_q : forall j, 0 <= j < 256 -> bm_get (sb_qbitmap m) j = true -> bm_get (sb_bitmap m) j = true;
  so_can : 0 <= sb_canary m < 2 ^ 64 /\ sb_canary m mod 256 = 0
}.

Record geom (g : config) (k : Z) (c : size_class) : Prop := {
  ge_u : usable_config g = true;
  ge_k : 0 <= k < N_SIZE_CLASSES g;
  ge_start : 4096 <= c_start c /\ c_start c mod 4096 = 0 /\ c_start c + CLASS_REGION_SIZE g + 4096 <= 2 ^ 47;
  ge_info : 0 <= c_info c /\ c_info c mod 4096 = 0;
  ge_dj : forall q, in_pages (c_start c) (CLASS_REGION_SIZE g) q = true -> in_pages (c_info c) (sizeof_slab_info_mapping g) q = false;
  ge_d1 : libdivide_u32_gen (slot_size g k) = Some (c_size_div c);
  ge_d2 : libdivide_u64_gen (slab_size_of g k) = Some (c_slab_div c)
}.
Record meta_ok (g : config) (k : Z) (c : size_class) : Prop := {
  me_max : 0 <= c_mallocated c <= get_metadata_max g (slab_size_of g k);
  me_min : (c_mallocated c = 0 /\ c_mcount c = 0) \/ Z.min 42 (get_metadata_max g (slab_size_of g k)) <= c_mallocated c;
  me_cnt : 0 <= c_mcount c /\ (c_mcount c <= c_mallocated c \/ (c_mcount c = c_mallocated c + 1 /\ c_munguarded c = 0));
  me_un : 0 <= c_munguarded c < GUARD_SLABS_INTERVAL g;
  me_mod : c_mcount c mod (GUARD_SLABS_INTERVAL g + 1) = c_munguarded c
}.
Record linked (c : size_class) (P E F : list Z) : Prop := {
  lk_P : c_partial c = hd_error P;
  lk_dll : dll (nxt c) (prv c) None P;
  lk_Pnd : NoDup P;
  lk_E : c_empty c = hd_error E;
  lk_Es : sll (nxt c) E;
  lk_F : c_fhead c = hd_error F;
  lk_Ft : c_ftail c = lastz F;
  lk_Fs : sll (nxt c) F;
  lk_Q : forall i, In i (somes (c_fq c)) -> nxt c i = None;
  lk_nd : NoDup (E ++ F ++ somes (c_fq c));
  lk_dj : forall i, In i P -> ~ In i (E ++ F ++ somes (c_fq c))
}.
(** [X]: the slab the running operation holds in hand: it is in no free list, and may
    be in the partial list whatever its count *)
Record matched (g : config) (k : Z) (c : size_class) (P E F : list Z) (X : option Z) : Prop := {
  ma_P : forall i, X <> Some i -> (In i P <-> 0 < cntof c i < get_slots g k);
  ma_0 : forall i, X <> Some i -> (In i (E ++ F ++ somes (c_fq c)) <-> is_slab g c i /\ cntof c i = 0);
  ma_s : forall i, 0 < cntof c i -> is_slab g c i;
  ma_new : forall i, c_mcount c <= i -> nxt c i = None /\ prv c i = None;
  ma_X : forall i, X = Some i -> is_slab g c i /\ ~ In i (E ++ F ++ somes (c_fq c))
}.
Definition nz (l : list Z) : list Z := filter (fun p => negb (p =? 0)) l.
(** [L]: freed slots on their way through the quarantine *)
Record quar_ok (g : config) (k : Z) (c : size_class) (L : list Z) : Prop := {
  qu_rl : zlen (c_qrandom c) = Z.shiftl (SLAB_QUARANTINE_RANDOM_LENGTH g) (MAX_SLAB_SIZE_CLASS_SHIFT g - 4);
  qu_ql : zlen (c_qqueue c) = Z.shiftl (SLAB_QUARANTINE_QUEUE_LENGTH g) (MAX_SLAB_SIZE_CLASS_SHIFT g - 4);
  qu_i : 0 <= c_qqidx c /\ (0 < SLAB_QUARANTINE_QUEUE_LENGTH g -> c_qqidx c < slab_quarantine_queue_length g (slot_size g k));
  qu_nd : NoDup (L ++ nz (c_qrandom c ++ c_qqueue c));
  qu_in : forall p, In p (L ++ nz (c_qrandom c ++ c_qqueue c)) <->
            exists i j, 0 <= j < get_slots g k /\ quar c i j = true /\ p = sptr g k c i j
}.
(** slabs whose memory is in use *)
Definition active (c : size_class) (E : list Z) (X : option Z) (i : Z) : Prop := 0 < cntof c i \/ In i E \/ X = Some i.
Definition in_slab (g : config) (k : Z) (c : size_class) (i q : Z) : Prop :=
  in_pages (slabp g k c i) (slab_size_of g k) q = true.
Definition in_class (g : config) (c : size_class) (q : Z) : Prop :=
  in_pages (c_start c) (CLASS_REGION_SIZE g) q = true.
Record pages_ok (g : config) (k : Z) (o : os) (c : size_class) (A : Z -> Prop) : Prop := {
  pg_act : forall i q, A i -> in_slab g k c i q -> pages o q = Some (if k =? 0 then PNone else PRW);
  pg_none : forall q, in_class g c q -> (forall i, A i -> ~ in_slab g k c i q) -> pages o q = Some PNone;
  pg_zero : forall x, in_class g c (page_of x) -> pages o (page_of x) = Some PNone -> mem o x = 0;
  pg_meta : forall q, in_pages (c_info c) (sizeof_slab_info_mapping g) q = true -> pages o q <> None
}.
(** number of slabs among the first metadata_count records: one in G+1 is a guard *)
Definition nslabs (g : config) (c : size_class) : Z := c_mcount c - c_mcount c / (GUARD_SLABS_INTERVAL g + 1).
Record cinvX (g : config) (k : Z) (o : os) (c : size_class) (P E F : list Z) (X : option Z) (L : list Z) : Prop := {
  ci_geom : geom g k c;
  ci_meta : meta_ok g k c;
  ci_slabs : forall i, slab_ok (get_slots g k) (c_slabs c i);
  ci_link : linked c P E F;
  ci_match : matched g k c P E F X;
  ci_quar : quar_ok g k c L;
  ci_pages : pages_ok g k o c (active c E X);
  ci_etot : c_empty_total c = slab_size_of g k * zlen E;
  ci_rng : rng_ok (c_rng c);
  ci_fq : zlen (c_fq c) = FREE_SLABS_QUARANTINE_RANDOM_LENGTH g
}.
(** slabs that hold memory, and the statistics counter that counts their bytes *)
Definition nact (g : config) (c : size_class) (F : list Z) : Z := nslabs g c - zlen F - zlen (somes (c_fq c)).
Definition stat_ok (g : config) (k : Z) (c : size_class) (F : list Z) : Prop :=
  STATS g = true -> c_slab_allocated c = w64 (slab_size_of g k * nact g c F).
(** between operations; [E]: cached empty slabs, [F]: purged slabs in reuse order *)
Definition cinvL (g : config) (k : Z) (o : os) (c : size_class) (E F : list Z) : Prop := exists P, cinvX g k o c P E F None [] /\ stat_ok g k c F.
Definition cinv (g : config) (k : Z) (o : os) (c : size_class) : Prop := exists E F, cinvL g k o c E F.

(** ** configuration facts *)
Record ucfg (g : config) : Prop := {
  uc_crs : 1048576 <= CLASS_REGION_SIZE g <= 1099511627776;
  uc_crsm : CLASS_REGION_SIZE g mod 4096 = 0;
  uc_gi : 1 <= GUARD_SLABS_INTERVAL g < 2 ^ 31;
  uc_gd : 1 <= GUARD_SIZE_DIVISOR g < 2 ^ 31;
  uc_fsq : 1 <= FREE_SLABS_QUARANTINE_RANDOM_LENGTH g < 65535;
  uc_rr : 0 <= REGION_QUARANTINE_RANDOM_LENGTH g <= 65536;
  uc_rq : 0 <= REGION_QUARANTINE_QUEUE_LENGTH g <= 65536;
  uc_sr : 0 <= SLAB_QUARANTINE_RANDOM_LENGTH g <= 65536;
  uc_sq : 0 <= SLAB_QUARANTINE_QUEUE_LENGTH g <= 65536;
  uc_skip : 0 <= REGION_QUARANTINE_SKIP_THRESHOLD g <= 33554432;
  uc_ar : 1 <= N_ARENA g <= 256;
  uc_off : OFF_REGIONS_A g mod 4096 = 0 /\ 4096 <= OFF_REGIONS_A g <= 2 ^ 48;
  uc_waf : WRITE_AFTER_FREE_CHECK g = true -> ZERO_ON_FREE g = true
}.
Lemma ucfg_of g : usable_config g = true -> ucfg g.
Proof.
  intros U. unfold usable_config, static_asserts, in_range in U. change MREMAP_MOVE_THRESHOLD with 33554432 in U.
  repeat match goal with H : _ && _ = true |- _ => apply andb_prop in H; destruct H end.
  constructor; try lia. intros W. rewrite W in *. cbn in *. assumption.
Qed.

(** ** geometry *)
Section Geom.
Context (g : config) (k : Z) (c : size_class) (G : geom g k c).
Local Notation n := (get_slots g k).
Local Notation sz := (slot_size g k).
Local Notation b := (slab_size_of g k).
Let CF : class_facts g k := class_facts_all g k (ge_k _ _ _ G).
Let UC : ucfg g := ucfg_of g (ge_u _ _ _ G).

Lemma meta_max_bounds : 8 <= get_metadata_max g b <= 2 ^ 28 /\ get_metadata_max g b * b <= CLASS_REGION_SIZE g.
Proof.
  pose proof CF as []. pose proof UC as []. unfold get_metadata_max.
  pose proof (Z.mul_div_le (CLASS_REGION_SIZE g) b ltac:(lia)). split; [split|lia].
  - apply Z.div_le_lower_bound; lia.
  - transitivity (CLASS_REGION_SIZE g / 4096).
    + apply Z.div_le_compat_l; lia.
    + apply Z.div_le_upper_bound; [lia|]. change (4096 * 2 ^ 28) with 1099511627776. lia.
Qed.
Lemma class_size_0 : (class_size g k =? 0) = (k =? 0).
Proof. pose proof CF as []. rewrite cf_size. destruct (Z.eqb_spec k 0); lia. Qed.

Lemma slab_in_region i : 0 <= i < get_metadata_max g b -> c_start c <= slabp g k c i /\ slabp g k c i + b <= c_start c + CLASS_REGION_SIZE g.
Proof.
  intros Hi. pose proof meta_max_bounds as [_ H]. pose proof CF as []. unfold slabp.
  assert ((i + 1) * b <= get_metadata_max g b * b) by (apply Z.mul_le_mono_nonneg_r; lia). nia.
Qed.
Lemma slabp_mod i : slabp g k c i mod 4096 = 0.
Proof.
  pose proof (ge_start _ _ _ G) as (_ & S & _). pose proof CF as []. unfold slabp.
  rewrite Z.add_mod, S by lia. rewrite Z.mul_mod, cf_bmod by lia. rewrite Z.mul_0_r. reflexivity.
Qed.
Lemma get_slab_eq i : 0 <= i < get_metadata_max g b -> get_slab c b i = slabp g k c i.
Proof.
  intros Hi. pose proof (slab_in_region i Hi) as [H1 H2]. pose proof (ge_start _ _ _ G) as (S1 & S2 & S3). pose proof CF as []. pose proof UC as [].
 unfold get_slab, slabp in *. change (2 ^ 47) with 140737488355328 in *.
  rewrite (w64_small (i * b)) by (change (2 ^ 64) with 18446744073709551616; lia).
  apply w64_small. change (2 ^ 64) with 18446744073709551616. lia.
Qed.
Lemma slot_pointer_eq i j : 0 <= i < get_metadata_max g b -> 0 <= j < 256 -> slot_pointer sz (slabp g k c i) j = sptr g k c i j.
Proof.
  intros Hi Hj. pose proof (slab_in_region i Hi) as [H1 H2]. pose proof (ge_start _ _ _ G) as (S1 & S2 & S3). pose proof CF as []. pose proof UC as [].
 unfold slot_pointer, sptr. change (2 ^ 47) with 140737488355328 in *.
  assert (0 <= j * sz <= 255 * 131072) by nia.
  rewrite (w64_small (j * sz)) by (change (2 ^ 64) with 18446744073709551616; lia).
  apply w64_small. change (2 ^ 64) with 18446744073709551616. lia.
Qed.
Lemma slot_in_slab i j : 0 <= j < n -> slabp g k c i <= sptr g k c i j /\ sptr g k c i j + sz <= slabp g k c i + b.
Proof.
  intros Hj. pose proof CF as []. unfold sptr.
  assert (0 <= j * sz) by nia. assert ((j + 1) * sz <= n * sz) by (apply Z.mul_le_mono_nonneg_r; lia). lia.
Qed.
Lemma block_unique b0 i i' y : 0 < b0 -> i * b0 <= y < i * b0 + b0 -> i' * b0 <= y < i' * b0 + b0 -> i = i'.
Proof. intros. rewrite (Z.div_unique y b0 i (y - i * b0)), (Z.div_unique y b0 i' (y - i' * b0)); lia. Qed.
(** the slots of a class do not overlap *)
Lemma sptr_apart i j i' j' x : 0 <= j < n -> 0 <= j' < n ->
  sptr g k c i j <= x < sptr g k c i j + sz -> sptr g k c i' j' <= x < sptr g k c i' j' + sz -> i = i' /\ j = j'.
Proof.
  intros Hj Hj' H H'. pose proof (slot_in_slab i j Hj). pose proof (slot_in_slab i' j' Hj'). pose proof CF as [].
  clear cf_fit cf_bits cf_tail cf_ext.
  unfold sptr, slabp in *. assert (i = i') as <-. { apply (block_unique b i i' (x - c_start c)); lia. }
  split; [auto|]. apply (block_unique sz j j' (x - c_start c - i * b)); lia.
Qed.
Lemma sptr_inj i j i' j' : 0 <= j < n -> 0 <= j' < n -> sptr g k c i j = sptr g k c i' j' -> i = i' /\ j = j'.
Proof. intros. pose proof CF as []. apply (sptr_apart i j i' j' (sptr g k c i j)); auto; lia. Qed.
Lemma sptr_nz i j : 0 <= i -> 0 <= j -> sptr g k c i j <> 0.
Proof.
  intros. pose proof (ge_start _ _ _ G) as (S1 & _). pose proof CF as [].
  unfold sptr, slabp. nia.
Qed.

Lemma div_slab x : 0 <= x < 2 ^ 64 -> libdivide_u64_do x (c_slab_div c) = x / b.
Proof.
  intros Hx. pose proof (ge_d1 _ _ _ G) as D1; pose proof (ge_d2 _ _ _ G) as D2. pose proof CF as []. unfold libdivide_u64_gen in D2.
  destruct (libdivide_correct 64 b x) as (dv & E1 & E2); [auto|change (2 ^ 64) with 18446744073709551616; lia|auto|].
  unfold libdivide_u64_do. congruence.
Qed.
Lemma div_slot x : 0 <= x < 2 ^ 32 -> libdivide_u32_do x (c_size_div c) = x / sz.
Proof.
  intros Hx. pose proof (ge_d1 _ _ _ G) as D1; pose proof (ge_d2 _ _ _ G) as D2. pose proof CF as []. unfold libdivide_u32_gen in D1.
  destruct (libdivide_correct 32 sz x) as (dv & E1 & E2); [auto|change (2 ^ 32) with 4294967296; lia|auto|].
  unfold libdivide_u32_do. congruence.
Qed.

(** pages of slabs *)
Lemma in_slab_addr i x : in_slab g k c i (page_of x) <-> slabp g k c i <= x < slabp g k c i + b.
Proof. unfold in_slab. apply in_pages_aligned; [apply slabp_mod|]. pose proof CF as []. assumption. Qed.
Lemma in_slab_page i q : in_slab g k c i q <-> slabp g k c i <= q * 4096 < slabp g k c i + b.
Proof.
  unfold in_slab. pose proof (slabp_mod i) as M. pose proof CF as [].
  rewrite in_pages_spec. unfold page_of.
  pose proof (Z.div_mod (slabp g k c i) 4096 ltac:(lia)) as D1. pose proof (Z.div_mod b 4096 ltac:(lia)) as D2.
  rewrite M in D1. rewrite cf_bmod in D2. set (A := slabp g k c i / 4096) in *. set (B := b / 4096) in *.
  assert ((slabp g k c i + b + 4095) / 4096 = A + B) as ->.
  { symmetry. apply (Z.div_unique _ 4096 (A + B) 4095); lia. }
  lia.
Qed.
Lemma in_class_page q : in_class g c q <-> c_start c <= q * 4096 < c_start c + CLASS_REGION_SIZE g.
Proof.
  unfold in_class. pose proof (ge_start _ _ _ G) as (S1 & M & S3). pose proof UC as [].
  rewrite in_pages_spec. unfold page_of.
  pose proof (Z.div_mod (c_start c) 4096 ltac:(lia)) as D1. pose proof (Z.div_mod (CLASS_REGION_SIZE g) 4096 ltac:(lia)) as D2.
  rewrite M in D1. rewrite uc_crsm0 in D2. set (A := c_start c / 4096) in *. set (B := CLASS_REGION_SIZE g / 4096) in *.
  assert ((c_start c + CLASS_REGION_SIZE g + 4095) / 4096 = A + B) as ->.
  { symmetry. apply (Z.div_unique _ 4096 (A + B) 4095); lia. }
  lia.
Qed.
Lemma in_class_addr x : in_class g c (page_of x) <-> c_start c <= x < c_start c + CLASS_REGION_SIZE g.
Proof. unfold in_class. apply in_pages_aligned; [apply G|]. pose proof UC as []. assumption. Qed.
Lemma slab_class i q : 0 <= i < get_metadata_max g b -> in_slab g k c i q -> in_class g c q.
Proof.
  intros Hi H. apply in_slab_page in H. apply in_class_page. pose proof (slab_in_region i Hi). lia.
Qed.
Lemma slabs_apart i j q : in_slab g k c i q -> in_slab g k c j q -> i = j.
Proof.
  intros H1 H2. apply in_slab_page in H1, H2. pose proof CF as []. unfold slabp in *. nia.
Qed.
End Geom.
