(** Size class: specification of allocate_small. *)
From Coq Require Import String ZArith List Bool Lia ZifyBool.
From Verif Require Import M_Base M_Config M_SizeClass M_Libdivide M_OS M_Random M_Slab
  P_Base P_Count P_SizeClass P_Libdivide P_Random P_Bitmap P_Bitmap2 P_OS P_Links P_Slab1 P_Slab2 P_Slab3 P_Slab4.
Import ListNotations.
Open Scope Z_scope.
Ltac Zify.zify_post_hook ::= idtac.

(** slot j of slab i was handed out *)
Record alloc_post (g : config) (k : Z) (o : os) (c : size_class) (o' : os) (c' : size_class) (i j : Z) : Prop := {
  ap_j : 0 <= j < get_slots g k;
  ap_i : is_slab g c' i;
  ap_free : used c i j = false;
  ap_used : forall i' j', 0 <= j' < 256 -> used c' i' j' = used c i' j' || ((i' =? i) && (j' =? j));
  ap_mem : forall x, mem o' x =
     if SLAB_CANARY g && negb (k =? 0) && ((sptr g k c i j + slot_size g k - 8 <=? x) && (x <? sptr g k c i j + slot_size g k))
     then byte_of (can c' i) (x - (sptr g k c i j + slot_size g k - 8)) else mem o x;
  ap_zero : k <> 0 -> WRITE_AFTER_FREE_CHECK g = true \/ cntof c i = 0 /\ c_empty c = None ->
     forall x, sptr g k c i j <= x < sptr g k c i j + slot_size g k - canary_size g -> mem o x = 0;
  ap_errno : errno o' = errno o \/ errno o' = EINTR;
  ap_st : STATS g = true -> c_nmalloc c' = w64 (c_nmalloc c + 1) /\ c_ndalloc c' = c_ndalloc c /\ c_allocated c' = w64 (c_allocated c + slot_size g k)
}.

Section P5.
Context (g : config) (k : Z).
Local Notation n := (get_slots g k).
Local Notation sz := (slot_size g k).
Local Notation b := (slab_size_of g k).

(** a change of the statistics only *)
Record only_stats (c c' : size_class) : Prop := {
  os_f : c' = mkClass (c_start c) (c_info c) (c_size_div c) (c_slab_div c) (c_qrandom c) (c_qqueue c) (c_qqidx c) (c_partial c) (c_empty c)
     (c_empty_total c) (c_fhead c) (c_ftail c) (c_fq c) (c_nmalloc c') (c_ndalloc c') (c_allocated c') (c_slab_allocated c') (c_rng c) (c_mallocated c) (c_mcount c) (c_munguarded c) (c_slabs c)
}.
Lemma cinvX_stats o c c' P E F X L : only_stats c c' -> cinvX g k o c P E F X L -> cinvX g k o c' P E F X L.
Proof.
  intros [OS] I. pose proof I as [G Me Sl Li Ma Qu Pg Et Rn Fq]. rewrite OS. constructor; auto; try fr.
  - eapply linked_ext; [..|exact Li]; reflexivity.
  - eapply matched_ext; [..|exact Ma]; reflexivity.
  - eapply pages_ext; [..|exact Pg]; auto; reflexivity.
Qed.
Lemma only_stats_same c c' : only_stats c c' -> csame g k c c' /\ c_slabs c' = c_slabs c /\ forall F, nact g c' F = nact g c F.
Proof.
  intros [OS]. rewrite OS. split; [|split; reflexivity]. constructor; reflexivity.
Qed.

(** the common end of all successful paths: statistics *)
Definition finish_stats (fresh : bool) (c : size_class) : size_class :=
  if STATS g then
    let c1 := if fresh then set_c_slab_allocated (w64 (c_slab_allocated c + b)) c else c in
    set_c_nmalloc (w64 (c_nmalloc c1 + 1)) (set_c_allocated (w64 (c_allocated c1 + sz)) c1)
  else c.
Lemma finish_only fresh c : only_stats c (finish_stats fresh c).
Proof. constructor. unfold finish_stats. destruct (STATS g); [destruct fresh; reflexivity|destruct c; reflexivity]. Qed.

Lemma finish_inv o c P E F i (fresh : bool) : cinvX g k o c P E F (Some i) [] -> 0 < cntof c i -> (In i P <-> cntof c i < n) ->
  (STATS g = true -> w64 (c_slab_allocated c + (if fresh then b else 0)) = w64 (b * nact g c F)) -> 0 <= c_slab_allocated c < 2 ^ 64 \/ STATS g = false ->
  cinvL g k o (finish_stats fresh c) E F.
Proof.
  intros I Hc HP HS HR. pose proof (finish_only fresh c) as OS. exists P. split.
  - eapply cinvX_stats; [exact OS|]. eapply cinvX_settle; eauto.
  - intros S. destruct (only_stats_same _ _ OS) as (_ & _ & ->). rewrite <- HS by auto. unfold finish_stats. rewrite S.
    destruct fresh; cbn; [reflexivity|]. destruct HR as [HR|HR]; [|congruence]. rewrite Z.add_0_r, w64_small; auto.
Qed.

(** fill a slot: check (unless the slab is fresh), canary *)
Lemma fill_wp o c P E F X L i j : cinvX g k o c P E F X L -> active c E X i -> 0 <= j < n ->
  wp (if negb (k =? 0) then c_sys (write_after_free_check g (sptr g k c i j) (sz - canary_size g));; set_canary g i (sptr g k c i j) sz else ret tt) (mkCst o c)
    (fun _ s' => s' = mkCst (canary_os g k (sptr g k c i j) (can c i) o) c /\
       (k <> 0 -> WRITE_AFTER_FREE_CHECK g = true -> forall x, sptr g k c i j <= x < sptr g k c i j + sz - canary_size g -> mem o x = 0))
    (waf_fault g k o (sptr g k c i j)).
Proof.
  intros I Ha Hj. destruct (Z.eqb_spec k 0) as [Ek|Hk]; cbn [negb].
  - apply wp_ret. split; [|contradiction]. unfold canary_os. replace (k =? 0) with true by lia. rewrite andb_false_r. reflexivity.
  - apply wp_bind. eapply wp_mono; [eapply waf_wp; eassumption| |auto]. intros _ s (-> & Hz).
    eapply wp_mono; [eapply set_canary_wp with (Er := fun _ => False); eassumption| |intros f []]. intros _ s' ->. auto.
Qed.
Lemma fill_wp' o c P E F X L i j (Er : fault -> Prop) : cinvX g k o c P E F X L -> active c E X i -> 0 <= j < n ->
  wp (if negb (k =? 0) then set_canary g i (sptr g k c i j) sz else ret tt) (mkCst o c)
    (fun _ s' => s' = mkCst (canary_os g k (sptr g k c i j) (can c i) o) c) Er.
Proof.
  intros I Ha Hj. destruct (Z.eqb_spec k 0) as [Ek|Hk]; cbn [negb].
  - apply wp_ret. unfold canary_os. replace (k =? 0) with true by lia. rewrite andb_false_r. reflexivity.
  - eapply set_canary_wp; eassumption.
Qed.
Lemma small_stats_wp c o (Q : unit -> cstate -> Prop) Er : Q tt (mkCst o (finish_stats false c)) -> wp (stats_small_allocate g sz) (mkCst o c) Q Er.
Proof. unfold stats_small_allocate, finish_stats. destruct (STATS g); intros H; [apply upd_c_wp|apply wp_ret]; exact H. Qed.
Lemma fresh_stats_wp c o (Q : unit -> cstate -> Prop) Er :
  Q tt (mkCst o (finish_stats true c)) -> wp (stats_slab_allocate g b;; stats_small_allocate g sz) (mkCst o c) Q Er.
Proof.
  unfold stats_slab_allocate, stats_small_allocate, finish_stats. destruct (STATS g); intros H.
  - apply wp_bind, upd_c_wp, upd_c_wp. exact H.
  - apply wp_bind, wp_ret, wp_ret. exact H.
Qed.

Definition alloc_fault (o : os) (c : size_class) (f : fault) : Prop :=
  sys_fault f \/ rng_fault f \/ exists i j, is_slab g c i /\ 0 <= j < n /\ used c i j = false /\ waf_fault g k o (sptr g k c i j) f.
(** where the slab of the slot came from *)
Definition alloc_lists (E F E' F' : list Z) (i : Z) : Prop :=
  (E' = E /\ F' = F) \/ (E = i :: E' /\ F' = F) \/ (E = [] /\ E' = [] /\ F = i :: F').
Definition alloc_spec (o : os) (c : size_class) (E F : list Z) (r : option Z) (s' : cstate) : Prop :=
  exists o' c' E' F', s' = mkCst o' c' /\ cinvL g k o' c' E' F' /\ os_in (cdom g c) o o' /\ csame g k c c' /\
    match r with
    | Some p => exists i j, p = sptr g k c i j /\ alloc_post g k o c o' c' i j /\ alloc_lists E F E' F' i
    | None => E' = E /\ F' = F /\ errno o' = ENOMEM /\ (forall i j, used c' i j = used c i j) /\ sstats c c' /\ (forall x, mem o' x = mem o x) /\
              (get_metadata_max g b <= c_mcount c \/ refused o o')
    end.

(** last step of a successful path *)
Lemma finish_post o c o1 c1 E0 F0 P E F i j (fresh : bool) : (* c1: after the slot has been taken *)
  alloc_lists E0 F0 E F i ->
  cinvX g k o1 c1 P E F (Some i) [] -> 0 < cntof c1 i -> (In i P <-> cntof c1 i < n) -> csame g k c c1 -> sstats c c1 ->
  (STATS g = true -> w64 (c_slab_allocated c + (if fresh then b else 0)) = w64 (b * nact g c1 F)) -> (STATS g = true -> 0 <= c_slab_allocated c < 2 ^ 64) ->
  os_in (cdom g c) o o1 -> 0 <= j < n -> used c i j = false ->
  (forall i' j', 0 <= j' < 256 -> used c1 i' j' = used c i' j' || ((i' =? i) && (j' =? j))) ->
  (forall x, mem o1 x = mem o x) -> (errno o1 = errno o \/ errno o1 = EINTR) ->
  (k <> 0 -> WRITE_AFTER_FREE_CHECK g = true \/ cntof c i = 0 /\ c_empty c = None ->
     forall x, sptr g k c i j <= x < sptr g k c i j + slot_size g k - canary_size g -> mem o x = 0) ->
  alloc_spec o c E0 F0 (Some (sptr g k c i j)) (mkCst (canary_os g k (sptr g k c i j) (can c1 i) o1) (finish_stats fresh c1)).
Proof.
  intros AL I Hc HP CS SS HST HSR OI Hj Hu HU HM HE HZ.
  pose proof (cs_start _ _ _ _ CS) as Es. assert (active c1 E (Some i) i) as Ha by (right; right; auto).
  pose proof (active_slab g k _ _ _ _ _ _ _ _ I Ha) as Is.
  do 4 eexists. split; [reflexivity|]. pose proof (finish_only fresh c1) as OS. destruct (only_stats_same _ _ OS) as (S1 & S2 & S3).
  assert (sptr g k c i j = sptr g k c1 i j) as Ep by (symmetry; apply sptr_ext; auto).
  split; [|split; [|split]].
  - apply finish_inv with (P := P) (E := E) (F := F) (i := i); auto.
    + rewrite Ep. apply canary_os_inv with (i := i); auto.
    + destruct SS as (_ & _ & _ & ->). exact HST.
    + destruct (STATS g) eqn:St; [left|auto]. destruct SS as (_ & _ & _ & ->). auto.
  - eapply os_in_trans; [exact OI|]. rewrite Ep. eapply canary_os_in; try eassumption. intros q Hq. left. unfold in_class in *. rewrite <- Es. exact Hq.
  - eapply csame_trans; eassumption.
  - exists i, j. split; [auto|]. split; [|exact AL]. constructor; auto.
    + destruct OS as [->]. exact Is.
    + intros i' j' Hj'. unfold used in *. rewrite S2. auto.
    + intros x. rewrite canary_os_mem. unfold can. rewrite S2, HM. reflexivity.
    + unfold canary_os. destruct (_ && _); auto.
    + intros St. unfold finish_stats. rewrite St. destruct SS as (S4 & S5 & S6 & _). rewrite <- S4, <- S5, <- S6.
      destruct fresh; cbn; auto.
Qed.

Lemma os_rel_errno o o' : os_rel o o' -> errno o' = errno o \/ errno o' = EINTR. Proof. intros []; tauto. Qed.

Ltac wpb := apply wp_bind.

(** changing protection of mapped pages fails only if the kernel says so *)
Lemma protect_mapped_wp p size o : pages_all is_mapped o p size = true ->
  wp (memory_protect_prot p size PRW) o
    (fun failed o' => if failed then o' = failed_os o /\ refused o o' else o' = protected_os p size PRW o) sys_fault.
Proof.
  intros M. eapply wp_mono; [apply wp_conj; [apply memory_protect_wp|apply protect_reason]| |].
  - intros [|] o' (H1 & H2); cbn beta iota in *.
    + split; [exact H1|]. destruct (H2 eq_refl) as [R|R]; [|congruence]. exists (sysn o). subst o'. cbn. split; [lia|exact R].
    + apply H1.
  - intros f [H _]. exact H.
Qed.
Lemma fresh_none o c P E F X L i q : cinvX g k o c P E F X L -> ~ active c E X i -> 0 <= i < get_metadata_max g b -> in_slab g k c i q ->
  pages o q = Some PNone.
Proof.
  intros I Na Hi Hq. pose proof (ci_geom _ _ _ _ _ _ _ _ _ I) as G. apply (pg_none _ _ _ _ _ (ci_pages _ _ _ _ _ _ _ _ _ I)).
  - eapply slab_class; eassumption.
  - intros i' Ha Hq'. assert (i = i') by (eapply slabs_apart; eassumption). congruence.
Qed.
Lemma fresh_zero o c P E F X L i x : cinvX g k o c P E F X L -> ~ active c E X i -> 0 <= i < get_metadata_max g b ->
  slabp g k c i <= x < slabp g k c i + b -> mem o x = 0.
Proof.
  intros I Na Hi Hx. pose proof (ci_geom _ _ _ _ _ _ _ _ _ I) as G.
  assert (in_slab g k c i (page_of x)) as Hs by (apply (in_slab_addr g k c G); lia).
  apply (pg_zero _ _ _ _ _ (ci_pages _ _ _ _ _ _ _ _ _ I)); [eapply slab_class; eassumption|eapply fresh_none; eassumption].
Qed.
Lemma unlock_slab_wp o c P E F X L i : cinvX g k o c P E F X L -> ~ active c E X i -> 0 <= i < get_metadata_max g b ->
  wp (if negb (k =? 0) then c_sys (memory_protect_rw (slabp g k c i) b) else ret false) (mkCst o c)
    (fun failed s' => exists o', s' = mkCst o' c /\ os_in (cdom g c) o o' /\ (forall x, mem o' x = mem o x) /\
       if failed : bool then errno o' = ENOMEM /\ refused o o' /\ pages o' = pages o
       else errno o' = errno o /\
         (if k =? 0 then pages o' = pages o else forall q, pages o' q = if in_pages (slabp g k c i) b q then Some PRW else pages o q)) sys_fault.
Proof.
  intros I Na Hi. pose proof (ci_geom _ _ _ _ _ _ _ _ _ I) as G. destruct (Z.eqb_spec k 0) as [Ek|Hk]; cbn [negb].
  - apply wp_ret. exists o. split; [auto|]. split; [apply os_in_refl|]. auto.
  - apply c_sys_wp. eapply wp_mono; [apply protect_mapped_wp| |auto]; cbn [cs_os cs_c].
    + apply pages_all_spec. intros q Hq. rewrite (fresh_none _ _ _ _ _ _ _ _ _ I Na Hi Hq). reflexivity.
    + intros [|] o'; cbn beta iota.
      * intros [-> R]. eexists. split; [reflexivity|]. split; [apply os_in_failed|]. split; [reflexivity|]. auto.
      * intros ->. eexists. split; [reflexivity|]. split; [|split; [reflexivity|]; split; [reflexivity|]; intros; reflexivity].
        apply os_in_protected. intros q Hq. left. eapply slab_class; eassumption.
Qed.

Lemma slab_canary_wp o c P E F X L i : cinvX g k o c P E F X L -> cntof c i = 0 -> 0 <= i < c_mallocated c ->
  wp (set_slab_canary_value g i) (mkCst o c)
    (fun _ s' => exists o' c', s' = mkCst o' c' /\ os_rel o o' /\ cinvX g k o' c' P E F X L /\ csame g k c c' /\ sstats c c' /\
       (forall i' j', used c' i' j' = used c i' j') /\ (forall x, cntof c' x = cntof c x) /\ nact g c' F = nact g c F /\
       (forall x, nxt c' x = nxt c x) /\ (forall x, prv c' x = prv c x) /\ c_mcount c' = c_mcount c /\ c_mallocated c' = c_mallocated c) rng_fault.
Proof.
  intros I H0 Hi. unfold set_slab_canary_value. destruct (SLAB_CANARY g).
  - wpb. apply c_rand_wp. eapply wp_mono; [apply get_random_u64_ok; cbn; apply I| |auto]. cbn [cs_c cs_os r_os r_rng].
    intros v r (Hv & R & O). apply upd_md_wp; [exact Hi|]. cbn [cs_c cs_os].
    pose proof (cinvX_rng g k _ _ c _ _ _ _ _ _ O R I) as I1.
    assert (0 <= Z.land v (SIZE_MAX - 255) < 2 ^ 64 /\ Z.land v (SIZE_MAX - 255) mod 256 = 0) as [V1 V2].
    { change (SIZE_MAX - 255) with (Z.shiftl (Z.ones 56) 8).
      assert (Z.land v (Z.shiftl (Z.ones 56) 8) = Z.shiftl (Z.land (Z.shiftr v 8) (Z.ones 56)) 8) as ->.
      { apply Z.bits_inj'. intros t Ht. rewrite Z.land_spec, !Z.shiftl_spec, Z.land_spec by lia.
        destruct (Z.lt_ge_cases (t - 8) 0); [rewrite !(Z.testbit_neg_r _ (t - 8)) by lia; now rewrite andb_false_r|].
        rewrite Z.shiftr_spec by lia. do 2 f_equal. lia. }
      rewrite Z.land_ones, Z.shiftl_mul_pow2 by lia. change (2 ^ 8) with 256.
      pose proof (Z.mod_pos_bound (Z.shiftr v 8) (2 ^ 56) ltac:(lia)). change (2 ^ 56) with 72057594037927936 in *. change (2 ^ 64) with 18446744073709551616.
      split; [lia|]. apply Z.mod_mul. lia. }
    destruct (cinvX_canary g k _ _ _ _ _ _ _ i _ I1 V1 V2 H0) as (I2 & CS & SS & U & _ & C & Na).
    do 2 eexists. split; [reflexivity|]. split; [exact O|]. split; [exact I2|].
    split; [destruct CS; constructor; auto|]. split; [exact SS|]. split; [exact U|]. split; [exact C|]. split; [exact Na|]. repeat split; vw.
  - apply wp_ret. exists o, c. split; [auto|]. split; [apply os_rel_refl|]. split; [auto|]. split; [apply csame_refl|]. repeat split.
Qed.

Lemma fresh_tail o c o2 c2 F0 F i : (F0 = i :: F \/ F0 = F) -> geom g k c -> 0 <= i < get_metadata_max g b ->
  cinvX g k o2 c2 (if 1 <? n then [i] else []) [] F (Some i) [] -> cntof c2 i = 0 -> csame g k c c2 -> sstats c c2 ->
  (forall i' j', used c2 i' j' = used c i' j') ->
  (STATS g = true -> w64 (c_slab_allocated c + b) = w64 (b * nact g c2 F)) -> (STATS g = true -> 0 <= c_slab_allocated c < 2 ^ 64) ->
  os_in (cdom g c) o o2 -> (forall x, mem o2 x = mem o x) -> (errno o2 = errno o \/ errno o2 = EINTR) ->
  (forall x, slabp g k c i <= x < slabp g k c i + b -> mem o x = 0) ->
  wp (let! slot := take_slot g n i in
      (if negb (k =? 0) then set_canary g i (slot_pointer sz (get_slab c b i) slot) sz else ret tt);;
      stats_slab_allocate g b;; stats_small_allocate g sz;; ret (Some (slot_pointer sz (get_slab c b i) slot))) (mkCst o2 c2) (alloc_spec o c [] F0) (alloc_fault o c).
Proof.
  intros HF0 G Hi I C0 CS SS U HST HSR OI HM HE HZ. pose proof (class_facts_all g k (ge_k _ _ _ G)) as CFa. pose proof CFa as [].
  rewrite (get_slab_eq g k c G) by lia.
  wpb. eapply wp_mono; [eapply take_slot_wp; [exact I|lia]| |].
  2:{ intros f Hf. right; left; exact Hf. }
  intros j s (Hj & Hu & o1 & c1 & -> & Or & I2 & C2 & U2 & CS2 & SS2 & Na & Cn).
  rewrite (slot_pointer_eq g k c G) by lia. rewrite U in Hu.
  pose proof (csame_trans _ _ _ _ _ CS CS2) as CS'.
  assert (sptr g k c i j = sptr g k c1 i j) as Ep by (symmetry; apply sptr_ext, CS').
  wpb. rewrite Ep. eapply wp_mono; [eapply fill_wp' with (Er := fun _ => False); [exact I2|right; right; reflexivity|exact Hj]| |intros f []].
  intros _ s' ->. wpb.
  assert (wp (stats_slab_allocate g b;; stats_small_allocate g sz) (mkCst (canary_os g k (sptr g k c1 i j) (can c1 i) o1) c1)
    (fun _ s' => s' = mkCst (canary_os g k (sptr g k c1 i j) (can c1 i) o1) (finish_stats true c1)) (fun _ => False)) as W by (apply fresh_stats_wp; reflexivity).
  unfold wp, bind in W |- *. destruct (stats_slab_allocate g b _) as [[[] s1]|]; [|contradiction].
  destruct (stats_small_allocate g sz s1) as [[[] s2]|]; [|contradiction]. subst s2. cbn. rewrite <- Ep.
  pose proof (sstats_trans _ _ _ SS SS2) as SS'.
  apply finish_post with (P := if 1 <? n then [i] else []) (E := []) (F := F); auto.
  - unfold alloc_lists. destruct HF0 as [-> | ->]; auto.
  - lia.
  - rewrite C2, C0. destruct (Z.ltb_spec 1 n); cbn; [lia|]. intuition lia.
  - rewrite Na. auto.
  - eapply os_in_trans; [exact OI|]. apply os_in_rel. exact Or.
  - intros i' j' Hj'. rewrite U2, U by auto. auto.
  - intros x. destruct Or. rewrite or_mem. auto.
  - destruct Or. intuition congruence.
  - intros Hk _ x Hx. apply HZ. pose proof (slot_in_slab g k c G i j Hj). assert (0 <= canary_size g) by (unfold canary_size; destruct (SLAB_CANARY g); lia). lia.
Qed.
Lemma cinvX_osd o o' c P E F X L : cinvX g k o c P E F X L -> (forall q, in_class g c q -> pages o' q = pages o q) ->
  (forall x, mem o' x = mem o x) -> (forall q, pages o q <> None -> pages o' q <> None) -> cinvX g k o' c P E F X L.
Proof.
  intros I Hp Hm Hn. pose proof I as [G Me Sl Li Ma Qu Pg Et Rn Fq]. constructor; auto. destruct Pg. constructor.
  - intros i q Ha Hq. rewrite Hp; [exact (pg_act i q Ha Hq)|]. eapply slab_class; [exact G| |exact Hq].
    pose proof (active_slab g k _ _ _ _ _ _ _ _ I Ha) as Is. destruct (slab_range g k o c _ _ _ _ _ i I Is). destruct Is as [[? _] _]. lia.
  - intros q Hq Hi. rewrite Hp by auto. auto.
  - intros x Hx Px. rewrite Hm. apply pg_zero; [auto|]. rewrite <- Hp; auto.
  - intros q Hq. auto.
Qed.
Lemma set_mallocated_id c : set_c_mallocated (c_mallocated c) c = c. Proof. destruct c; reflexivity. Qed.

Lemma alloc_metadata_wp o c : cinvX g k o c [] [] [] None [] ->
  wp (alloc_metadata g b (negb (k =? 0))) (mkCst o c)
    (fun om s' => exists o' c', s' = mkCst o' c' /\ os_in (cdom g c) o o' /\ (forall x, mem o' x = mem o x) /\ csame g k c c' /\ sstats c c' /\
       (forall i' j', used c' i' j' = used c i' j') /\
       match om with
       | None => cinvX g k o' c' [] [] [] None [] /\ errno o' = ENOMEM /\ (get_metadata_max g b <= c_mcount c \/ refused o o') /\ nact g c' [] = nact g c []
       | Some i => i = c_mcount c /\ 0 <= i < get_metadata_max g b /\ cinvX g k o' c' [] [] [] (Some i) [] /\ cntof c' i = 0 /\ errno o' = errno o /\
           nact g c' [] = nact g c [] + 1 /\ nxt c' i = None /\ prv c' i = None /\ 0 <= i < c_mallocated c'
       end) sys_fault.
Proof.
  intros I. pose proof I as [G Me Sl Li Ma Qu Pg Et Rn Fq]. pose proof (class_facts_all g k (ge_k _ _ _ G)) as CFa. pose proof CFa as [].
  pose proof (meta_max_bounds g k c G) as [[K1 K2] _]. change (2 ^ 28) with 268435456 in K2. pose proof (sizeof_bounds g) as SB.
  pose proof Me as []. unfold alloc_metadata. wpb. apply wp_gets. cbn [cs_c].
  wpb. eapply wp_mono with (Q := fun (ok : bool) s => exists o1, os_in (cdom g c) o o1 /\ (forall x, mem o1 x = mem o x) /\ (forall q, in_class g c q -> pages o1 q = pages o q) /\
     if ok then errno o1 = errno o /\ exists a, s = mkCst o1 (set_c_mallocated a c) /\ c_mallocated c <= a <= get_metadata_max g b /\ Z.min 42 (get_metadata_max g b) <= a /\ c_mcount c < a
     else s = mkCst o1 c /\ errno o1 = ENOMEM /\ (get_metadata_max g b <= c_mcount c \/ refused o o1)) (E := sys_fault).
  - destruct (Z.leb_spec (c_mallocated c) (c_mcount c)) as [Grow|Have].
    + destruct (Z.leb_spec (get_metadata_max g b) (c_mcount c)) as [Full|Room].
      * wpb. apply c_sys_wp, wp_modify, wp_ret. cbn [cs_os cs_c]. exists (set_errno ENOMEM o). split; [apply os_in_errno|]. cbn. auto 8.
      * set (a := if get_metadata_max g b <? Z.max (w64 (c_mallocated c * 2)) (PAGE_SIZE / sizeof_slab_metadata g) then get_metadata_max g b
                  else Z.max (w64 (c_mallocated c * 2)) (PAGE_SIZE / sizeof_slab_metadata g)).
        assert (w64 (c_mallocated c * 2) = c_mallocated c * 2) as W by (apply w64_small; change (2 ^ 64) with 18446744073709551616; lia).
        assert (42 <= PAGE_SIZE / sizeof_slab_metadata g) as P42 by (apply Z.div_le_lower_bound; unfold PAGE_SIZE; lia).
        assert (c_mallocated c <= a <= get_metadata_max g b /\ Z.min 42 (get_metadata_max g b) <= a /\ c_mcount c < a) as (A1 & A2 & A3).
        { unfold a. rewrite W. destruct (Z.ltb_spec (get_metadata_max g b) (Z.max (c_mallocated c * 2) (PAGE_SIZE / sizeof_slab_metadata g))); lia. }
        pose proof (metadata_fits g k c a G ltac:(lia)) as MF.
        assert (w64 (a * sizeof_slab_metadata g) = a * sizeof_slab_metadata g) as W2 by (apply w64_small; change (2 ^ 64) with 18446744073709551616; nia).
        rewrite W2. assert (forall q, in_pages (c_info c) (a * sizeof_slab_metadata g) q = true -> in_pages (c_info c) (sizeof_slab_info_mapping g) q = true) as Sub.
        { intros q. apply in_pages_sub; lia. }
        wpb. apply c_sys_wp. cbn [cs_os cs_c]. eapply wp_mono; [apply protect_mapped_wp| |auto].
        { apply pages_all_spec. intros q Hq. apply Sub, (pg_meta _ _ _ _ _ Pg) in Hq. destruct (pages o q); [reflexivity|congruence]. }
        intros [|] o'; cbn beta iota.
        -- intros [-> R]. apply wp_ret. eexists. split; [apply os_in_failed|]. split; [reflexivity|]. split; [reflexivity|]. auto.
        -- intros ->. wpb. apply upd_c_wp, wp_ret. cbn [cs_os cs_c]. exists (protected_os (c_info c) (a * sizeof_slab_metadata g) PRW o). split; [|split; [reflexivity|]; split; [|split; [reflexivity|]; exists a; split; [reflexivity|]; auto]].
           ++ apply os_in_protected. intros q Hq. right. auto.
           ++ intros q Hq. cbn. destruct (in_pages (c_info c) (a * sizeof_slab_metadata g) q) eqn:Eq; [|reflexivity].
              apply Sub in Eq. rewrite (ge_dj _ _ _ G q Hq) in Eq. discriminate.
    + apply wp_ret. exists o. split; [apply os_in_refl|]. split; [reflexivity|]. split; [reflexivity|]. split; [reflexivity|].
      exists (c_mallocated c). rewrite set_mallocated_id. split; [reflexivity|]. lia.
  - intros [|] s (o1 & OI & HM & HP & Hs); cbn [negb].
    + destruct Hs as (He & a & -> & A1 & A2 & A3). wpb. apply wp_gets. cbn [cs_c].
      assert (cinvX g k o1 (set_c_mallocated a c) [] [] [] None []) as I1.
      { apply cinvX_mallocated; auto. eapply cinvX_osd; eauto. apply OI. }
      pose proof (ci_geom _ _ _ _ _ _ _ _ _ I1) as G1.
      cbn [c_mcount set_c_mallocated]. rewrite (get_slab_eq g k _ G1) by lia.
      assert (0 <= c_mcount c < get_metadata_max g b) as Hi by lia.
      assert (cntof c (c_mcount c) = 0) as C0.
      { pose proof (slab_ok_0 g k c (c_mcount c) Sl). destruct (Z.eq_dec (cntof c (c_mcount c)) 0); [auto|]. destruct (ma_s _ _ _ _ _ _ _ Ma (c_mcount c)) as [? _]; [lia|lia]. }
      wpb. eapply wp_mono; [eapply unlock_slab_wp with (i := c_mcount c); [exact I1| |exact Hi]| |auto].
      { intros [H|[H|H]]; [|destruct H|discriminate]. change (cntof (set_c_mallocated a c) (c_mcount c)) with (cntof c (c_mcount c)) in H. lia. }
      intros [|] s (o2 & -> & OI2 & HM2 & Hs2); cbn beta iota.
      * destruct Hs2 as (E2 & R2 & P2). apply wp_ret. do 2 eexists. split; [reflexivity|].
        assert (os_in (cdom g c) o o2) as OI' by (eapply os_in_trans; [exact OI|exact OI2]).
        split; [exact OI'|]. split; [intros; rewrite HM2; auto|]. split; [constructor; try reflexivity|]. split; [repeat split|]. split; [reflexivity|].
        split; [|split; [exact E2|]; split; [|reflexivity]].
        -- eapply cinvX_os; [| |exact I1]; [intros; now rewrite P2|auto].
        -- right. destruct R2 as (t & Ht & Rt). exists t. destruct OI. rewrite oi_sysq in Rt. split; [lia|exact Rt].
      * destruct Hs2 as (E2 & P2). wpb. apply upd_c_wp. wpb. apply upd_c_wp, wp_ret. cbn [cs_os cs_c].
        match goal with |- context [mkCst o2 ?X] => change X with (new_slab g c a) end.
        assert (os_in (cdom g c) o o2) as OI' by (eapply os_in_trans; [exact OI|exact OI2]).
        destruct (cinvX_new g k o o2 c [] [] [] [] a I A1 A2 A3) as (I3 & CS & SS & U & C3 & Na & ES & _ & Hm).
        { revert P2. destruct (k =? 0); intros P2 q Hq; [rewrite P2; auto|]. rewrite P2.
          change (slabp g k (set_c_mallocated a c) (c_mcount c)) with (slabp g k c (c_mcount c)). rewrite HP by auto. reflexivity. }
        { intros x. rewrite HM2. auto. }
        { apply OI'. }
        do 2 eexists. split; [reflexivity|]. split; [exact OI'|]. split; [intros x; rewrite HM2; auto|]. split; [exact CS|]. split; [exact SS|]. split; [exact U|].
        split; [reflexivity|]. split; [exact Hi|]. split; [exact I3|]. split; [exact C3|]. split; [congruence|]. split; [exact Na|].
        unfold nxt, prv. rewrite ES. destruct (ma_new _ _ _ _ _ _ _ Ma (c_mcount c) ltac:(lia)). auto.
    + destruct Hs as (-> & He & Hr). apply wp_ret. exists o1, c. split; [auto|]. split; [auto|]. split; [auto|]. split; [apply csame_refl|]. split; [repeat split|]. split; [auto|].
      split; [|auto]. eapply cinvX_osd; eauto. apply OI.
  - auto.
Qed.

Lemma cinvX_to_partial o c E F L i : cinvX g k o c [] E F (Some i) L -> nxt c i = None -> prv c i = None ->
  cinvX g k o (to_partial g k i c) (if 1 <? n then [i] else []) E F (Some i) L.
Proof.
  intros I Hn Hp. pose proof I as [G Me Sl Li Ma Qu Pg Et Rn Fq]. constructor; auto; try fr.
  - destruct Li. constructor; auto; cbn [c_partial to_partial set_c_partial].
    + destruct (1 <? n); reflexivity.
    + change (nxt (to_partial g k i c)) with (nxt c). change (prv (to_partial g k i c)) with (prv c). destruct (1 <? n); cbn; auto.
    + destruct (1 <? n); constructor; [intros []|constructor].
    + intros x Hx. destruct (1 <? n); [|destruct Hx]. destruct Hx as [->|[]]. apply (ma_X _ _ _ _ _ _ _ Ma x eq_refl).
  - destruct Ma. constructor; auto. intros x Hx. rewrite <- (ma_P x Hx). destruct (1 <? n); cbn; intuition congruence.
  - eapply pages_ext; [..|exact Pg]; auto; reflexivity.
Qed.

Lemma allocate_small_wp o c E F : cinvL g k o c E F ->
  wp (allocate_small_class g k (negb (k =? 0))) (mkCst o c) (alloc_spec o c E F) (alloc_fault o c).
Proof.
  intros (P & I & HSt). pose proof I as [G Me Sl Li Ma Qu Pg Et Rn Fq].
  pose proof (class_facts_all g k (ge_k _ _ _ G)) as CFa. pose proof CFa as [].
  assert (STATS g = true -> 0 <= c_slab_allocated c < 2 ^ 64) as HSR by (intros S; rewrite (HSt S); apply w64_range).
  unfold allocate_small_class. change (get_slab_size n sz) with b. wpb. apply wp_gets. cbn [cs_c].
  destruct (c_partial c) as [i|] eqn:EP.
  - (* a partially used slab *)
    destruct P as [|i' P]; [rewrite (lk_P _ _ _ _ Li) in EP; discriminate|].
    assert (i' = i) as -> by (rewrite (lk_P _ _ _ _ Li) in EP; cbn in EP; congruence).
    assert (0 < cntof c i < n) as Ci by (apply (ma_P _ _ _ _ _ _ _ Ma); [discriminate|now left]).
    pose proof (cinvX_hold g k o c _ _ _ _ i I ltac:(lia)) as I1.
    assert (is_slab g c i) as Is by (apply (ma_s _ _ _ _ _ _ _ Ma); lia).
    destruct (slab_range g k o c _ _ _ _ _ i I Is) as [Hi HiK].
    wpb. eapply wp_mono; [eapply take_slot_wp; [exact I1|lia]| |].
    2:{ intros f Hf. right; left; exact Hf. }
    intros j s (Hj & Hu & o1 & c1 & -> & Or & I2 & C2 & U2 & CS & SS & Na & Cn).
    assert (is_slab g c1 i) as Is1 by (apply (ma_X _ _ _ _ _ _ _ (ci_match _ _ _ _ _ _ _ _ _ I2)); auto).
    wpb. apply md_wp; [apply (slab_range g k o1 c1 _ _ _ _ _ i I2 Is1)|]. cbn [cs_c].
    rewrite (get_slab_eq g k c G) by lia. rewrite (slot_pointer_eq g k c G) by lia.
    assert (sptr g k c i j = sptr g k c1 i j) as Ep by (symmetry; apply sptr_ext, CS).
    (* both cases leave a state where i is where its count says *)
    wpb. eapply wp_mono with (Q := fun _ s' => exists c2 P2, s' = mkCst o1 c2 /\ cinvX g k o1 c2 P2 E F (Some i) [] /\ csame g k c1 c2 /\ sstats c1 c2 /\
        (forall i' j', used c2 i' j' = used c1 i' j') /\ cntof c2 i = cntof c1 i /\ (In i P2 <-> cntof c2 i < n) /\ nact g c2 F = nact g c1 F /\ can c2 i = can c1 i) (E := fun _ => False).
    + unfold has_free_slots. change (sb_count (c_slabs c1 i)) with (cntof c1 i). destruct (Z.ltb_spec (cntof c1 i) n) as [Lt|Ge]; cbn [negb].
      * apply wp_ret. exists c1, (i :: P). split; [auto|]. split; [auto|]. split; [apply csame_refl|]. split; [repeat split|]. repeat split; auto. intros _. now left.
      * destruct (cinvX_drop_full g k o1 c1 P E F _ [] i I2 (or_intror eq_refl)) as (I3 & CS3 & SS3 & U3 & C3 & NI & Na3).
        eapply wp_mono with (Q := fun _ s' => s' = mkCst o1 (drop_full i c1)) (E := fun _ => False).
        -- wpb. apply upd_c_wp. cbn [cs_c cs_os]. unfold drop_full. change (sb_next (c_slabs c1 i)) with (nxt c1 i).
           destruct (nxt c1 i) as [h|] eqn:Eh; [|now apply wp_ret]. apply upd_md_wp; [|reflexivity]. cbn.
           assert (nxt c1 i = hd_error P) as Eh' by (apply (lk_dll _ _ _ _ (ci_link _ _ _ _ _ _ _ _ _ I2))).
           assert (In h P) as Hh by (apply hd_error_In; congruence).
           assert (is_slab g c1 h) as Ish.
           { apply (ma_s _ _ _ _ _ _ _ (ci_match _ _ _ _ _ _ _ _ _ I2)).
             assert (In h (i :: P)) as Hh' by now right. apply (ma_P _ _ _ _ _ _ _ (ci_match _ _ _ _ _ _ _ _ _ I2)) in Hh'; [lia|]. intros X. injection X as ->. contradiction. }
           apply (slab_range g k o1 c1 _ _ _ _ _ h I2 Ish).
        -- intros _ s' ->. exists (drop_full i c1), P. split; [auto|]. split; [auto|]. split; [auto|]. split; [auto|]. split; [auto|]. split; [auto|].
           split; [rewrite C3; split; [contradiction|lia]|]. split; [auto|]. apply (cs_can _ _ _ _ CS3). lia.
        -- auto.
    + intros _ s' (c2 & P2 & -> & I3 & CS3 & SS3 & U3 & C3 & HP3 & Na3 & Cn3). rewrite Ep.
      assert (sptr g k c1 i j = sptr g k c2 i j) as Ep2 by (symmetry; apply sptr_ext, CS3). rewrite Ep2.
      wpb. eapply wp_mono; [eapply fill_wp; [exact I3|right; right; reflexivity|exact Hj]| |].
      2:{ intros f Hf. right; right. exists i, j. split; [auto|]. split; [auto|]. split; [auto|]. rewrite Ep, Ep2.
          destruct Hf as (H1 & H2 & H3 & x & H4 & H5). split; [auto|]. split; [auto|]. split; [auto|]. exists x. split; [auto|]. destruct Or. congruence. }
      intros _ s' (-> & HZ). wpb. apply small_stats_wp, wp_ret. rewrite <- Ep2, <- Ep.
      apply finish_post with (P := P2) (E := E) (F := F); auto.
      * left; auto.
      * lia.
      * eapply csame_trans; eassumption.
      * eapply sstats_trans; eassumption.
      * intros S. rewrite (HSt S). rewrite Z.add_0_r, Na3, Na. unfold w64. apply Z.mod_mod. lia.
      * apply os_in_rel. exact Or.
      * intros i' j' Hj'. rewrite U3. auto.
      * intros x. destruct Or. congruence.
      * apply os_rel_errno. auto.
      * intros Hk [W|[W _]]; [|lia]. rewrite Ep, Ep2. intros x Hx. specialize (HZ Hk W x Hx). destruct Or. congruence.
      + intros f [].
  - destruct P as [|i' P]; [|rewrite (lk_P _ _ _ _ Li) in EP; discriminate].
    destruct (c_empty c) as [i|] eqn:EE.
    + (* an empty slab *)
      destruct E as [|i' E]; [rewrite (lk_E _ _ _ _ Li) in EE; discriminate|].
      assert (i' = i) as -> by (rewrite (lk_E _ _ _ _ Li) in EE; cbn in EE; congruence).
      assert (is_slab g c i /\ cntof c i = 0) as [Is C0] by (apply (ma_0 _ _ _ _ _ _ _ Ma); [discriminate|now left]).
      destruct (slab_range g k o c _ _ _ _ _ i I Is) as [Hi HiK].
      wpb. apply md_wp; [exact Hi|]. cbn [cs_c]. wpb. apply upd_c_wp. cbn [cs_c cs_os]. wpb. apply upd_md_wp; [exact Hi|]. cbn [cs_c cs_os].
      wpb. apply upd_c_wp. cbn [cs_c cs_os].
      match goal with |- wp _ (mkCst o ?X) _ _ => change X with (pop_empty g k i c) end.
      destruct (cinvX_pop_empty g k o c E F [] i I) as (I1 & CS1 & SS1 & U1 & C1 & Na1).
      rewrite (get_slab_eq g k c G) by lia.
      wpb. eapply wp_mono; [eapply take_slot_wp; [exact I1|lia]| |].
      2:{ intros f Hf. right; left; exact Hf. }
      intros j s (Hj & Hu & o1 & c1 & -> & Or & I2 & C2 & U2 & CS & SS & Na & Cn).
      rewrite (slot_pointer_eq g k c G) by lia. rewrite U1 in Hu.
      pose proof (csame_trans _ _ _ _ _ CS1 CS) as CS'.
      assert (sptr g k c i j = sptr g k c1 i j) as Ep by (symmetry; apply sptr_ext, CS'). rewrite Ep.
      wpb. eapply wp_mono; [eapply fill_wp; [exact I2|right; right; reflexivity|exact Hj]| |].
      2:{ intros f Hf. right; right. exists i, j. split; [auto|]. split; [auto|]. split; [auto|]. rewrite Ep.
          destruct Hf as (H1 & H2 & H3 & x & H4 & H5). split; [auto|]. split; [auto|]. split; [auto|]. exists x. split; [auto|]. destruct Or. congruence. }
      intros _ s' (-> & HZ). wpb. apply small_stats_wp, wp_ret. rewrite <- Ep.
      apply finish_post with (P := if 1 <? n then [i] else []) (E := E) (F := F); auto.
      * right; left; auto.
      * lia.
      * rewrite C2, C1. destruct (Z.ltb_spec 1 n); cbn; [lia|]. intuition lia.
      * intros S. rewrite (HSt S). rewrite Z.add_0_r, Na, Na1. unfold w64. apply Z.mod_mod. lia.
      * apply os_in_rel. exact Or.
      * intros i' j' Hj'. rewrite U2, U1 by auto. auto.
      * intros x. destruct Or. congruence.
      * apply os_rel_errno. auto.
      * intros Hk [W|[_ W]]; [|congruence]. rewrite Ep. intros x Hx. specialize (HZ Hk W x Hx). destruct Or. congruence.
    + destruct E as [|i' E]; [|rewrite (lk_E _ _ _ _ Li) in EE; discriminate].
      destruct (c_fhead c) as [i|] eqn:EF.
      * (* a slab whose memory was given back *)
        destruct F as [|i' F]; [rewrite (lk_F _ _ _ _ Li) in EF; discriminate|].
        assert (i' = i) as -> by (rewrite (lk_F _ _ _ _ Li) in EF; cbn in EF; congruence).
        assert (is_slab g c i /\ cntof c i = 0) as [Is C0] by (apply (ma_0 _ _ _ _ _ _ _ Ma); [discriminate|now left]).
        destruct (slab_range g k o c _ _ _ _ _ i I Is) as [Hi HiK].
        wpb. eapply wp_mono; [eapply slab_canary_wp; [exact I|exact C0|exact Hi]| |intros f Hf; right; left; exact Hf].
        intros _ s (o1 & c1 & -> & Or & I1 & CS1 & SS1 & U1 & C1 & Na1 & En1 & _ & _ & Em1).
        assert (get_slab c b i = slabp g k c1 i) as Eg by (rewrite (get_slab_eq g k c G) by lia; unfold slabp; now rewrite (cs_start _ _ _ _ CS1)).
        wpb. rewrite Eg. eapply wp_mono; [eapply unlock_slab_wp; [exact I1| |split; [apply Hi|exact HiK]]| |intros f Hf; left; exact Hf].
        { intros [H|[H|H]]; [rewrite C1 in H; lia|destruct H|discriminate]. }
        rewrite <- Eg.
        intros [|] s (o2 & -> & OI & HM & Hs).
        -- destruct Hs as (E2 & R2 & P2). apply wp_ret. exists o2, c1, [], (i :: F). split; [reflexivity|]. split; [|split; [|split; [exact CS1|]]].
           ++ exists []. split; [|intros S; rewrite Na1, <- (HSt S); apply SS1].
              eapply cinvX_os; [| |exact I1]; [intros; now rewrite P2|auto].
           ++ eapply os_in_trans; [apply os_in_rel; exact Or|]. eapply os_in_mono; [|exact OI]. intros q. rewrite (cdom_ext g c c1); [auto|apply CS1|apply CS1].
           ++ split; [auto|]. split; [auto|]. split; [exact E2|]. split; [exact U1|]. split; [exact SS1|]. split; [intros x; rewrite HM; destruct Or; congruence|].
              right. destruct R2 as (t & Ht & Rt). exists t. destruct Or. rewrite or_sysq, or_sysn in *. split; [lia|exact Rt].
        -- destruct Hs as (E2 & P2).
           wpb. apply md_wp; [cbn [cs_c]; rewrite Em1; exact Hi|]. cbn [cs_c]. wpb. apply upd_c_wp. cbn [cs_c cs_os].
           rewrite Eg in P2.
           destruct (cinvX_pop_free g k o1 o2 c1 F [] i I1 P2 HM) as (I3 & CS3 & SS3 & U3 & C3 & Na3).
           wpb. eapply wp_mono with (E := fun _ => False)
             (Q := fun _ s => s = mkCst o2 (match nxt c1 i with None => set_c_ftail None | Some _ => fun c => c end (set_c_fhead (nxt c1 i) c1))).
           { change (sb_next (c_slabs c1 i)) with (nxt c1 i). destruct (nxt c1 i); [now apply wp_ret|]. now apply upd_c_wp. }
           2:{ intros f []. }
           intros _ s ->. wpb. apply upd_md_wp; [cbn [cs_c]; destruct (nxt c1 i); cbn; rewrite Em1; exact Hi|]. cbn [cs_c cs_os]. wpb. apply upd_c_wp. cbn [cs_c cs_os].
           match goal with |- wp _ (mkCst o2 ?X) _ _ => change X with (pop_free g k i c1) end.
           apply fresh_tail with (F := F); auto.
           ++ lia.
           ++ eapply csame_trans; eassumption.
           ++ eapply sstats_trans; eassumption.
           ++ intros i' j'. rewrite U3, U1. reflexivity.
           ++ intros S. rewrite Na3, Na1, (HSt S). unfold w64. rewrite Z.add_mod_idemp_l by lia. f_equal. lia.
           ++ eapply os_in_trans; [apply os_in_rel; exact Or|]. eapply os_in_mono; [|exact OI]. intros q. rewrite (cdom_ext g c c1); [auto|apply CS1|apply CS1].
           ++ intros x. rewrite HM. destruct Or; congruence.
           ++ rewrite E2. apply os_rel_errno. auto.
           ++ intros x Hx. eapply fresh_zero with (i := i); [exact I| |lia|exact Hx]. intros [H|[H|H]]; [lia|destruct H|discriminate].
      * (* a new slab *)
        destruct F as [|i' F]; [|rewrite (lk_F _ _ _ _ Li) in EF; discriminate].
        wpb. eapply wp_mono; [apply alloc_metadata_wp; exact I| |intros f Hf; left; exact Hf].
        intros [i|] s (o1 & c1 & -> & OI & HM & CS1 & SS1 & U1 & H1).
        -- destruct H1 as (-> & Hi & I1 & C1 & E1 & Na1 & N1 & P1 & Hi').
           wpb. eapply wp_mono; [eapply slab_canary_wp; [exact I1|exact C1|exact Hi']| |intros f Hf; right; left; exact Hf].
           intros _ s (o2 & c2 & -> & Or & I2 & CS2 & SS2 & U2 & C2 & Na2 & En2 & Ep2 & _ & _).
           wpb. apply upd_c_wp. cbn [cs_c cs_os].
           match goal with |- wp _ (mkCst o2 ?X) _ _ => change X with (to_partial g k (c_mcount c) c2) end.
           apply fresh_tail with (F := []); auto.
           ++ apply cinvX_to_partial; [exact I2|rewrite En2; auto|rewrite Ep2; auto].
           ++ change (cntof c2 (c_mcount c) = 0). rewrite C2. auto.
           ++ apply (csame_trans g k c c1); [auto|]. destruct CS2; constructor; auto.
           ++ apply (sstats_trans c c1); auto.
           ++ intros i' j'. change (used c2 i' j' = used c i' j'). rewrite U2, U1. reflexivity.
           ++ intros S. change (nact g (to_partial g k (c_mcount c) c2) []) with (nact g c2 []). rewrite Na2, Na1, (HSt S). unfold w64. rewrite Z.add_mod_idemp_l by lia. f_equal. lia.
           ++ eapply os_in_trans; [exact OI|apply os_in_rel; exact Or].
           ++ intros x. destruct Or. rewrite or_mem. auto.
           ++ destruct Or. intuition congruence.
           ++ intros x Hx. eapply fresh_zero with (i := c_mcount c); [exact I| |exact Hi|exact Hx].
              intros [H|[H|H]]; [|destruct H|discriminate]. destruct (ma_s _ _ _ _ _ _ _ Ma _ H) as [? _]. lia.
        -- destruct H1 as (I1 & E1 & R1 & Na1). apply wp_ret. exists o1, c1, [], []. split; [reflexivity|]. split; [|split; [exact OI|split; [exact CS1|]]].
           ++ exists []. split; [exact I1|]. intros S. rewrite Na1, <- (HSt S). apply SS1.
           ++ auto 10.
Qed.
End P5.
