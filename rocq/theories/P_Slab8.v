(** Size class: specification of releasing a slot (end of deallocate_small). *)
From Coq Require Import String ZArith List Bool Lia ZifyBool Permutation.
From Verif Require Import M_Base M_Config M_SizeClass M_Libdivide M_OS M_Random M_Slab
  P_Base P_Count P_SizeClass P_Libdivide P_Random P_Bitmap P_Bitmap2 P_OS P_Links P_Slab1 P_Slab2 P_Slab3 P_Slab4 P_Slab5 P_Slab6 P_Slab7.
Import ListNotations.
Open Scope Z_scope.
Ltac Zify.zify_post_hook ::= idtac.

Record rel_post (g : config) (k : Z) (o : os) (c : size_class) (o' : os) (c' : size_class) (i j : Z) : Prop := {
  rp_same : rsame c c';
  rp_st : c_nmalloc c' = c_nmalloc c /\ c_ndalloc c' = c_ndalloc c /\ c_allocated c' = c_allocated c;
  rp_used : forall x y, 0 <= y < 256 -> used c' x y = used c x y && negb ((x =? i) && (y =? j));
  rp_cnt : cntof c' i = cntof c i - 1;
  rp_mem : forall x, mem o' x = mem o x \/ (mem o' x = 0 /\ slabp g k c i <= x < slabp g k c i + slab_size_of g k /\ cntof c i = 1);
  rp_err : errno o' = errno o \/ errno o' = EINTR /\ intr (entq o);
  rp_os : os_in (in_class g c) o o'
}.
Definition rel_lists (g : config) (k : Z) (o : os) (c : size_class) (E F : list Z) (o' : os) (c' : size_class) (E' F' : list Z) (i : Z) : Prop :=
  (cntof c i <> 1 /\ E' = E /\ F' = F /\ c_fq c' = c_fq c) \/
  (cntof c i = 1 /\ E' = i :: E /\ F' = F /\ c_fq c' = c_fq c /\ (c_empty_total c + slab_size_of g k <= max_empty_slabs_total g \/ refused o o')) \/
  (cntof c i = 1 /\ max_empty_slabs_total g < c_empty_total c + slab_size_of g k /\ E' = E /\ enq_rel i c c' F F' /\
     forall x, slabp g k c i <= x < slabp g k c i + slab_size_of g k -> mem o' x = 0 /\ pages o' (page_of x) = Some PNone).

Section P8.
Context (g : config) (k : Z).
Local Notation n := (get_slots g k).
Local Notation sz := (slot_size g k).
Local Notation b := (slab_size_of g k).
Ltac wpb := apply wp_bind.

Lemma enqueue_wp o0 o c P E F i L : cinvX g k o0 c P E F (Some i) L -> ~ In i P -> cntof c i = 0 ->
  (forall q, pages o q = if in_pages (slabp g k c i) b q then Some PNone else pages o0 q) ->
  (forall x, mem o x = if in_pages (slabp g k c i) b (page_of x) then 0 else mem o0 x) ->
  wp (enqueue_free_slab g i) (mkCst o c)
    (fun _ s' => exists o' c' F', s' = mkCst o' c' /\ os_rel o o' /\ cinvX g k o' c' P E F' None L /\ rsame c c' /\ sstats c c' /\
       (forall x y, used c' x y = used c x y) /\ (forall x, cntof c' x = cntof c x) /\ nact g c' F' = nact g c F - 1 /\
       c_empty_total c' = c_empty_total c /\ enq_rel i c c' F F' /\ (forall x, x <> i -> ~ In x F -> nxt c' x = nxt c x) /\ c_empty c' = c_empty c) rng_fault.
Proof.
  intros I Ni C0 Hpg Hme. pose proof I as [G Me Sl Li Ma Qu Pg Et Rn Fq]. pose proof Li as []. pose proof Ma as []. pose proof (ucfg_of g (ge_u _ _ _ G)) as [].
  destruct (ma_X i eq_refl) as [Is Nin].
  assert (forall x, is_slab g c x -> 0 <= x < c_mallocated c) as Rg by (intros x Hx; apply (slab_range g k o0 c _ _ _ _ _ x I Hx)).
  unfold enqueue_free_slab. wpb. apply upd_md_wp; [apply Rg; auto|]. cbn [cs_c cs_os]. wpb. apply c_rand_wp.
  eapply wp_mono; [apply u16_uniform_ok; [exact Rn|cbn; lia]| |auto]. cbn [cs_c cs_os r_os r_rng].
  intros t r (H1 & H2 & R & O). wpb. apply wp_gets. cbn [cs_c cs_os]. wpb.
  apply wp_aget; [cbn; rewrite Fq; lia|]. intros sub Hs. cbn in Hs. wpb. apply upd_c_wp. cbn [cs_c cs_os].
  assert (wp (match sub with
     | Some sub0 => (match c_ftail c with Some t0 => upd_md t0 (set_sb_next (Some sub0)) | None => upd_c (set_c_fhead (Some sub0)) end);; upd_c (set_c_ftail (Some sub0))
     | None => ret tt end)
     (mkCst (r_os r) (set_c_fq (lset (c_fq c) t (Some i)) (set_c_rng (r_rng r) (smap i (set_sb_next None) c))))
     (fun _ s' => s' = mkCst (r_os r) (enq t i sub (r_rng r) c)) rng_fault) as W.
  { unfold enq. destruct sub as [s|]; [|apply wp_ret; reflexivity]. wpb. destruct (c_ftail c) as [tl|] eqn:Tl.
    - apply upd_md_wp.
      + cbn. apply Rg. symmetry in lk_Ft. destruct (lastz_Some _ _ lk_Ft) as (u & EF). assert (In tl (E ++ F ++ somes (c_fq c))) by (rewrite EF, !in_app_iff; cbn; auto).
        apply ma_0; [intros X; injection X as ->; contradiction|auto].
      + apply upd_c_wp. reflexivity.
    - apply upd_c_wp. apply upd_c_wp. reflexivity. }
  eapply wp_mono; [exact W| |auto]. intros _ s' ->.
  assert (forall q, pages (r_os r) q = if in_pages (slabp g k c i) b q then Some PNone else pages o0 q) as Hpg' by (intros q; rewrite (or_pages _ _ O); auto).
  assert (forall x, mem (r_os r) x = if in_pages (slabp g k c i) b (page_of x) then 0 else mem o0 x) as Hme' by (intros q; rewrite (or_mem _ _ O); auto).
  destruct (cinvX_enq g k o0 (r_os r) c P E F i L (r_rng r) t sub I Ni C0 R Hs Hpg' Hme') as (I' & RS & SS & U & C & N & ET & FQ & NX & CE).
  do 3 eexists. split; [reflexivity|]. split; [exact O|]. split; [exact I'|]. repeat (split; [assumption|]). split; [|auto].
  exists t, sub. auto.
Qed.

Lemma slab_dealloc_only c c' : c' = (if STATS g then set_c_slab_allocated (w64 (c_slab_allocated c - b)) c else c) -> only_stats c c'.
Proof. intros ->. constructor. destruct (STATS g); [reflexivity|destruct c; reflexivity]. Qed.
Lemma rsame_only c c' : only_stats c c' -> rsame c c'.
Proof. intros [->]. constructor; try reflexivity. constructor; reflexivity. Qed.
Lemma used_only c c' : only_stats c c' -> (forall x y, used c' x y = used c x y) /\ (forall x, cntof c' x = cntof c x) /\ c_fq c' = c_fq c /\ c_empty_total c' = c_empty_total c /\
  c_start c' = c_start c /\ (forall x, nxt c' x = nxt c x) /\ (forall F, nact g c' F = nact g c F) /\ c_mallocated c' = c_mallocated c /\ c_empty c' = c_empty c.
Proof. intros [->]. repeat split. Qed.

(** purging a slab in hand *)
Lemma purge_map_wp o c P E F i L : cinvX g k o c P E F (Some i) L ->
  wp (memory_map_fixed (slabp g k c i) b) o (fun failed o' => if failed then o' = failed_os o /\ refused o o' else o' = mapped_os (slabp g k c i) b o) sys_fault.
Proof.
  intros I. pose proof I as [G Me Sl Li Ma Qu Pg Et Rn Fq]. destruct (ma_X _ _ _ _ _ _ _ Ma i eq_refl) as [Is Nin].
  destruct (slab_range g k o c _ _ _ _ _ i I Is) as [R1 R2].
  eapply wp_mono; [apply wp_conj; [apply memory_map_fixed_wp|apply map_fixed_reason]| |].
  2:{ intros f [Hf _]. exact Hf. }
  intros [|] o1 [H1 H2]; [|apply H1]. split; [auto|]. subst o1. destruct (H2 eq_refl) as [R|R].
  + exists (sysn o). cbn. split; [lia|auto].
  + pose proof (slab_in_region g k c G i ltac:(lia)). pose proof (ge_start _ _ _ G) as (? & ? & S3). unfold ADDR_MAX in R. change (2 ^ 47) with 140737488355328 in *. lia.
Qed.
Definition purge_post (o : os) (c : size_class) (P E F : list Z) (i : Z) (L : list Z) (s' : cstate) : Prop :=
  exists o' c' F', s' = mkCst o' c' /\ cinvX g k o' c' P E F' None L /\ rsame c c' /\ c_nmalloc c' = c_nmalloc c /\ c_ndalloc c' = c_ndalloc c /\ c_allocated c' = c_allocated c /\
         (STATS g = true -> c_slab_allocated c' = w64 (c_slab_allocated c - b)) /\ (forall x y, used c' x y = used c x y) /\ (forall x, cntof c' x = cntof c x) /\ nact g c' F' = nact g c F - 1 /\
         c_empty_total c' = c_empty_total c /\ enq_rel i c c' F F' /\ (forall x, x <> i -> ~ In x F -> nxt c' x = nxt c x) /\ c_empty c' = c_empty c /\
         os_in (in_class g c) o o' /\ (errno o' = errno o \/ errno o' = EINTR /\ intr (entq o)) /\
         (forall x, mem o' x = if in_pages (slabp g k c i) b (page_of x) then 0 else mem o x) /\
         (forall q, pages o' q = if in_pages (slabp g k c i) b q then Some PNone else pages o q).
Lemma slab_stats_wp o c (Er : fault -> Prop) : wp (stats_slab_deallocate g b) (mkCst o c)
  (fun _ s => s = mkCst o (if STATS g then set_c_slab_allocated (w64 (c_slab_allocated c - b)) c else c)) Er.
Proof. unfold stats_slab_deallocate. destruct (STATS g); [apply upd_c_wp; reflexivity|apply wp_ret; reflexivity]. Qed.
Lemma purge_slab_wp o c P E F i L : cinvX g k o c P E F (Some i) L -> ~ In i P -> cntof c i = 0 ->
  wp (stats_slab_deallocate g b;; enqueue_free_slab g i) (mkCst (mapped_os (slabp g k c i) b o) c)
    (fun _ s' => purge_post o c P E F i L s') rng_fault.
Proof.
  intros I Ni C0. pose proof I as [G Me Sl Li Ma Qu Pg Et Rn Fq]. destruct (ma_X _ _ _ _ _ _ _ Ma i eq_refl) as [Is Nin].
  destruct (slab_range g k o c _ _ _ _ _ i I Is) as [R1 R2].
  wpb. set (c1 := if STATS g then set_c_slab_allocated (w64 (c_slab_allocated c - b)) c else c).
  eapply wp_mono; [apply slab_stats_wp with (Er := fun _ => False)| |intros f []]. intros _ s ->. fold c1. pose proof (slab_dealloc_only c c1 eq_refl) as OS.
  pose proof (cinvX_stats g k o c c1 _ _ _ _ _ OS I) as I1. destruct (used_only _ _ OS) as (U1 & C1 & Q1 & T1 & S1 & N1 & A1 & M1 & CE1).
  eapply wp_mono; [eapply enqueue_wp with (o0 := o); [exact I1|exact Ni|rewrite C1; exact C0|..]| |auto].
  + intros q. unfold slabp. rewrite S1. reflexivity.
  + intros x. unfold slabp. rewrite S1. reflexivity.
  + intros _ s (o2 & c2 & F' & -> & O & I2 & RS & SS & U2 & C2 & N2 & T2 & (t & sub & L1 & L2 & L3) & NX & CE). exists o2, c2, F'. split; [reflexivity|].
    split; [exact I2|]. split; [eapply rsame_trans; [eapply rsame_only; exact OS|exact RS]|].
    assert (c_nmalloc c1 = c_nmalloc c /\ c_ndalloc c1 = c_ndalloc c /\ c_allocated c1 = c_allocated c) as (X1 & X2 & X3) by (unfold c1; destruct (STATS g); auto).
    assert (STATS g = true -> c_slab_allocated c1 = w64 (c_slab_allocated c - b)) as X4 by (unfold c1; intros ->; reflexivity).
    destruct SS as (Y1 & Y2 & Y3 & Y4).
    split; [congruence|]. split; [congruence|]. split; [congruence|]. split; [intros St; rewrite Y4; auto|].
    split; [intros; rewrite U2; auto|]. split; [intros; rewrite C2; auto|]. split; [rewrite N2, A1; auto|]. split; [congruence|].
    split; [exists t, sub; rewrite <- Q1; auto|]. split; [intros x E1 E2; rewrite NX by auto; auto|]. split; [congruence|].
    split; [eapply os_in_trans; [apply os_in_mapped|apply os_in_rel; exact O]; intros q Hq; eapply (slab_class g k c G); [|exact Hq]; lia|].
    split; [destruct O; cbn in or_errno; exact or_errno|]. split; [intros x; rewrite (or_mem _ _ O); reflexivity|intros q; rewrite (or_pages _ _ O); reflexivity].
Qed.

Lemma wp_assoc {S A B C} (m1 : M S A) (m2 : A -> M S B) (m3 : B -> M S C) s Q Er :
  wp (bind (bind m1 m2) m3) s Q Er -> wp (bind m1 (fun x => bind (m2 x) m3)) s Q Er.
Proof. unfold wp, bind. destruct (m1 s) as [[? ?]|?]; auto. Qed.
Lemma chk_wp (j : Z) (s : cstate) (Q : unit -> cstate -> Prop) Er : 0 <= j < 256 -> Q tt s -> wp (chk_bitmap j) s Q Er.
Proof. intros Hj HQ. unfold chk_bitmap, in_bitmap. replace ((0 <=? j) && (j <? 256)) with true by lia. apply wp_ret. exact HQ. Qed.

Lemma sub_w64 a x : w64 (w64 a - x) = w64 (a - x).
Proof. unfold w64. rewrite Zminus_mod_idemp_l. reflexivity. Qed.

Lemma release_wp o c P E F i j : cinvX g k o c P E F None [] -> stat_ok g k c F -> 0 <= j < n -> used c i j = true -> quar c i j = false ->
  wp (release_slot g k n b i (slabp g k c i) j) (mkCst o c)
    (fun _ s' => exists o' c' E' F', s' = mkCst o' c' /\ cinvL g k o' c' E' F' /\ rel_post g k o c o' c' i j /\ rel_lists g k o c E F o' c' E' F' i)
    (fun f => sys_fault f \/ rng_fault f).
Proof.
  intros I ST Hj Hu Hq. pose proof I as [G Me Sl Li Ma Qu Pg Et Rn Fq]. pose proof (class_facts_all g k (ge_k _ _ _ G)) as CFa. pose proof CFa as [].
  destruct (quar_slot g k _ _ _ _ _ _ _ i j I ltac:(lia) Hu) as (_ & Hc & Is).
  assert (forall x, is_slab g c x -> 0 <= x < c_mallocated c) as Rg by (intros x Hx; apply (slab_range g k o c _ _ _ _ _ x I Hx)).
  destruct (slab_range g k o c _ _ _ _ _ i I Is) as [R1 R2].
  assert (cntof c i <= n) as Hn by (unfold cntof; rewrite (so_cnt _ _ (Sl i)); pose proof (zcount_le (bm_get (sb_bitmap (c_slabs c i))) 0 n ltac:(lia)); lia).
  unfold release_slot. wpb. apply md_wp; [exact R1|]. cbn [cs_c]. wpb.
  (* first stage: a full slab joins the partial list *)
  assert (wp (if negb (has_free_slots n (c_slabs c i))
     then let! c0 := gets cs_c in
          upd_md i (fun m => set_sb_prev None (set_sb_next (c_partial c0) m));;
          (match c_partial c0 with Some h => upd_md h (set_sb_prev (Some i)) | None => ret tt end);;
          upd_c (set_c_partial (Some i))
     else ret tt) (mkCst o c)
     (fun _ s' => exists c1 P1, s' = mkCst o c1 /\ In i P1 /\ cinvX g k o c1 P1 E F (Some i) [] /\ rsame c c1 /\ sstats c c1 /\ (forall x y, used c1 x y = used c x y) /\
        (forall x, cntof c1 x = cntof c x) /\ nact g c1 F = nact g c F /\ c_fq c1 = c_fq c /\ c_empty_total c1 = c_empty_total c) (fun _ => False)) as W1.
  { pose proof (cinvX_hold g k o c P E F [] i I Hc) as I0. unfold has_free_slots. fold (cntof c i). destruct (Z.ltb_spec (cntof c i) n) as [Hl|Hl]; cbn [negb].
    - apply wp_ret. exists c, P. split; [auto|]. split; [apply (ma_P _ _ _ _ _ _ _ Ma i); [discriminate|lia]|]. split; [exact I0|]. split; [apply rsame_refl|]. repeat split.
    - assert (~ In i P) as Ni. { intros H. apply (ma_P _ _ _ _ _ _ _ Ma i) in H; [lia|discriminate]. }
      pose proof (cinvX_push g k o c P E F i [] I0 Ni) as K.
      wpb. apply wp_gets. cbn [cs_c]. wpb. apply upd_md_wp; [exact R1|]. cbn [cs_c cs_os]. wpb.
      assert (wp (match c_partial c with Some h => upd_md h (set_sb_prev (Some i)) | None => ret tt end) (mkCst o (smap i (fun m => set_sb_prev None (set_sb_next (c_partial c) m)) c))
        (fun _ s' => mkCst (cs_os s') (set_c_partial (Some i) (cs_c s')) = mkCst o (push_full i c)) (fun _ => False)) as W.
      { unfold push_full. destruct (c_partial c) as [h|] eqn:Hp; [|apply wp_ret; reflexivity]. apply upd_md_wp; [|reflexivity].
        cbn. apply Rg. apply (ma_s _ _ _ _ _ _ _ Ma). assert (In h P) as Hh by (apply hd_in; rewrite <- Hp; symmetry; apply Li).
        apply (ma_P _ _ _ _ _ _ _ Ma h) in Hh; [lia|discriminate]. }
      eapply wp_mono; [exact W| |auto]. intros [] s Hs. apply upd_c_wp. rewrite Hs. exists (push_full i c), (i :: P). split; [auto|]. split; [now left|]. exact K. }
  eapply wp_mono; [exact W1| |intros f []]. intros _ s (c1 & P1 & -> & Hi1 & I1 & RS1 & SS1 & U1 & C1 & N1 & Q1 & T1).
  (* second stage: the bit *)
  assert (c_mallocated c1 = c_mallocated c) as M1 by apply RS1.
  wpb. unfold clear_used_slot. wpb. apply chk_wp; [lia|]. apply upd_md_wp; [cbn [cs_c]; lia|]. cbn [cs_c cs_os].
  destruct (cinvX_clear g k o c1 P1 E F i j [] I1 Hj) as (I2 & RS2 & SS2 & N2 & U2 & C2 & C2').
  { rewrite U1. exact Hu. } { rewrite (rs_quar _ _ RS1). exact Hq. }
  set (c2 := smap i (fun m => set_sb_count (w16 (sb_count m - 1)) (set_sb_bitmap (bm_clear (sb_bitmap m) j) m)) c1) in *.
  assert (c_fq c2 = c_fq c1 /\ c_empty_total c2 = c_empty_total c1 /\ c_empty c2 = c_empty c1) as (Q2 & T2 & _) by (repeat split).
  assert (c_start c2 = c_start c /\ c_mallocated c2 = c_mallocated c) as [S2 M2]. { destruct RS1 as [[]], RS2 as [[]]. split; congruence. }
  rewrite C1 in C2. rewrite N1 in N2. rewrite Q1 in Q2. rewrite T1 in T2.
  assert (forall x y, 0 <= y < 256 -> used c2 x y = used c x y && negb ((x =? i) && (y =? j))) as U2' by (intros; rewrite U2, U1 by auto; auto).
  pose proof (rsame_trans _ _ _ RS1 RS2) as RS. pose proof (sstats_trans _ _ _ SS1 SS2) as SS.
  clear RS1 RS2 SS1 SS2 U1 C1 C2' U2 Q1 T1 I1 N1 W1.
  wpb. apply md_wp; [cbn [cs_c]; lia|]. cbn [cs_c]. unfold is_free_slab. fold (cntof c2 i).
  destruct (Z.eqb_spec (cntof c2 i) 0) as [Z0|Z0].
  2:{ apply wp_ret. exists o, c2, E, F. split; [reflexivity|]. split; [|split].
      - exists P1. split; [apply cinvX_settle with (i := i); auto; [lia|split; [lia|auto]]|]. intros St. rewrite N2. destruct SS as (_ & _ & _ & ->). auto.
      - constructor; auto; [destruct SS as (? & ? & ? & ?); auto|apply os_in_refl].
      - left. split; [lia|auto]. }
  (* third stage: unlink *)
  destruct (cinvX_unlink g k o c2 P1 E F i [] I2 Hi1) as (P3 & Ni3 & I3 & RS3 & SS3 & U3 & C3 & N3 & Q3 & T3).
  pose proof I2 as [G2 Me2 Sl2 Li2 Ma2 _ _ _ _ _].
  assert (forall x, In x P1 -> x <> i -> 0 <= x < c_mallocated c) as RgP.
  { intros x Hx Hne. rewrite <- M2. apply (slab_range g k o c2 _ _ _ _ _ x I2). apply (ma_P _ _ _ _ _ _ _ Ma2 x) in Hx; [|congruence]. apply (ma_s _ _ _ _ _ _ _ Ma2). lia. }
  assert ((forall p, prv c2 i = Some p -> In p P1 /\ p <> i) /\ (forall p, nxt c2 i = Some p -> In p P1 /\ p <> i)) as [Pv Nx].
  { apply in_split in Hi1. destruct Hi1 as (l1 & l2 & ->). pose proof (dll_remove _ _ l1 i l2 (lk_dll _ _ _ _ Li2) (lk_Pnd _ _ _ _ Li2)) as (_ & D2 & D3).
    pose proof (NoDup_remove_2 _ _ _ (lk_Pnd _ _ _ _ Li2)) as Nn.
    split; intros p Hp; rewrite Hp in *.
    - destruct D2 as [D2 _]. split; [apply in_or_app; auto|]. intros ->. apply Nn, in_or_app; auto.
    - split; [apply in_or_app; right; right; auto|]. intros ->. apply Nn, in_or_app; auto. }
  match goal with |- wp (bind ?m1 (fun _ => bind ?m2 (fun _ => bind ?m3 ?k))) _ ?Q ?Er =>
    assert (wp (bind m1 (fun _ => bind m2 (fun _ => m3))) (mkCst o c2) (fun _ s' => s' = mkCst o (unlink i c2)) (fun _ => False)) as W2;
    [|assert (forall s', wp (k tt) s' Q Er -> s' = mkCst o (unlink i c2) -> wp (bind m1 (fun _ => bind m2 (fun _ => bind m3 k))) (mkCst o c2) Q Er) as W3] end.
  { unfold unlink. change (sb_prev (c_slabs c2 i)) with (prv c2 i). change (sb_next (c_slabs c2 i)) with (nxt c2 i).
    wpb. destruct (prv c2 i) as [pv|].
    - destruct (Pv pv eq_refl). apply upd_md_wp; [cbn [cs_c]; rewrite M2; apply RgP; auto|]. cbn [cs_c cs_os]. wpb. destruct (nxt c2 i) as [nx|].
      + destruct (Nx nx eq_refl). apply upd_md_wp; [change (0 <= nx < c_mallocated c2); rewrite M2; apply RgP; auto|]. apply upd_md_wp; [change (0 <= i < c_mallocated c2); lia|]. reflexivity.
      + apply wp_ret. apply upd_md_wp; [change (0 <= i < c_mallocated c2); lia|]. reflexivity.
    - apply upd_c_wp. cbn [cs_c cs_os]. wpb. destruct (nxt c2 i) as [nx|].
      + destruct (Nx nx eq_refl). apply upd_md_wp; [change (0 <= nx < c_mallocated c2); rewrite M2; apply RgP; auto|]. apply upd_md_wp; [change (0 <= i < c_mallocated c2); lia|]. reflexivity.
      + apply wp_ret. apply upd_md_wp; [change (0 <= i < c_mallocated c2); lia|]. reflexivity. }
  { intros s' H ->. revert W2. unfold wp, bind.
    repeat match goal with |- context [match ?m ?s with Ok _ => _ | Fail _ => _ end] => destruct (m s) as [[[] ?]|]; [|tauto] end.
    intros ->. exact H. }
  eapply W3; [|reflexivity]. clear W2 W3.
  set (c3 := unlink i c2) in *. rewrite N2 in N3. rewrite Q2 in Q3. rewrite T2 in T3. pose proof (C3 i) as Z3. rewrite Z0 in Z3.
  pose proof (rsame_trans _ _ _ RS RS3) as RS'. pose proof (sstats_trans _ _ _ SS SS3) as SS'.
  assert (forall x y, 0 <= y < 256 -> used c3 x y = used c x y && negb ((x =? i) && (y =? j))) as U3' by (intros; rewrite U3; auto).
  assert (c_start c3 = c_start c /\ c_mallocated c3 = c_mallocated c) as [S3 M3]. { destruct RS' as [[]]. split; congruence. }
  assert (forall x, slabp g k c3 x = slabp g k c x) as Sp by (intros; unfold slabp; rewrite S3; auto).
  destruct SS' as (Sa & Sb & Sc & Sd).
  assert (cntof c i = 1) as Ci1 by lia.
  clear RS RS3 SS SS3 U3 U2' C3 I2 N2 Q2 T2 G2 Me2 Sl2 Li2 Ma2 RgP Pv Nx Hi1 Z0 M2 S2.
  (* the slab goes to the cache *)
  assert (forall o1, os_in (in_class g c) o o1 -> (errno o1 = errno o \/ errno o1 = EINTR /\ intr (entq o)) -> (forall q, pages o1 q = pages o q) ->
     (forall x, mem o1 x = mem o x \/ mem o1 x = 0 /\ in_pages (slabp g k c i) b (page_of x) = true) ->
     c_empty_total c + b <= max_empty_slabs_total g \/ refused o o1 ->
     wp (let! c0 := gets cs_c in
         upd_md i (set_sb_next (c_empty c0));;
         upd_c (fun c1 => set_c_empty_total (w64 (c_empty_total c1 + b)) (set_c_empty (Some i) c1))) (mkCst o1 c3)
       (fun _ s' => exists o' c' E' F', s' = mkCst o' c' /\ cinvL g k o' c' E' F' /\ rel_post g k o c o' c' i j /\ rel_lists g k o c E F o' c' E' F' i)
       (fun f => sys_fault f \/ rng_fault f)) as TE.
  { intros o1 OI Er Pg1 Me1 Why. wpb. apply wp_gets. cbn [cs_c]. wpb. apply upd_md_wp; [cbn [cs_c]; lia|]. cbn [cs_c cs_os]. apply upd_c_wp. cbn [cs_c cs_os].
    assert (cinvX g k o1 c3 P3 E F (Some i) []) as I3'.
    { eapply cinvX_os; [exact Pg1| |exact I3]. intros x. destruct (Me1 x) as [|[? _]]; auto. }
    destruct (cinvX_to_empty g k o1 c3 P3 E F i [] I3' Ni3 Z3) as (I4 & RS4 & SS4 & U4 & C4 & N4 & Q4 & T4).
    exists o1, (to_empty g k i c3), (i :: E), F. split; [reflexivity|]. destruct SS4 as (Se & Sf & Sg & Sh).
    split; [exists P3; split; [exact I4|intros St; rewrite N4, N3, Sh, Sd; auto]|]. split.
    - constructor; auto; [eapply rsame_trans; eassumption|intros x y Hy; exact (eq_trans (U4 x y) (U3' x y Hy))|pose proof (C4 i) as C4i; lia|].
      intros x. destruct (Me1 x) as [|[? Hx]]; [auto|]. right. split; [auto|]. split; [|lia].
      apply (in_pages_aligned (slabp g k c i) b) in Hx; [exact Hx|..]; [apply (slabp_mod g k c G)|lia].
    - right; left. split; [lia|]. split; [auto|]. split; [auto|]. split; [congruence|auto]. }
  assert (w64 (c_empty_total c3 + b) = c_empty_total c + b) as EW.
  { destruct (cinvX_to_empty g k o c3 P3 E F i [] I3 Ni3 Z3) as (_ & _ & _ & _ & _ & _ & _ & T4).
    change (c_empty_total (to_empty g k i c3)) with (w64 (c_empty_total c3 + b)) in T4. rewrite T4, T3. reflexivity. }
  wpb. apply wp_gets. cbn [cs_c]. rewrite EW. wpb. destruct (Z.ltb_spec (max_empty_slabs_total g) (c_empty_total c + b)) as [Hm|Hm].
  2:{ apply wp_ret. apply TE; auto using os_in_refl. }
  wpb. apply c_sys_wp, wp_gets. cbn [cs_os cs_c].
  pose proof (purge_map_wp o c3 P3 E F i [] I3) as PM. rewrite Sp in PM.
  wpb. apply c_sys_wp. cbn [cs_os]. eapply wp_mono; [exact PM| |intros f Hf; left; exact Hf]. cbn [cs_c].
  intros [|] o1 H1.
  - (* refused: purge instead *)
    destruct H1 as [-> Rf].
    wpb. apply c_sys_wp. cbn [cs_os]. eapply wp_mono; [apply memory_purge_wp| |intros f Hf; left; exact Hf].
    intros failed o2 Ho2. cbn [cs_c]. wpb. apply c_sys_wp, wp_modify, wp_ret. cbn [cs_c cs_os].
    assert (forall q, in_pages (slabp g k c i) b q = true -> in_class g c q) as Cl by (intros q Hq'; eapply (slab_class g k c G); [|exact Hq']; lia).
    apply TE.
    + destruct failed; [subst o2|destruct Ho2 as (-> & _)]; [constructor; cbn; auto|].
      eapply os_in_trans; [apply os_in_failed|]. eapply os_in_trans; [apply os_in_purged; exact Cl|apply os_in_errno].
    + left. reflexivity.
    + intros q. destruct failed; [subst o2|destruct Ho2 as (-> & _)]; reflexivity.
    + intros x. destruct failed; [subst o2; auto|destruct Ho2 as (-> & _)]. cbn. destruct (in_pages (slabp g k c i) b (page_of x)) eqn:Ex; auto.
    + right. destruct Rf as (t & Ht & Rt). exists t. split; [|auto]. destruct failed; [subst o2|destruct Ho2 as (-> & _)]; cbn in *; lia.
  - (* quarantined *)
    pose proof (purge_slab_wp o c3 P3 E F i [] I3 Ni3 Z3) as PS. rewrite Sp in PS. rewrite <- H1 in PS.
    apply wp_assoc. wpb. eapply wp_mono; [exact PS| |intros f Hf; right; exact Hf].
    intros _ s (o2 & c4 & F' & -> & I4 & RS4 & Se & Sf & Sg & Sh & U4 & C4 & N4 & T4 & EQ & NX & CE & OI & Er & Mm & Pp). apply wp_ret, wp_ret.
    exists o2, c4, E, F'. split; [reflexivity|]. split; [|split].
    * exists P3. split; [exact I4|]. intros St. rewrite N4, N3, Sh, Sd, ST, sub_w64 by auto. f_equal. lia.
    * constructor; auto; [eapply rsame_trans; eassumption|split; [congruence|split; congruence]|intros x y Hy; exact (eq_trans (U4 x y) (U3' x y Hy))|pose proof (C4 i) as C4i; lia| |].
      -- intros x. rewrite Mm. rewrite Sp. destruct (in_pages (slabp g k c i) b (page_of x)) eqn:Ex; [|auto]. right. split; [auto|]. split; [|lia].
         apply (in_pages_aligned (slabp g k c i) b) in Ex; [exact Ex|..]; [apply (slabp_mod g k c G)|lia].
      -- eapply os_in_mono; [|exact OI]. intros q. unfold in_class. rewrite S3. auto.
    * right; right. split; [lia|]. split; [auto|]. split; [auto|]. split.
      -- destruct EQ as (t & sub & L1 & L2 & L3). rewrite Q3 in L1, L2. exists t, sub. auto.
      -- intros x Hx. rewrite Mm, Pp, Sp. assert (in_pages (slabp g k c i) b (page_of x) = true) as ->; [|auto]. apply in_pages_addr; lia.
Qed.
End P8.
