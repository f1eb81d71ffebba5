(** The counter of large blocks against the trace of calls. *)
From Coq Require Import String ZArith List Bool Lia ZifyBool Permutation.
From Verif Require Import M_Base M_Config M_SizeClass M_Libdivide M_OS M_Random M_Slab M_Region M_Api M_Hist M_Stats S_SizeClass S_Slab S_Heap S_Class S_Stats
  P_Base P_Count P_SizeClass P_SizeClass2 P_Libdivide P_Random P_Bitmap P_Bitmap2 P_OS P_Links P_Slab1 P_Slab2 P_Slab3 P_Slab4 P_Slab5 P_Slab6 P_Slab7 P_Slab8 P_Slab9 P_Slab11 P_Path P_Quar
  P_Region P_Region2 P_Heap1 P_Heap2 P_Heap3 P_Heap4 P_Heap5 P_Heap6 P_Heap7 P_Heap8 P_Heap9 P_Heap10 P_Heap11 P_Init P_Api0 P_Api1 P_Api2 P_Api3 P_Api4 P_Api5 P_Api6 P_Api7 P_Api8 P_Stats.
Import ListNotations.
Open Scope Z_scope.
Ltac Zify.zify_post_hook ::= idtac.

(** ** critical sections *)
Definition AL (rs : rastate) : Z := ra_allocated (rs_ra rs).
Definition calm {A} (m : M rastate A) : Prop := forall rs, wp m rs (fun _ rs' => AL rs' = AL rs) anyf.
Definition pcalm {A} (p : prog rastate A) : Prop := calm (run p).
Lemma calm_ret {A} (a : A) : calm (ret a). Proof. intros rs. reflexivity. Qed.
Lemma calm_fail {A} f : calm (@fail rastate A f). Proof. intros rs. exact Logic.I. Qed.
Lemma calm_fatal {A} f : calm (@fatal rastate A f). Proof. intros rs. exact Logic.I. Qed.
Lemma calm_gets {A} (f : rastate -> A) : calm (gets f). Proof. intros rs. reflexivity. Qed.
Lemma calm_bind {A B} (m : M rastate A) (f : A -> M rastate B) : calm m -> (forall a, calm (f a)) -> calm (bind m f).
Proof. intros H1 H2 rs. apply wp_bind. eapply wp_mono; [apply H1| |auto]. intros a r1 E1. eapply wp_mono; [apply H2| |auto]. intros b r2 E2. congruence. Qed.
Lemma calm_sys {A} (m : M os A) : calm (ra_sys m). Proof. intros rs. apply wp_zoom, wp_any. reflexivity. Qed.
Lemma calm_rand {A} (m : M rstate A) : calm (ra_rand m). Proof. intros rs. apply wp_zoom, wp_any. reflexivity. Qed.
Lemma calm_upd f : (forall r, ra_allocated (f r) = ra_allocated r) -> calm (upd_ra f).
Proof. intros H rs. apply wp_modify. unfold AL. cbn. apply H. Qed.
Lemma calm_aget {A} l (i : Z) : calm (@aget rastate A l i).
Proof. intros rs. unfold aget. destruct (lget l i); [reflexivity|exact Logic.I]. Qed.
Lemma pcalm_ret {A} (a : A) : pcalm (Ret a). Proof. apply calm_ret. Qed.
Lemma pcalm_act {A} (m : M rastate A) : calm m -> pcalm (act m). Proof. intros H rs. apply wp_run_act, H. Qed.
Lemma pcalm_bind {A B} (p : prog rastate A) (f : A -> prog rastate B) : pcalm p -> (forall a, pcalm (f a)) -> pcalm (pbind p f).
Proof. intros H1 H2 rs. apply wp_run_pbind. eapply wp_mono; [apply H1| |auto]. intros a r1 E1. eapply wp_mono; [apply H2| |auto]. intros b r2 E2. congruence. Qed.
Lemma pcalm_sys {A} (p : prog os A) : pcalm (ra_psys p). Proof. intros rs. apply wp_psys, wp_any. reflexivity. Qed.
Ltac calm1 := cbv beta zeta; lazymatch goal with
  | |- forall _, _ => intro
  | |- calm (bind _ _) => apply calm_bind
  | |- pcalm (pbind _ _) => apply pcalm_bind
  | |- pcalm (Act _ _) => apply pcalm_act
  | |- pcalm (act _) => apply pcalm_act
  | |- pcalm (Ret _) => apply pcalm_ret
  | |- pcalm (ra_psys _) => apply pcalm_sys
  | |- calm (ret _) => apply calm_ret
  | |- calm (fail _) => apply calm_fail
  | |- calm (fatal _) => apply calm_fatal
  | |- calm (gets _) => apply calm_gets
  | |- calm (ra_sys _) => apply calm_sys
  | |- calm (ra_rand _) => apply calm_rand
  | |- calm (aget _ _) => apply calm_aget
  | |- calm (upd_ra _) => apply calm_upd; intros; reflexivity
  | |- calm (if ?b then _ else _) => destruct b
  | |- pcalm (if ?b then _ else _) => destruct b
  | |- calm (match ?o with Some _ => _ | None => _ end) => destruct o
  | |- pcalm (match ?o with Some _ => _ | None => _ end) => destruct o
  end.
Ltac calm := repeat calm1.
Lemma grow_calm g : calm (regions_grow g). Proof. unfold regions_grow. calm. Qed.
Lemma insert_calm g p sz gd : calm (regions_insert g p sz gd). Proof. unfold regions_insert. calm. apply grow_calm. Qed.
Lemma delete_calm i : calm (regions_delete i). Proof. unfold regions_delete. calm. Qed.
Lemma set_size_calm i n : calm (regions_set_size i n). Proof. unfold regions_set_size. calm. Qed.
Lemma guard_calm g n : calm (get_guard_size g n). Proof. unfold get_guard_size. calm. Qed.
Lemma quar_calm g p n gd : pcalm (regions_quarantine_deallocate_pages g p n gd). Proof. unfold regions_quarantine_deallocate_pages, region_quarantine_pass. calm. Qed.

(** the size the table has for [p] *)
Definition lfind (r : ralloc) (p : Z) : Z :=
  match probe_key (Z.to_nat (ra_total r)) (ra_cells r) (w64 (ra_total r - 1)) p (home p (w64 (ra_total r - 1))) with
  | Some i => rg_size (ra_cells r i)
  | None => 0
  end.
Lemma find_l p rs : wp (regions_find p) rs (fun oi rs' => rs' = rs /\ forall i, oi = Some i -> rg_size (ra_cells (rs_ra rs) i) = lfind (rs_ra rs) p) anyf.
Proof.
  unfold regions_find. apply wp_bind, wp_gets. cbv zeta. unfold lfind. destruct (probe_key _ _ _ _ _) as [i|]; [|apply wp_fail; exact Logic.I]. apply wp_ret. split; [reflexivity|]. intros j. destruct (_ && _); [|discriminate]. intros [= <-]. reflexivity.
Qed.
Definition lsz (s : state) (p : Z) : Z := if in_slab_region p s then 0 else lfind (st_ra s) p.
Lemma lsz_block g s LL p n : hinv g s LL -> block g s LL p n -> lsz s p = if in_slab_region p s then 0 else n.
Proof.
  intros HI B. unfold lsz. destruct (in_slab_region p s) eqn:L; [reflexivity|]. destruct (large_block _ _ _ _ _ HI L B) as (gd & Hin). pose proof HI as [I O S A C SC].
  assert (wp (regions_find p) (ra_get s) (fun oi _ => exists i, oi = Some i /\ rg_size (ra_cells (st_ra s) i) = n) (fun _ => False)) as W.
  { eapply find_wp; [rewrite ra_put_get; exact I| |].
    - intros i sz gd' Hin' Hi _ Hc. exists i. split; [reflexivity|]. cbn [ra_get rs_ra] in Hc. rewrite Hc. cbn. unfold rl_all in Hin'. rewrite O, app_nil_r in Hin'. eapply (block_fun g s LL [] I); [right; exists gd'; exact Hin'|exact B].
    - intros N. elim N. unfold rl_all. rewrite map_app. apply in_or_app. left. apply in_map_iff. eexists. split; [|exact Hin]. reflexivity. }
  pose proof (find_l p (ra_get s)) as F. unfold wp in *. destruct (regions_find p (ra_get s)) as [[oi rs']|]; [|destruct W]. destruct W as (i & -> & E). destruct F as [_ F]. specialize (F i eq_refl). cbn [ra_get rs_ra] in F. congruence.
Qed.

Section counting.
Context (g : config) (ST : STATS g = true).
Lemma stats_up n rs : wp (stats_large_allocate g n) rs (fun _ rs' => AL rs' = w64 (AL rs + n)) anyf.
Proof. unfold stats_large_allocate. rewrite ST. apply wp_modify. reflexivity. Qed.
Lemma stats_down n rs : wp (stats_large_deallocate g n) rs (fun _ rs' => AL rs' = w64 (AL rs - n)) anyf.
Proof. unfold stats_large_deallocate. rewrite ST. apply wp_modify. reflexivity. Qed.
Lemma insert_section_l p n gd rs : wp (insert_section g true p n gd) rs (fun f rs' => AL rs' = if f : bool then AL rs else w64 (AL rs + n)) anyf.
Proof.
  unfold insert_section. apply wp_bind. eapply wp_mono; [apply insert_calm| |auto]. intros [|] r1 E1; [apply wp_ret; exact E1|]. apply wp_bind. eapply wp_mono; [apply stats_up| |auto]. intros [] r2 E2. apply wp_ret. congruence.
Qed.
Lemma allocate_large_l n rs : wp (run (allocate_large g n)) rs (fun r rs' => AL rs' = match r with Some _ => w64 (AL rs + get_large_size_class g n) | None => AL rs end) anyf.
Proof.
  unfold allocate_large. cbv zeta. destruct (_ =? 0).
  { apply wp_run_pbind. eapply wp_mono; [apply pcalm_act, calm_sys| |auto]. intros [] r1 E1. apply wp_run_ret. exact E1. }
  apply wp_run_pbind. eapply wp_mono; [apply pcalm_act, guard_calm| |auto]. intros gd r1 E1. apply wp_run_pbind. eapply wp_mono; [apply pcalm_sys| |auto]. intros [p|] r2 E2; [|apply wp_run_ret; congruence].
  apply wp_run_pbind, wp_run_act. eapply wp_mono; [apply insert_section_l| |auto]. intros [|] r3 E3.
  - apply wp_run_pbind. eapply wp_mono; [apply pcalm_sys| |auto]. intros [] r4 E4. apply wp_run_ret. congruence.
  - apply wp_run_ret. congruence.
Qed.
Lemma remove_section_l p ex rs : wp (remove_section g p ex) rs (fun _ rs' => AL rs' = w64 (AL rs - lfind (rs_ra rs) p)) anyf.
Proof.
  unfold remove_section. apply wp_bind. eapply wp_mono; [apply find_l| |auto]. intros [i|] r1 [-> F]; [|apply wp_fail; exact Logic.I]. specialize (F i eq_refl). apply wp_bind, wp_gets. cbv zeta. rewrite F.
  apply wp_bind. eapply wp_mono with (Q := fun _ rs' => AL rs' = AL rs) (E := anyf); [| |auto].
  { destruct ex as [e|]; [|reflexivity]. destruct (negb _); [exact Logic.I|reflexivity]. }
  intros [] r2 E2. apply wp_bind. eapply wp_mono; [apply delete_calm| |auto]. intros [] r3 E3. apply wp_bind. eapply wp_mono; [apply stats_down| |auto]. intros [] r4 E4. apply wp_ret. congruence.
Qed.
Lemma deallocate_large_l p ex rs : wp (run (deallocate_large g p ex)) rs (fun _ rs' => AL rs' = w64 (AL rs - lfind (rs_ra rs) p)) anyf.
Proof.
  unfold deallocate_large. apply wp_run_pbind, wp_run_act. eapply wp_mono; [apply remove_section_l| |auto]. intros sg r1 E1. eapply wp_mono; [apply quar_calm| |auto]. intros [] r2 E2. congruence.
Qed.
Lemma realloc_delete_l p n rs : wp (realloc_delete g p n) rs (fun _ rs' => AL rs' = w64 (AL rs - n)) anyf.
Proof.
  unfold realloc_delete. apply wp_bind. eapply wp_mono; [apply find_l| |auto]. intros [i|] r1 [-> F]; [|apply wp_fail; exact Logic.I]. apply wp_bind. eapply wp_mono; [apply delete_calm| |auto]. intros [] r2 E2. eapply wp_mono; [apply stats_down| |auto]. intros [] r3 E3. congruence.
Qed.
Lemma realloc_resize_l p n m rs : wp (realloc_resize g p n m) rs (fun _ rs' => AL rs' = w64 (AL rs - w64 (n - m))) anyf.
Proof.
  unfold realloc_resize. apply wp_bind. eapply wp_mono; [apply find_l| |auto]. intros [i|] r1 [-> F]; [|apply wp_fail; exact Logic.I]. apply wp_bind. eapply wp_mono; [apply set_size_calm| |auto]. intros [] r2 E2. eapply wp_mono; [apply stats_down| |auto]. intros [] r3 E3. congruence.
Qed.

(** ** the whole state *)
Definition al (s : state) : Z := ra_allocated (st_ra s).
Definition moved (x y d : Z) : Prop := (d = 0 /\ y = x) \/ y = w64 (x + d).
Lemma moved_0 x : moved x x 0. Proof. left. auto. Qed.
Lemma moved_trans x y z d e : moved x y d -> moved y z e -> moved x z (d + e).
Proof.
  intros [[-> ->]| ->] [[-> ->]| ->]; [left; auto|right; f_equal; lia|right; f_equal; lia|right]. rewrite w64_add. f_equal. lia.
Qed.
(** programs that do not touch the table *)
Definition still {A} (p : prog state A) : Prop := forall s, wp (run p) s (fun _ s' => st_ra s' = st_ra s /\ st_start s' = st_start s /\ st_end s' = st_end s) anyf.
Lemma still_os {A} (m : M os A) : still (act (on_os m)). Proof. intros s. apply wp_run_act. apply wp_zoom, wp_any. auto. Qed.
Lemma still_pos {A} (p : prog os A) : still (p_os p). Proof. intros s. apply wp_pos, wp_any. auto. Qed.
Lemma still_small p ex : still (deallocate_small g p ex).
Proof. intros s. apply wp_run_act. unfold wp. destruct (slab_size_class g s p) as [a k]. change (wp (on_class g a k (deallocate_small_class g k p ex)) s (fun _ s' => st_ra s' = st_ra s /\ st_start s' = st_start s /\ st_end s' = st_end s) anyf). unfold on_class. destruct (_ && _); [|exact Logic.I]. apply wp_zoom, wp_any. auto. Qed.
Lemma still_small_alloc a n : still (allocate_small g a n).
Proof. intros s. apply wp_run_act. unfold on_class. destruct (_ && _); [|exact Logic.I]. apply wp_zoom, wp_any. auto. Qed.
Lemma lsz_same s s' p : st_ra s' = st_ra s /\ st_start s' = st_start s /\ st_end s' = st_end s -> lsz s' p = lsz s p.
Proof. intros (E1 & E2 & E3). unfold lsz, in_slab_region. rewrite E1, E2, E3. reflexivity. Qed.
Lemma large_top_l p ex s : wp (run (deallocate_large_top g p ex)) s (fun _ s' => al s' = w64 (al s - lfind (st_ra s) p)) anyf.
Proof.
  unfold deallocate_large_top. apply wp_run_pbind, wp_run_act. unfold enforce_init. apply wp_bind, wp_get. destruct (is_init s); [|exact Logic.I]. apply wp_ret. apply wp_pra. eapply wp_mono; [apply deallocate_large_l| |auto]. intros [] rs' E. exact E.
Qed.
Lemma free_l p s : wp (run (h_free g p)) s (fun _ s' => moved (al s) (al s') (if p =? 0 then 0 else - lsz s p)) anyf.
Proof.
  unfold h_free. destruct (p =? 0); [apply wp_run_ret, moved_0|]. apply wp_run_pbind, wp_run_act, wp_get. unfold lsz. destruct (in_slab_region p s) eqn:L.
  - eapply wp_mono; [apply still_small| |auto]. intros [] s' (E & _). left. unfold al. rewrite E. auto.
  - apply wp_run_pbind, wp_run_act, wp_gets. apply wp_run_pbind. eapply wp_mono; [apply large_top_l| |auto]. intros [] s1 E. eapply wp_mono; [apply still_os| |auto]. intros [] s2 (E2 & _). right. unfold al in *. rewrite E2, E. f_equal.
Qed.
Lemma free_sized_l p n s : wp (run (h_free_sized g p n)) s (fun _ s' => moved (al s) (al s') (if p =? 0 then 0 else - lsz s p)) anyf.
Proof.
  unfold h_free_sized. destruct (p =? 0); [apply wp_run_ret, moved_0|]. cbv zeta. apply wp_run_pbind, wp_run_act, wp_get. unfold lsz. destruct (in_slab_region p s) eqn:L.
  - eapply wp_mono; [apply still_small| |auto]. intros [] s' (E & _). left. unfold al. rewrite E. auto.
  - eapply wp_mono; [apply large_top_l| |auto]. intros [] s1 E. right. rewrite E. f_equal.
Qed.
Definition base (s : state) : Z := if is_init s then al s else 0.

(** the block an allocation returns is counted *)
Lemma allocate_l arena s LL size : hinv g s LL -> ra_leftover (st_ra s) = false -> 0 <= arena < N_ARENA g -> 0 <= size < 2 ^ 64 ->
  wp (run (allocate g arena size)) s (fun r s' => (match r with
     | None => lost g s LL s'
     | Some p => exists LL', got g s LL s' LL' p (grant g size) /\ shape g s' LL LL' size p
     end) /\ moved (al s) (al s') (match r with Some p => lsz s' p | None => 0 end)) anyf.
Proof.
  intros HI Le Ha Hs. assert (wp (run (allocate g arena size)) s (fun r s' => al s' = match r with Some _ => if size <=? max_slab_size_class g then al s else w64 (al s + get_large_size_class g size) | None => al s end) anyf) as W.
  { unfold allocate. destruct (size <=? max_slab_size_class g).
    - eapply wp_mono; [apply still_small_alloc| |auto]. intros [p|] s' (E & _); unfold al; rewrite E; reflexivity.
    - apply wp_pra. eapply wp_mono; [apply allocate_large_l| |auto]. intros [p|] rs' E; exact E. }
  eapply wp_mono; [apply wp_and; [apply (allocate_wp g arena s LL size HI Le Ha Hs)|exact W]| |intros; exact Logic.I]. intros [p|] s' [H E].
  - destruct H as (LL' & G & Sh). split; [exists LL'; auto|]. pose proof (go_inv _ _ _ _ _ _ _ G) as HI'. assert (block g s' LL' p (grant g size)) as B by (apply G; right; reflexivity). rewrite (lsz_block g s' LL' p _ HI' B).
    unfold grant in *. destruct (Z.leb_spec size (max_slab_size_class g)) as [Sm|Lg].
    + destruct Sh as [(_ & -> & (a & i & j & SB) & _)|(X & _)]; [|lia]. destruct (sblk_loc g s' LL [] (hi_inv _ _ _ HI') _ _ _ _ _ SB) as [-> _]. left. auto.
    + destruct Sh as [(X & _)|(_ & _ & gd & -> & _)]; [lia|]. rewrite (region_not_slab g s' _ [] (hi_inv _ _ _ HI') (mkRegion p (get_large_size_class g size) gd)); [right; exact E|left; reflexivity|].
      pose proof (region_p g s' _ [] (hi_inv _ _ _ HI') (mkRegion p (get_large_size_class g size) gd) (or_introl eq_refl)) as (S & _). cbn in *. lia.
  - split; [apply H|]. left. auto.
Qed.

(** first use *)
Lemma init_l tid s : wp (run (init g tid)) s (fun _ s' => is_init s' = true -> is_init s = false -> al s' = 0) anyf.
Proof.
  unfold init. apply wp_run_pbind, wp_run_act. apply wp_mono with (Q := fun _ s1 => is_init s1 = is_init s) (E := anyf); [|intros [a rd] s1 E1|auto].
  { unfold pick_arena. apply wp_bind, wp_get. destruct (N_ARENA g =? 1); [reflexivity|]. destruct (_ <? _); [reflexivity|]. cbv zeta. apply wp_bind, wp_put. reflexivity. }
  apply wp_run_pbind. destruct rd.
  { apply wp_run_ret, wp_run_ret. intros H1 H2. congruence. }
  apply wp_run_act. unfold init_slow_path. apply wp_bind, wp_get. destruct (is_init s1) eqn:Q1.
  { apply wp_ret, wp_run_ret. intros H1 H2. congruence. }
  apply wp_bind, wp_any. intros b1 s2. apply wp_bind, wp_any. intros b2 s3. apply wp_bind, wp_any. intros [b3 b4] s4. apply wp_bind, wp_any. intros b5 s5. apply wp_bind, wp_any. intros b6 s6. apply wp_bind, wp_any. intros b7 s7. apply wp_bind, wp_any. intros b8 s8.
  apply wp_bind, wp_any. intros [b9 b10] s9. apply wp_bind, wp_modify.
  assert (forall A (m : M os A) x, al x = 0 -> wp (on_os m) x (fun _ y => al y = 0) anyf) as OS by (intros A m x H; apply wp_zoom, wp_any; intros; exact H).
  set (s10 := set_st_ra _ _). assert (al s10 = 0) as Z by reflexivity. clearbody s10.
  apply wp_bind. eapply wp_mono; [apply OS, Z| |auto]. intros f1 s11 Z1. apply wp_bind. unfold must, need. destruct f1; [exact Logic.I|]. apply wp_ret.
  apply wp_bind. eapply wp_mono; [apply OS, Z1| |auto]. intros [st|] s12 Z2; apply wp_bind; [apply wp_ret|exact Logic.I]. apply wp_bind, wp_zoom, wp_any. intros cls r. apply wp_bind, wp_modify.
  set (s13 := set_st_base _ _). assert (al s13 = 0) as Z3 by exact Z2. clearbody s13. apply wp_bind. eapply wp_mono; [apply OS, Z3| |auto]. intros [] s14 Z4. apply wp_modify, wp_run_ret. intros _ _. exact Z4.
Qed.
Lemma init_call_l tid s LL : ready g s LL -> wp (run (init g tid)) s (fun a s' => (0 <= a < N_ARENA g /\ inited g s s' LL) /\ al s' = base s) anyf.
Proof.
  intros R. eapply wp_mono; [apply wp_and; [apply (init_call_wp g tid s LL R)|apply (init_l tid s)]| |intros; exact Logic.I]. intros a s' [[Ha IN] Z]. split; [auto|]. unfold base. destruct (is_init s) eqn:Q.
  - destruct (in_same _ _ _ _ IN Q) as (_ & _ & E & _). unfold al. rewrite E. reflexivity.
  - apply Z; auto. apply (hinv_init _ _ _ (in_inv _ _ _ _ IN)).
Qed.
Definition gain (s' : state) (r : option Z) : Z := match r with Some p => lsz s' p | None => 0 end.
Lemma alloc_l tid s LL size : ready g s LL -> ra_leftover (st_ra s) = false -> 0 <= size < 2 ^ 64 -> wp (run (alloc g tid size)) s (fun r s' => moved (base s) (al s') (gain s' r)) anyf.
Proof.
  intros R Le Hs. unfold alloc. apply wp_run_pbind. eapply wp_mono; [apply (init_call_l tid s LL R)| |auto]. intros a s1 [[Ha IN] E1]. eapply wp_mono; [apply (allocate_l a s1 LL size (in_inv _ _ _ _ IN) (in_left _ _ _ _ IN Le) Ha Hs)| |auto]. intros r s2 [_ M]. rewrite <- E1. exact M.
Qed.
Lemma malloc_l tid s LL n : ready g s LL -> ra_leftover (st_ra s) = false -> 0 <= n < 2 ^ 64 -> wp (run (h_malloc g tid n)) s (fun r s' => moved (base s) (al s') (gain s' r)) anyf.
Proof. intros R Le Hn. apply alloc_l with (LL := LL); auto. apply (adjust_spec g n Hn). Qed.
Lemma idle_moved s : is_init s = true -> moved (base s) (al s) 0.
Proof. intros H. unfold base. rewrite H. apply moved_0. Qed.
Lemma still_moved {s s'} : st_ra s' = st_ra s /\ st_start s' = st_start s /\ st_end s' = st_end s -> is_init s' = true -> moved (base s) (al s') 0.
Proof. intros (E1 & E2 & E3) Hi. unfold base, is_init in *. rewrite E3 in Hi. rewrite Hi. unfold al. rewrite E1. apply moved_0. Qed.
Lemma calloc_l tid s LL m n : ready g s LL -> ra_leftover (st_ra s) = false -> 0 <= m < 2 ^ 64 -> 0 <= n < 2 ^ 64 -> wp (run (h_calloc g tid m n)) s (fun r s' => is_init s' = true -> moved (base s) (al s') (gain s' r)) anyf.
Proof.
  intros R Le Hm Hn. unfold h_calloc. destruct (Z.leb_spec (2 ^ 64) (m * n)) as [Ov|Ov].
  - apply wp_run_pbind. eapply wp_mono; [apply still_os| |auto]. intros [] s' E. apply wp_run_ret. exact (still_moved E).
  - cbv zeta. apply wp_run_pbind. eapply wp_mono; [apply (alloc_l tid s LL _ R Le)| |auto]; [apply adjust_spec; lia|]. intros [p|] s1 M; [|apply wp_run_ret; auto].
    apply wp_run_pbind. eapply wp_mono with (Q := fun _ s2 => st_ra s2 = st_ra s1 /\ st_start s2 = st_start s1 /\ st_end s2 = st_end s1) (E := anyf); [|intros [] s2 E2|auto].
    { destruct (_ && _); [apply still_os|]. apply wp_run_ret. auto. }
    apply wp_run_ret. intros _. unfold gain in *. rewrite (lsz_same s1 s2 p E2). unfold al in *. destruct E2 as (-> & _). exact M.
Qed.
Definition gain2 (s' : state) (r : Z + Z) : Z := match r with inr p => lsz s' p | inl _ => 0 end.
Lemma aligned_l tid s LL a n mn : ready g s LL -> ra_leftover (st_ra s) = false -> 0 <= n < 2 ^ 64 -> 0 <= a <= 4096 -> 1 <= mn -> wp (run (alloc_aligned g tid a n mn)) s (fun r s' => moved (base s) (al s') (gain2 s' r)) anyf.
Proof.
  intros R Le Hn Ha Hmn. unfold alloc_aligned. destruct (adjust_spec g n Hn) as (A1 & A2 & A3). set (u := adjust_size_for_canary g n) in *. pose proof (max_slab_bounds g) as MB.
  apply wp_run_pbind. eapply wp_mono; [apply (init_call_l tid s LL R)| |auto]. intros arena s1 [[Har IN] E1]. rewrite <- E1.
  unfold allocate_aligned. destruct (negb _ || _) eqn:Ck; [apply wp_run_ret, moved_0|]. change (a <=? PAGE_SIZE) with (a <=? 4096). replace (a <=? 4096) with true by lia.
  assert (forall v, 0 <= v < 2 ^ 64 -> wp (run (do! p := allocate g arena v in match p with None => Ret (inl ENOMEM) | Some p => Ret (inr p) end)) s1 (fun r s' => moved (al s1) (al s') (gain2 s' r)) anyf) as W.
  { intros v Hv. apply wp_run_pbind. eapply wp_mono; [apply (allocate_l arena s1 LL v (in_inv _ _ _ _ IN) (in_left _ _ _ _ IN Le) Har Hv)| |auto]. intros [p|] s2 [_ M]; apply wp_run_ret; exact M. }
  apply wp_run_pbind. destruct ((u <=? max_slab_size_class g) && (min_align <? a)) eqn:Q.
  - assert (pow2 a) as (k & Hk & Ek). { unfold min_align in Q. apply pow2_check; [change (2 ^ 64) with 18446744073709551616; lia|lia|lia]. }
    assert (k <= 12) as Hk12. { apply (Z.pow_le_mono_r_iff 2); [lia|lia|]. rewrite <- Ek. change (2 ^ 12) with 4096. lia. }
    destruct (gsia_spec g u k ltac:(lia) ltac:(lia)) as (info & F1 & F2 & F3 & F4 & F5 & F6 & _). rewrite Ek, F1. apply wp_run_ret. apply W. change (2 ^ 64) with 18446744073709551616. lia.
  - apply wp_run_ret. apply W. lia.
Qed.
Lemma simple_l tid s LL a n : ready g s LL -> ra_leftover (st_ra s) = false -> 0 <= n < 2 ^ 64 -> 0 <= a <= 4096 -> wp (run (alloc_aligned_simple g tid a n)) s (fun r s' => moved (base s) (al s') (gain s' r)) anyf.
Proof.
  intros R Le Hn Ha. unfold alloc_aligned_simple. apply wp_run_pbind. eapply wp_mono; [apply (aligned_l tid s LL a n 1 R Le Hn Ha ltac:(lia))| |auto]. intros [e|p] s1 M; [|apply wp_run_ret; exact M].
  apply wp_run_pbind. eapply wp_mono; [apply still_os| |auto]. intros [] s2 (E & _). apply wp_run_ret. unfold al in *. rewrite E. exact M.
Qed.

(** ** realloc *)
Definition shift (s : state) (old : Z) (s' : state) (r : option Z) : Z := match r with Some q => lsz s' q - lsz s old | None => 0 end.
Lemma copy_l tid s LL old n0 old_size size : hinv g s LL -> ra_leftover (st_ra s) = false -> 0 <= size < 2 ^ 64 -> 0 <= old < 2 ^ 64 -> block g s LL old n0 -> old_ok g s LL old n0 old_size ->
  wp (run (realloc_copy g tid old old_size size)) s (fun r s' => moved (al s) (al s') (shift s old s' r)) anyf.
Proof.
  intros HI Le Hs Ho B OK. pose proof HI as [I O S A C SC]. unfold realloc_copy. pose proof (max_slab_bounds g) as MB. pose proof (canary_le g) as CB.
  apply wp_run_pbind. eapply wp_mono; [apply (init_call_l tid s LL (or_introl HI))| |auto]. intros arena s1 [(Ha & IN) B1]. pose proof IN as [i1 i2 i3 i4 i5 i7 i6]. unfold base in B1. rewrite (hinv_init _ _ _ HI) in B1. rewrite <- B1.
  apply wp_run_pbind. eapply wp_mono; [apply (allocate_l arena s1 LL size i1 (i5 Le) Ha Hs)| |auto]. intros [q|] s2.
  2:{ intros [_ M]. apply wp_run_ret. exact M. }
  intros ((LL' & G & Sh) & M). pose proof (got_ares _ _ _ _ _ _ _ _ IN G) as AR. set (m := grant g size) in *.
  pose proof (ar_inv _ _ _ _ _ _ _ AR) as HI2. pose proof (ar_step _ _ _ _ _ _ _ AR) as HS2.
  assert (q <> old) as Nq. { intros ->. pose proof (hs_new _ _ _ _ _ _ _ HS2 old m n0 eq_refl B). discriminate. }
  assert (block g s2 LL' q m) as BN by (apply HS2; right; reflexivity).
  assert (block g s2 LL' old n0) as BO by (apply HS2; left; split; [auto|discriminate]).
  pose proof (got_push g s LL s2 LL' size q old n0 HI B Nq Sh) as GP.
  assert (max_slab_size_class g < size -> m <> 0) as MNZ by (intros H; eapply shape_nz; [exact HI2|exact BN|exact Sh|lia|lia]).
  pose proof (grant_min g size Hs MNZ) as GM. fold m in GM.
  set (cs := if (0 <? Z.min size old_size) && (Z.min size old_size <=? max_slab_size_class g) then Z.min size old_size - canary_size g else Z.min size old_size).
  assert (cs <= n0 /\ (cs <= m \/ cs <= 0)) as (C1 & C2).
  { unfold cs. clear cs. destruct OK as [(L & Eo)|(L & _ & Eo & Bg)].
    - destruct (old_size_slab g s LL old n0 HI B L) as (V1 & V2 & V3). rewrite <- Eo in V1, V2, V3. destruct (Z.eqb_spec old_size 0); destruct (Z.leb_spec size (max_slab_size_class g)); destruct (Z.ltb_spec 0 size); cbn [andb] in *; destruct (Z.min_spec size old_size) as [[? ->]|[? ->]]; destruct (_ && _) eqn:Q; lia.
    - subst n0. destruct (Z.leb_spec size (max_slab_size_class g)); destruct (Z.ltb_spec 0 size); cbn [andb] in *; destruct (Z.min_spec size old_size) as [[? ->]|[? ->]]; destruct (_ && _) eqn:Q; lia. }
  assert (forall x, q <= x < q + cs -> pages (st_os s2) (page_of x) = Some PRW) as RWq. { intros x Hx. eapply (block_rw g s2 LL' [] (hi_inv _ _ _ HI2)); [exact BN|lia]. }
  apply wp_run_pbind, wp_run_act. unfold on_os. apply wp_zoom. fold cs.
  apply mem_copy_wp.
  { intros Hc. split; apply rw_all; auto; intros x Hx; [rewrite RWq by auto; reflexivity|]. rewrite (block_rw g s2 LL' [] (hi_inv _ _ _ HI2) old n0 x BO ltac:(lia)). reflexivity. }
  set (o3 := copied_os q old cs (st_os s2)). assert (poke (fun x => q <= x < q + cs) (st_os s2) o3) as PK by (apply poke_copy; exact RWq).
  assert (poke (fun x => q <= x < q + m) (st_os s2) o3) as PK2 by (eapply poke_mono; [|exact PK]; cbn; lia).
  set (s3 := set_st_os o3 s2). assert (hinv g s3 LL') as HI3 by (eapply hinv_poke; eauto).
  assert (hstep g s LL s3 LL' None (Some (q, m))) as HS3 by (eapply hstep_poke; eauto).
  assert (block g s3 LL' old n0) as BO3 by (apply HS3; left; split; [auto|discriminate]).
  assert (block g s3 LL' q m) as BN3 by (apply HS3; right; reflexivity).
  change (moved (al s1) (al s3) (lsz s3 q)) in M.
  pose proof (lsz_block g s LL old n0 HI B) as LS. pose proof (lsz_block g s3 LL' old n0 HI3 BO3) as LS3. pose proof (lsz_block g s3 LL' q m HI3 BN3) as LQ.
  apply wp_run_pbind. destruct OK as [(L & Eo)|(L & (gd & Hin) & Eo & Bg)].
  - destruct (old_size_slab g s LL old n0 HI B L) as (V1 & V2 & _). rewrite <- Eo in V1, V2. replace (old_size <=? max_slab_size_class g) with true by lia. rewrite L in LS.
    eapply wp_mono; [apply still_small| |auto]. intros [] s4 E4. apply wp_run_ret. unfold shift. rewrite LS, (lsz_same s3 s4 q E4), Z.sub_0_r. unfold al in *. destruct E4 as (-> & _). exact M.
  - replace (old_size <=? max_slab_size_class g) with false by lia. rewrite L in LS.
    assert (in_slab_region old s3 = false) as L3. { apply (region_not_slab g s3 LL' [] (hi_inv _ _ _ HI3) (mkRegion old n0 gd)); [apply GP; exact Hin|cbn; lia]. }
    rewrite L3 in LS3. unfold lsz in LS3. rewrite L3 in LS3.
    eapply wp_mono; [apply wp_and; [apply (dlarge_top_wp g s3 LL' old None (or_introl HI3) L3)|apply (large_top_l old None s3)]| |intros; exact Logic.I]. intros [] s4 [(n4 & F & _) E4]. apply wp_run_ret. unfold shift.
    assert (block g s4 (drop old LL') q m) as B4 by (apply (fr_step _ _ _ _ _ _ _ F); left; split; [exact BN3|congruence]).
    pose proof (lsz_block g s4 _ q m (fr_inv _ _ _ _ _ _ _ F) B4) as LQ4. pose proof (fr_place _ _ _ _ _ _ _ F) as SP. assert (in_slab_region q s4 = in_slab_region q s3) as EQ by (unfold in_slab_region; rewrite (sp_end _ _ SP), (sp_start _ _ SP); reflexivity).
    rewrite EQ, <- LQ in LQ4. rewrite LQ4, LS. rewrite LS3 in E4. replace (lsz s3 q - n0) with (lsz s3 q + - n0) by lia. eapply moved_trans; [exact M|]. right. exact E4.
Qed.
Lemma glsz s LL p n : hinv g s LL -> block g s LL p n -> max_slab_size_class g < n -> lsz s p = n.
Proof.
  intros HI B Hn. rewrite (lsz_block g s LL p n HI B). destruct (in_slab_region p s) eqn:L; [|reflexivity]. destruct (old_size_slab g s LL p n HI B L) as (V1 & V2 & _). pose proof (canary_le g). destruct (_ =? 0) in V2; lia.
Qed.
Lemma mremap_l s LL old sz gd size : hinv g s LL -> ra_leftover (st_ra s) = false -> In (mkRegion old sz gd) (rl_own LL) -> max_slab_size_class g < size < 2 ^ 64 -> max_slab_size_class g < sz -> 16384 < sz ->
  wp (run (realloc_mremap g old sz gd size)) s (fun r s' => moved (al s) (al s') (shift s old s' r)) anyf.
Proof.
  intros HI Le Hin Hsize Hsz Hsz'. assert (block g s LL old sz) as B by (right; exists gd; exact Hin). pose proof (glsz s LL old sz HI B Hsz) as LS.
  assert (wp (run (realloc_mremap g old sz gd size)) s (fun r s' => match r with Some q => al s' = w64 (al s + (get_large_size_class g size - sz)) | None => al s' = al s end) anyf) as W.
  { unfold realloc_mremap. apply wp_run_pbind, wp_pra. eapply wp_mono; [apply allocate_large_l| |auto]. intros [q|] rs1 E1; [|apply wp_run_ret; exact E1].
    apply wp_run_pbind, wp_run_act. unfold on_ra. apply wp_zoom. eapply wp_mono; [apply realloc_delete_l| |auto]. intros [] rs2 E2. set (s2 := ra_put rs2 _). assert (al s2 = w64 (al s + (get_large_size_class g size - sz))) as E3.
    { change (al s2) with (AL rs2). rewrite E2. change (AL (ra_get (ra_put rs1 s))) with (AL rs1). rewrite E1. change (AL (ra_get s)) with (al s). unfold w64, wW. rewrite Zminus_mod_idemp_l. f_equal. lia. }
    clearbody s2. apply wp_run_pbind. eapply wp_mono; [apply still_os| |auto]. intros f s3 (E4 & _).
    apply wp_run_pbind. eapply wp_mono with (Q := fun _ s4 => st_ra s4 = st_ra s3) (E := anyf); [|intros [] s4 E5; apply wp_run_ret; unfold al in *; congruence|auto]. destruct f.
    - apply wp_run_pbind. eapply wp_mono; [apply still_os| |auto]. intros [] s4 (E5 & _). eapply wp_mono; [apply still_pos| |auto]. intros [] s5 (E6 & _). congruence.
    - apply wp_run_pbind. eapply wp_mono; [apply still_os| |auto]. intros ? s4 (E5 & _). apply wp_run_pbind. eapply wp_mono; [apply still_os| |auto]. intros ? s5 (E6 & _). apply wp_run_ret. congruence. }
  eapply wp_mono; [apply wp_and; [apply (realloc_mremap_wp g s LL old sz gd size HI Le Hin Hsize Hsz')|exact W]| |intros; exact Logic.I]. intros [q|] s' [H E]; [|left; auto].
  destruct H as (LL' & m & H1 & H2 & _ & (H3 & H4) & _). unfold shift. rewrite LS, (glsz s' LL' q m H1); [|apply H2; right; reflexivity|lia]. right. rewrite H4. exact E.
Qed.
Lemma shrink_l s LL old sz gd size : hinv g s LL -> ra_leftover (st_ra s) = false -> In (mkRegion old sz gd) (rl_own LL) -> 16384 < size < sz -> max_slab_size_class g < size -> size mod 4096 = 0 ->
  wp (run (realloc_shrink g old sz gd size)) s (fun r s' => moved (al s) (al s') (shift s old s' r)) anyf.
Proof.
  intros HI Le Hin Hsize Hsz Hm. assert (block g s LL old sz) as B by (right; exists gd; exact Hin). pose proof (glsz s LL old sz HI B ltac:(lia)) as LS.
  assert (wp (run (realloc_shrink g old sz gd size)) s (fun r s' => match r with Some q => al s' = w64 (al s + (size - sz)) | None => al s' = al s end) anyf) as W.
  { unfold realloc_shrink. cbv zeta. apply wp_run_pbind. eapply wp_mono; [apply still_os| |auto]. intros [|] s1 (E1 & _); [apply wp_run_ret; unfold al; congruence|].
    apply wp_run_pbind, wp_pra. eapply wp_mono; [apply quar_calm| |auto]. intros [] rs2 E2. apply wp_run_pbind, wp_run_act. unfold on_ra. apply wp_zoom. eapply wp_mono; [apply realloc_resize_l| |auto]. intros [] rs3 E3. apply wp_run_ret.
    change (al (ra_put rs3 (ra_put rs2 s1))) with (AL rs3). rewrite E3. change (AL (ra_get (ra_put rs2 s1))) with (AL rs2). rewrite E2. change (AL (ra_get s1)) with (al s1). unfold al. rewrite E1. unfold w64, wW. rewrite Zminus_mod_idemp_r. f_equal. lia. }
  eapply wp_mono; [apply wp_and; [apply (realloc_shrink_wp g s LL old sz gd size HI Le Hin Hsize Hm)|exact W]| |intros; exact Logic.I]. intros [q|] s' [H E]; [|left; auto].
  destruct H as (-> & LL' & H1 & H2 & _). unfold shift. rewrite LS, (glsz s' LL' old size H1); [|apply H2; right; reflexivity|lia]. right. exact E.
Qed.
Lemma realloc_l tid s LL old n0 n : hinv g s LL -> ra_leftover (st_ra s) = false -> 0 <= n < 2 ^ 64 -> 0 < old < 2 ^ 64 -> block g s LL old n0 -> big g LL old ->
  wp (run (h_realloc g tid old n)) s (fun r s' => moved (al s) (al s') (shift s old s' r)) anyf.
Proof.
  intros HI Le Hn Ho B BG. pose proof HI as [I O S A C SC]. pose proof (max_slab_bounds g) as MB. pose proof (canary_le g) as CB. destruct (adjust_spec g n Hn) as (A1 & A2 & A3).
  unfold h_realloc. set (v := adjust_size_for_canary g n) in *. replace (old =? 0) with false by lia.
  set (size := if max_slab_size_class g <? v then get_large_size_class g v else v).
  destruct (large_any g v A1) as (G1 & G2 & G3).
  destruct ((max_slab_size_class g <? v) && (size =? 0)) eqn:Q0.
  { apply wp_run_pbind. eapply wp_mono; [apply still_os| |auto]. intros [] s' (E & _). apply wp_run_ret. left. unfold al. rewrite E. split; reflexivity. }
  assert (0 <= size < 2 ^ 64) as Hsz by (unfold size; destruct (max_slab_size_class g <? v); lia).
  assert (max_slab_size_class g < v -> v <= size /\ size mod 4096 = 0 /\ max_slab_size_class g < size) as SL.
  { intros H. unfold size in *. replace (max_slab_size_class g <? v) with true in * by lia. cbn [andb] in Q0. assert (v <= get_large_size_class g v) by (apply G2; lia). split; [auto|]. split; [apply G3; lia|lia]. }
  assert (v <= max_slab_size_class g -> size = v) as SS. { intros H. unfold size. replace (max_slab_size_class g <? v) with false by lia. reflexivity. }
  assert (v <= size) as Vs by (destruct (Z_le_gt_dec v (max_slab_size_class g)); [rewrite SS by auto; lia|apply SL; lia]). clearbody size.
  assert (forall os, old_ok g s LL old n0 os -> wp (run (realloc_copy g tid old os size)) s (fun r s' => moved (al s) (al s') (shift s old s' r)) anyf) as COPY.
  { intros os OK. apply (copy_l tid s LL old n0 os size); auto. lia. }
  assert (moved (al s) (al s) (shift s old s (Some old))) as SAME by (left; split; [unfold shift; lia|reflexivity]).
  apply wp_run_pbind, wp_run_act, wp_get. destruct (in_slab_region old s) eqn:L.
  - cbv zeta. destruct ((size <=? max_slab_size_class g) && (si_size (get_size_info size) =? slab_usable_size g s old)); [apply wp_run_ret; exact SAME|]. apply COPY. left. auto.
  - apply wp_run_pbind, wp_run_act. unfold enforce_init. apply wp_bind, wp_get. rewrite (hinv_init _ _ _ HI). apply wp_ret.
    destruct (large_block _ _ _ _ _ HI L B) as (gd & Hin). pose proof (BG _ _ Hin) as BN0.
    apply wp_run_pbind, wp_run_act. unfold on_ra. apply wp_zoom. unfold realloc_find. apply wp_bind.
    assert (rl_all LL = rl_own LL) as EL by (unfold rl_all; rewrite O, app_nil_r; reflexivity).
    eapply find_wp; [rewrite ra_put_get; exact I| |].
    2:{ rewrite EL. intros N. elim N. apply in_map_iff. eexists. split; [|exact Hin]. reflexivity. }
    rewrite EL. intros i sz gd' Hin' Hi _ Hc. assert (sz = n0) as -> by (eapply (block_fun g s LL [] I); [right; exists gd'; exact Hin'|exact B]).
    apply wp_bind, wp_gets, wp_ret. rewrite Hc. cbn [rg_size rg_guard]. rewrite ra_put_get.
    assert (old_ok g s LL old n0 n0) as OK by (right; eauto).
    destruct (Z.eqb_spec n0 size) as [En|En]. { apply wp_run_ret. exact SAME. }
    destruct (Z.ltb_spec (max_slab_size_class g) size) as [Lg|Sm]; [|apply COPY; auto].
    destruct (Z.ltb_spec size n0) as [Sh|Gr].
    + assert (size mod 4096 = 0) as Sm4 by (destruct (Z_le_gt_dec v (max_slab_size_class g)) as [V|V]; [rewrite SS in Lg by auto; lia|apply SL; lia]).
      apply (shrink_l s LL old n0 gd' size); auto; lia.
    + destruct (MREMAP_MOVE_THRESHOLD <=? Z.min size n0) eqn:Q3; [|apply COPY; auto]. apply (mremap_l s LL old n0 gd' size); auto; lia.
Qed.

(** ** every call *)
Lemma still_class {A} a k (m : M cstate A) : still (act (on_class g a k m)).
Proof. intros s. apply wp_run_act. unfold on_class. destruct (_ && _); [|exact Logic.I]. apply wp_zoom, wp_any. auto. Qed.
Lemma trim_still l b : still (trim_classes g l b).
Proof.
  revert b. induction l as [|[a k] l IH]; intros b s; cbn [trim_classes]; [apply wp_run_ret; auto|]. apply wp_run_pbind. eapply wp_mono with (Q := fun _ s1 => st_ra s1 = st_ra s /\ st_start s1 = st_start s /\ st_end s1 = st_end s) (E := anyf); [|intros b1 s1 E1|auto].
  - destruct (k =? 0); [apply wp_run_ret; auto|apply still_class].
  - eapply wp_mono; [apply IH| |auto]. intros b2 s2 (E2 & E3 & E4). destruct E1 as (E5 & E6 & E7). rewrite E2, E3, E4. auto.
Qed.
Definition plus (s' : state) (c : op) (a : ans) : Z := match evadd c a 0 with Some (q, _) => lsz s' q | None => 0 end.
Definition minus (s : state) (c : op) (a : ans) : Z := match evrm c a with Some p => lsz s p | None => 0 end.
Lemma op_l t s LL tid c : linv g t s LL -> table_cleared s -> words c -> permitted g (live t) c -> alignment c <= 4096 ->
  wp (run (op_run g tid c)) s (fun a s' => is_init s' = true -> moved (base s) (al s') (plus s' c a - minus s c a)) anyf.
Proof.
  intros LI TC WD PM AL. pose proof (li_ready _ _ _ _ LI) as R. unfold plus, minus.
  destruct c; cbn [op_run words permitted alignment] in *; apply wp_pmap; unfold word in *.
  - eapply wp_mono; [apply (malloc_l tid s LL n R TC WD)| |auto]. intros [p|] s' M _; cbn [ans_ptr evadd evrm allocates gain] in *; rewrite Z.sub_0_r; exact M.
  - eapply wp_mono; [apply (calloc_l tid s LL nmemb n R TC (proj1 WD) (proj2 WD))| |auto]. intros [p|] s' M Hi; cbn [ans_ptr evadd evrm allocates gain] in *; rewrite Z.sub_0_r; auto.
  - destruct PM as [->|(b & Hb & NO)].
    + change (h_realloc g tid 0 n) with (h_malloc g tid n). eapply wp_mono; [apply (malloc_l tid s LL n R TC (proj2 WD))| |auto]. intros [p|] s' M _; cbn [ans_ptr evadd evrm allocates gain Z.eqb] in *; rewrite Z.sub_0_r; exact M.
    + destruct (li_blk _ _ _ _ LI _ _ Hb) as (n0 & B & _ & _ & G & _ & _ & P0). destruct G as [G|G]; [contradiction|]. pose proof (ready_block _ _ _ _ _ R B) as HI.
      eapply wp_mono; [apply (realloc_l tid s LL p n0 n HI TC (proj2 WD) ltac:(lia) B G)| |auto]. intros r s' M _. unfold base. rewrite (hinv_init _ _ _ HI). destruct r as [q|]; cbn [ans_ptr evadd evrm allocates shift] in *; [|rewrite Z.sub_0_r; exact M]. replace (p =? 0) with false by lia. exact M.
  - eapply wp_mono; [apply (aligned_l tid s LL); [exact R|exact TC|exact (proj2 WD)|lia|lia]| |auto]. intros [e|p] s' M _; cbn [ans_code evadd evrm allocates gain2] in *; rewrite Z.sub_0_r; exact M.
  - eapply wp_mono; [apply (simple_l tid s LL); [exact R|exact TC|exact (proj2 WD)|lia]| |auto]. intros [p|] s' M _; cbn [ans_ptr evadd evrm allocates gain] in *; rewrite Z.sub_0_r; exact M.
  - eapply wp_mono; [apply (simple_l tid s LL); [exact R|exact TC|exact (proj2 WD)|lia]| |auto]. intros [p|] s' M _; cbn [ans_ptr evadd evrm allocates gain] in *; rewrite Z.sub_0_r; exact M.
  - eapply wp_mono; [apply (simple_l tid s LL PAGE_SIZE n R TC WD ltac:(change PAGE_SIZE with 4096; lia))| |auto]. intros [p|] s' M _; cbn [ans_ptr evadd evrm allocates gain] in *; rewrite Z.sub_0_r; exact M.
  - unfold h_pvalloc. cbv zeta. destruct (Z.eqb_spec (page_align n) 0) as [E|N].
    + apply wp_run_pbind. eapply wp_mono; [apply still_os| |auto]. intros [] s' E1. apply wp_run_ret. intros Hi. cbn [ans_ptr evadd evrm allocates]. rewrite Z.sub_0_r. exact (still_moved E1 Hi).
    + assert (0 <= page_align n < 2 ^ 64) as Hp by (unfold page_align; destruct (page_align_ge n WD N); unfold page_align in *; lia).
      eapply wp_mono; [apply (simple_l tid s LL PAGE_SIZE (page_align n) R TC Hp ltac:(change PAGE_SIZE with 4096; lia))| |auto]. intros [p|] s' M _; cbn [ans_ptr evadd evrm allocates gain] in *; rewrite Z.sub_0_r; exact M.
  - eapply wp_mono; [apply wp_and; [apply (free_wp g s LL p R WD)|apply (free_l p s)]| |intros; exact Logic.I]. intros [] s' [F M] Hi. cbn [evadd evrm]. destruct (p =? 0); [subst s'; apply (idle_moved _ Hi)|]. destruct F as (LL' & k & F & _).
    pose proof (ready_block _ _ _ _ _ R (fr_blk _ _ _ _ _ _ _ F)) as HI. unfold base. rewrite (hinv_init _ _ _ HI). exact M.
  - eapply wp_mono; [apply wp_and; [apply (free_sized_wp g s LL p n R (proj1 WD) (proj2 WD))|apply (free_sized_l p n s)]| |intros; exact Logic.I]. intros [] s' [F M] Hi. cbn [evadd evrm]. destruct (p =? 0); [subst s'; apply (idle_moved _ Hi)|]. destruct F as (LL' & k & F & _).
    pose proof (ready_block _ _ _ _ _ R (fr_blk _ _ _ _ _ _ _ F)) as HI. unfold base. rewrite (hinv_init _ _ _ HI). exact M.
  - eapply wp_mono with (Q := fun _ s' => st_ra s' = st_ra s /\ st_start s' = st_start s /\ st_end s' = st_end s) (E := anyf); [|intros r s' E Hi; exact (still_moved E Hi)|auto].
    unfold h_malloc_usable_size. destruct (p =? 0); [apply wp_run_ret; auto|]. apply wp_run_pbind, wp_run_act, wp_get. destruct (in_slab_region p s).
    + apply wp_run_pbind. unfold slab_size_class at 1. eapply wp_mono; [apply (still_class _ _ _ s)| |auto]. intros [] s1 E1. apply wp_run_ret. exact E1.
    + apply wp_run_pbind, wp_run_act. unfold enforce_init. apply wp_bind, wp_get. destruct (is_init s); [|exact Logic.I]. apply wp_ret. apply wp_run_act. unfold on_ra. apply wp_zoom. unfold usable_find. apply wp_bind. eapply wp_mono; [apply find_l| |auto]. intros [i|] r1 [-> _]; apply wp_bind, wp_gets; [|exact Logic.I]. apply wp_ret. rewrite ra_put_get. auto.
  - eapply wp_mono with (Q := fun _ s' => st_ra s' = st_ra s /\ st_start s' = st_start s /\ st_end s' = st_end s) (E := anyf); [|intros r s' E Hi; exact (still_moved E Hi)|auto].
    unfold h_malloc_object_size. destruct (p =? 0); [apply wp_run_ret; auto|]. apply wp_run_pbind, wp_run_act, wp_get. destruct (in_slab_region p s).
    + apply wp_run_pbind. unfold slab_size_class at 1. eapply wp_mono; [apply (still_class _ _ _ s)| |auto]. intros ? s1 E1. apply wp_run_ret. exact E1.
    + destruct (negb (is_init s)); [apply wp_run_ret; auto|]. apply wp_run_act. unfold on_ra. apply wp_zoom. unfold object_find. apply wp_bind. eapply wp_mono; [apply find_l| |auto]. intros oi r1 [-> _]. apply wp_bind, wp_gets, wp_ret. rewrite ra_put_get. auto.
  - eapply wp_mono with (Q := fun _ s' => s' = s) (E := anyf); [|intros r s' -> Hi; exact (idle_moved _ Hi)|auto].
    unfold h_malloc_object_size_fast. destruct (p =? 0); [apply wp_run_ret; auto|]. apply wp_run_pbind, wp_run_act, wp_get. destruct (in_slab_region p s); [apply wp_run_ret; auto|]. destruct (negb (is_init s)); apply wp_run_ret; auto.
  - eapply wp_mono with (Q := fun _ s' => st_ra s' = st_ra s /\ st_start s' = st_start s /\ st_end s' = st_end s) (E := anyf); [|intros r s' E Hi; exact (still_moved E Hi)|auto].
    unfold h_malloc_trim. apply wp_run_pbind, wp_run_act, wp_get. destruct (negb (is_init s)); [apply wp_run_ret; auto|]. apply trim_still.
  - eapply wp_mono; [apply (store_wp g s LL x v R)| |auto]. intros r s' (_ & E & _) Hi. rewrite Z.sub_0_r. cbn [evadd]. apply (still_moved (s := s)); [|exact Hi]. rewrite E. auto.
Qed.

(** ** histories *)
Definition tally (s : state) (t : trace) : Z := total (map (lsz s) (map fst (live t))).
Lemma total_forget f p (l : owned) : NoDup (map fst l) -> In p (map fst l) -> total (map f (map fst (forget p l))) = total (map f (map fst l)) - f p.
Proof.
  induction l as [|[q c] l IH]; cbn [map fst]; intros ND HI; [destruct HI|]. inversion ND as [|? ? N1 N2]; subst. unfold forget. cbn [filter fst]. destruct (Z.eqb_spec q p) as [->|NE]; cbn [negb].
  - change (filter _ l) with (forget p l). rewrite (forget_absent p l N1). cbn. fold (total (map f (map fst l))). lia.
  - destruct HI as [HI|HI]; [contradiction|]. specialize (IH N2 HI). unfold forget in IH. cbn [map fst total fold_right] in *. unfold total in *. lia.
Qed.
Lemma released_live t s LL tid c a s' p : linv g t s LL -> words c -> permitted g (live t) c -> run (op_run g tid c) s = Ok (a, s') -> evrm c a = Some p -> is_live t p.
Proof.
  intros LI WD PM E F. destruct (freed_by (mkEv tid c a)) as [q|] eqn:Q.
  - assert (q = p) as ->; [|eapply freed_live; eauto]. unfold freed_by, evrm in *. cbn [e_op e_ans] in *. destruct c; try discriminate; destruct a; try discriminate; destruct (_ =? 0); cbn [orb] in *; try discriminate; try congruence. destruct (_ =? _); congruence.
  - unfold freed_by, evrm in *. cbn [e_op e_ans] in *. destruct c; try discriminate F; destruct a; try discriminate F; destruct (Z.eqb_spec p0 0); try discriminate. injection F as <-. destruct PM as [PM|(b & PM & _)]; [contradiction|]. exists b. exact PM.
Qed.
Definition left (c : op) (a : ans) (l : owned) : owned := match evrm c a with Some p => forget p l | None => l end.
Lemma tally_step W o t s tid c a s' LL LL' : usable_config g = true -> history g W o t s -> linv g t s LL -> words c -> permitted g (live t) c -> run (op_run g tid c) s = Ok (a, s') -> stepped g t s LL tid c a s' LL' ->
  tally s' (mkEv tid c a :: t) = plus s' c a + (tally s t - minus s c a).
Proof.
  intros U H LI WD PM E SP. pose proof (li_nd _ _ _ _ LI) as ND.
  assert (forall p, In p (map fst (left c a (live t))) -> In p (map fst (live t)) /\ evrm c a <> Some p) as LF.
  { intros p Hp. unfold left in Hp. destruct (evrm c a) as [q|]; [|split; [auto|discriminate]]. unfold forget in Hp. apply in_map_iff in Hp. destruct Hp as (b & <- & Hb). apply filter_In in Hb. destruct Hb as [Hb N]. split; [apply in_map, Hb|]. intros X. injection X as X. lia. }
  assert (map (lsz s') (map fst (left c a (live t))) = map (lsz s) (map fst (left c a (live t)))) as ES.
  { apply map_ext_in. intros p Hp. apply LF in Hp. destruct Hp as [Hp NR]. apply in_map_iff in Hp. destruct Hp as ([p' b] & Ep & Hb). cbn in Ep. subst p'. destruct (li_blk _ _ _ _ LI _ _ Hb) as (n & B & _ & _ & _ & _ & _ & P0). pose proof (ready_block _ _ _ _ _ (li_ready _ _ _ _ LI) B) as HI.
    assert (keeps c a p) as K.
    { unfold keeps, releases, evrm in *. destruct c; cbn [op_run] in E; apply run_pmap in E; destruct E as (r & E & ->); try (left; discriminate).
      - destruct r; cbn [ans_ptr] in *; [|right; reflexivity]. left. intros [= ->]. replace (p =? 0) with false in NR by lia. contradiction.
      - left. intros [= ->]. replace (p =? 0) with false in NR by lia. contradiction.
      - left. intros [= ->]. replace (p =? 0) with false in NR by lia. contradiction. }
    pose proof (sp_keep _ _ _ _ _ _ _ _ _ SP p n B K) as B'. pose proof (ready_block _ _ _ _ _ (li_ready _ _ _ _ (sp_inv _ _ _ _ _ _ _ _ _ SP)) B') as HI'.
    rewrite (lsz_block g s LL p n HI B), (lsz_block g s' LL' p n HI' B'). destruct (op_sited_ok _ _ _ _ _ _ E (hinv_init _ _ _ HI)) as (X1 & X2 & _). unfold in_slab_region. rewrite X1, X2. reflexivity. }
  assert (total (map (lsz s) (map fst (left c a (live t)))) = tally s t - minus s c a) as EL.
  { unfold left, minus. destruct (evrm c a) as [p|] eqn:Q; [|unfold tally; lia]. apply total_forget; [auto|]. apply is_live_map. eapply released_live; eauto. }
  assert (map fst (live (mkEv tid c a :: t)) = match evadd c a 0 with Some (q, _) => [q] | None => [] end ++ map fst (left c a (live t))) as EQ.
  { pose proof (linv_zero _ _ _ _ LI) as LZ. cbn [live]. unfold after, left, evadd, evrm. cbn [e_op e_ans]. destruct c, a; cbn [allocates app map fst]; try reflexivity; destruct (Z.eqb_spec p 0) as [->|]; try reflexivity; rewrite LZ; reflexivity. }
  rewrite <- EL. unfold tally at 1. rewrite EQ, map_app, ES. unfold plus. destruct (evadd c a 0) as [[q m]|]; reflexivity.
Qed.
Lemma history_tally W o t s : usable_config g = true -> history g W o t s -> ordinary t -> is_init s = true -> al s = w64 (tally s t).
Proof.
  intros U H. induction H as [|t s tid c a s' H IH TC WD PM STO E]; intros OR Hi; [discriminate|].
  destruct (history_linv _ _ _ _ _ U H) as (LL & LI). destruct (history_step _ _ _ _ _ _ _ _ _ _ U H LI TC WD PM E) as (LL' & SP). rewrite (tally_step W o t s tid c a s' LL LL' U H LI WD PM E SP).
  assert (alignment c <= 4096) as AC by (apply (OR (mkEv tid c a)); left; reflexivity). pose proof (run_wp _ _ _ _ _ _ (op_l t s LL tid c LI TC WD PM AC) E Hi) as M.
  assert (base s = w64 (tally s t)) as B. { unfold base. destruct (is_init s) eqn:Q; [apply IH; auto; intros e He; apply OR; right; exact He|]. destruct (calm_before _ _ _ _ _ U H Q) as [L0 _]. unfold tally. rewrite L0. reflexivity. }
  rewrite B in M. destruct M as [[M1 M2]|M]; rewrite ?M2, ?M; [f_equal; lia|]. unfold w64, wW. rewrite Zplus_mod_idemp_l. f_equal. lia.
Qed.
End counting.

Lemma large_size g s LL p n : hinv g s LL -> block g s LL p n -> in_slab_region p s = false -> reported_size g s p = n.
Proof.
  intros HI B L. pose proof (block_bounds g s LL [] (hi_inv _ _ _ HI) p n B) as (P1 & P2 & P3). change (2 ^ 48) with 281474976710656 in P3.
  pose proof (usable_wp g s LL p (or_introl HI) ltac:(change (2 ^ 64) with 18446744073709551616; lia)) as W. unfold reported_size, wp in *. destruct (run (h_malloc_usable_size g p) s) as [[r s']|f].
  - destruct W as [_ W]. replace (p =? 0) with false in W by lia. eapply (block_fun g s LL [] (hi_inv _ _ _ HI)); [apply W|exact B].
  - exfalso. destruct W as (_ & _ & [N|(_ & L' & _)]); [elim (N n B)|congruence].
Qed.
Lemma spans_fit2 w lo hi (l : list Z) : (forall p, In p l -> 0 <= w p) -> NoDup l -> (forall p, In p l -> lo <= p /\ p + w p <= hi) -> (forall p q x, In p l -> In q l -> p <= x < p + w p -> q <= x < q + w q -> p = q) -> lo <= hi -> total (map w l) <= hi - lo.
Proof.
  intros Hw ND B D LH. assert (zlen (flat_map (fun p => zrange p (p + w p)) l) = total (map w l)) as E.
  { clear - Hw. induction l as [|p l IH]; [reflexivity|]. cbn [flat_map map total fold_right]. fold (total (map w l)). unfold zlen in *. rewrite app_length. pose proof (zrange_zlen p (p + w p)) as X. unfold zlen in X. specialize (IH (fun q H => Hw q (or_intror H))). specialize (Hw p (or_introl eq_refl)). lia. }
  assert (NoDup (flat_map (fun p => zrange p (p + w p)) l)) as NF.
  { clear E B Hw. induction l as [|p l IH]; [constructor|]. cbn [flat_map]. inversion ND as [|? ? N1 N2]; subst. apply NoDup_app_inv. split; [apply zrange_NoDup|]. split.
    - apply IH; auto. intros a b x Ha Hb. apply D; right; auto.
    - intros x Hx Hf. apply in_flat_map in Hf. destruct Hf as (q & Hq & Hxq). apply in_zrange in Hx. apply in_zrange in Hxq. assert (p = q) by (apply (D p q x); [left; auto|right; auto|lia|lia]). subst. contradiction. }
  pose proof (NoDup_incl_length NF (l' := zrange lo hi)) as L. pose proof (zrange_zlen lo hi) as X. unfold zlen in *. rewrite <- E. assert (incl (flat_map (fun p => zrange p (p + w p)) l) (zrange lo hi)) as IN; [|specialize (L IN); lia].
  intros x Hx. apply in_flat_map in Hx. destruct Hx as (p & Hp & Hx). apply in_zrange in Hx. apply in_zrange. specialize (B p Hp). lia.
Qed.
Lemma total_filter (f h : Z -> Z) b l : (forall p, In p l -> f p = if b p : bool then h p else 0) -> total (map f l) = total (map h (filter b l)).
Proof.
  induction l as [|p l IH]; intros H; [reflexivity|]. cbn [map filter]. change (total (f p :: map f l)) with (f p + total (map f l)). rewrite IH by (intros q Hq; apply H; right; exact Hq). rewrite (H p (or_introl eq_refl)). destruct (b p); reflexivity.
Qed.
Theorem large_tally g W o t s : usable_config g = true -> STATS g = true -> history g W o t s -> ordinary t -> is_init s = true -> ra_allocated (st_ra s) = large_used g s t /\ 0 <= large_used g s t <= 2 ^ 48.
Proof.
  intros U ST H OR Hi. change (ra_allocated (st_ra s)) with (al s). rewrite (history_tally g ST W o t s U H OR Hi). destruct (history_linv _ _ _ _ _ U H) as (LL & LI). pose proof (ready_hinv _ _ _ (li_ready _ _ _ _ LI) Hi) as HI.
  assert (forall p, In p (map fst (live t)) -> exists n, block g s LL p n) as BL.
  { intros p Hp. apply in_map_iff in Hp. destruct Hp as ([q c] & E & Hp). cbn in E. subst q. destruct (li_blk _ _ _ _ LI _ _ Hp) as (n & B & _). eauto. }
  assert (tally s t = large_used g s t) as ->.
  { unfold tally, large_used, large_blocks. apply total_filter. intros p Hp. destruct (BL p Hp) as (n & B). rewrite (lsz_block g s LL p n HI B). replace ((st_start s <=? p) && (p <? st_end s)) with (in_slab_region p s) by (unfold in_slab_region; apply andb_comm).
    destruct (in_slab_region p s) eqn:L; [reflexivity|]. symmetry. eapply large_size; eauto. }
  assert (forall p, In p (large_blocks s t) -> block g s LL p (reported_size g s p)) as BR.
  { intros p Hp. unfold large_blocks in Hp. apply filter_In in Hp. destruct Hp as [Hp N]. destruct (BL p Hp) as (n & B). rewrite (large_size g s LL p n HI B); [exact B|]. unfold in_slab_region. lia. }
  enough (0 <= large_used g s t <= 2 ^ 48) as B by (split; [apply w64_small; change (2 ^ 48) with 281474976710656 in *; change (2 ^ 64) with 18446744073709551616; lia|exact B]). split.
  - unfold large_used. clear - BR HI. induction (large_blocks s t) as [|p l IH]; [cbn; lia|]. cbn [map total fold_right]. fold (total (map (reported_size g s) l)). pose proof (block_bounds g s LL [] (hi_inv _ _ _ HI) _ _ (BR p (or_introl eq_refl))). specialize (IH (fun q Hq => BR q (or_intror Hq))). lia.
  - pose proof (spans_fit2 (reported_size g s) 0 (2 ^ 48) (large_blocks s t)) as X. fold (large_used g s t) in X. rewrite Z.sub_0_r in X. apply X.
    + intros p Hp. apply (block_bounds g s LL [] (hi_inv _ _ _ HI) _ _ (BR p Hp)).
    + apply NoDup_filter, (li_nd _ _ _ _ LI).
    + intros p Hp. pose proof (block_bounds g s LL [] (hi_inv _ _ _ HI) _ _ (BR p Hp)). lia.
    + intros p q x Hp Hq. apply (block_disjoint g s LL [] (hi_inv _ _ _ HI)); apply BR; auto.
    + change (2 ^ 48) with 281474976710656. lia.
Qed.

Lemma heap_fits g s t N : usable_config g = true -> tracked g s t N -> 0 <= heap_used g s t <= 2 ^ 62 /\ 0 <= heap_mapped g N <= 2 ^ 62.
Proof.
  intros U TR. pose proof (ucfg_of g U) as []. change (2 ^ 62) with 4611686018427387904. unfold heap_used, heap_mapped.
  assert (forall f : Z -> Z, (forall a, 0 <= a < N_ARENA g -> 0 <= f a <= 49 * 2199023255552) -> 0 <= total (map f (zrange 0 (N_ARENA g))) <= 4611686018427387904) as X.
  { intros f Hf. pose proof (total_bound (map f (zrange 0 (N_ARENA g))) (49 * 2199023255552)) as B. pose proof (zrange_zlen 0 (N_ARENA g)) as L. unfold zlen in *. rewrite map_length in B.
    assert (forall x, In x (map f (zrange 0 (N_ARENA g))) -> 0 <= x <= 49 * 2199023255552) as Y by (intros x Hx; apply in_map_iff in Hx; destruct Hx as (k & <- & Hk); apply in_zrange in Hk; auto). specialize (B Y). lia. }
  split; apply X; intros a Ha; apply (arena_fits g s t N a U TR Ha).
Qed.
Lemma info2_ord_l g s t N : usable_config g = true -> tracked g s t N -> is_init s = true -> STATS g = true -> ra_allocated (st_ra s) = large_used g s t -> 0 <= large_used g s t <= 2 ^ 48 ->
  reports s (h_mallinfo2 g) (mkInfo (large_used g s t + heap_mapped g N) 0 (large_used g s t + heap_used g s t) ((heap_mapped g N - heap_used g s t) mod 2 ^ 64) 0 (large_used g s t + heap_mapped g N)).
Proof.
  intros U TR Hi ST E B. pose proof (info2_l g s t N U TR Hi ST) as R. cbv zeta in R. rewrite E in R. destruct (heap_fits g s t N U TR) as [H1 H2]. change (2 ^ 62) with 4611686018427387904 in *. change (2 ^ 48) with 281474976710656 in B.
  rewrite (Z.mod_small (large_used g s t + heap_mapped g N)), (Z.mod_small (large_used g s t + heap_used g s t)) in R by (change (2 ^ 64) with 18446744073709551616; lia). exact R.
Qed.

(** ** the theorems of T_C28 *)
Lemma C28_class_l g W o t s a k : usable_config g = true -> STATS g = true -> history g W o t s -> is_init s = true -> exists_class g a k ->
  reports s (h_mallinfo_bin_info g a k) (mkInfo 0 (class_used g s t a k) (mallocs_in g s a k t mod 2 ^ 64) (frees_in g s a k t mod 2 ^ 64) 0 0).
Proof. intros U ST H Hi C. destruct (counts_exist _ _ _ _ _ U H Hi) as (N & SC). eapply info_bin_l; eauto. eapply counts_tracked; eauto. Qed.
Lemma C28_arena_l g W o t s N a : usable_config g = true -> STATS g = true -> history g W o t s -> is_init s = true -> slab_counts g s N -> 0 <= a < N_ARENA g ->
  reports s (h_mallinfo_arena_info g a) (mkInfo (arena_mapped g N a) 0 0 0 (arena_used g s t a) 0).
Proof. intros U ST H Hi SC Ha. apply info_arena_l; auto. eapply counts_tracked; eauto. Qed.
Lemma C28_large_l g W o t s : usable_config g = true -> STATS g = true -> history g W o t s -> is_init s = true -> ordinary t ->
  reports s (h_mallinfo_arena_info g (N_ARENA g)) (mkInfo (large_used g s t) 0 (large_used g s t) 0 0 0).
Proof. intros U ST H Hi OR. destruct (large_tally _ _ _ _ _ U ST H OR Hi) as [E _]. rewrite <- E. apply info_large_l; auto. Qed.
Lemma C28_total_l g W o t s N : usable_config g = true -> STATS g = true -> history g W o t s -> is_init s = true -> slab_counts g s N -> ordinary t ->
  reports s (h_mallinfo2 g) (mkInfo (large_used g s t + heap_mapped g N) 0 (large_used g s t + heap_used g s t) ((heap_mapped g N - heap_used g s t) mod 2 ^ 64) 0 (large_used g s t + heap_mapped g N)).
Proof. intros U ST H Hi SC OR. destruct (large_tally _ _ _ _ _ U ST H OR Hi) as [E B]. apply info2_ord_l; auto. eapply counts_tracked; eauto. Qed.
Lemma C28_info_l g W o t s N : usable_config g = true -> STATS g = true -> history g W o t s -> is_init s = true -> slab_counts g s N ->
  exists L, reports s (h_malloc_info g 0) (0, Some (mkReport (map (fun a => (a, rows g s t N a)) (zrange 0 (N_ARENA g))) (Some L))) /\ (ordinary t -> L = large_used g s t).
Proof. intros U ST H Hi SC. eexists. split; [apply info_l; auto; eapply counts_tracked; eauto|]. intros OR. apply (large_tally _ _ _ _ _ U ST H OR Hi). Qed.
