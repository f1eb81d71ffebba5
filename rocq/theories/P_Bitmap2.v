(** C35: slot selection, in terms of S_Slab. *)
From Coq Require Import String ZArith List Bool Lia ZifyBool.
From Verif Require Import M_Base M_Config M_SizeClass M_OS M_Random M_Slab S_Slab S_Random P_Base P_SizeClass P_Random P_Random2 P_Bitmap.
Import ListNotations.
Open Scope Z_scope.

Lemma bitmap_ok bm : bitmap bm -> bm_ok bm.
Proof.
  intros [L F]. split; [unfold zlen; lia|]. intros i Hi. unfold word64.
  destruct (lget_in_range bm i) as [x Hx]; [unfold zlen; lia|]. rewrite Hx.
  rewrite Forall_forall in F. apply F. eapply lget_In; eauto.
Qed.
Lemma word64_nth bm i : 0 <= i -> word64 bm i = nth (Z.to_nat i) bm 0.
Proof.
  intros. unfold word64, lget. destruct (Z.ltb_spec i 0); [lia|].
  destruct (nth_error bm (Z.to_nat i)) eqn:E.
  - symmetry. now apply nth_error_nth.
  - symmetry. apply nth_overflow. now apply nth_error_None.
Qed.
Lemma occupied_get bm j : 0 <= j < 256 -> occupied bm j = bm_get bm j.
Proof. intros. rewrite bm_get_bit by lia. unfold occupied. now rewrite word64_nth by lia. Qed.

Lemma get_free_slot_ok g slots i s :
  rng_ok (c_rng (cs_c s)) -> 0 <= i < c_mallocated (cs_c s) -> 1 <= slots <= 256 ->
  let bm := sb_bitmap (c_slabs (cs_c s) i) in
  bm_ok bm -> (exists j, 0 <= j < slots /\ bm_get bm j = false) ->
  wp (get_free_slot g slots i) s
    (fun slot s' => 0 <= slot < slots /\ bm_get bm slot = false /\
       exists o' r', s' = mkCst o' (set_c_rng r' (cs_c s)) /\ rng_ok r' /\ os_rel (cs_os s) o') rng_fault.
Proof.
  intros R Hi Hs bm Hbm Hex. unfold get_free_slot.
  assert (forall (s1 : cstate), c_slabs (cs_c s1) = c_slabs (cs_c s) -> c_mallocated (cs_c s1) = c_mallocated (cs_c s) ->
     forall (Q : slab -> cstate -> Prop) (E : fault -> Prop), Q (c_slabs (cs_c s) i) s1 -> wp (md i) s1 Q E) as Hmd.
  { intros s1 E1 E2 Q E H. unfold md. apply wp_bind, wp_gets. rewrite E1, E2.
    replace ((0 <=? i) && (i <? c_mallocated (cs_c s))) with true by lia. now apply wp_ret. }
  destruct (SLOT_RANDOMIZE g).
  - apply wp_bind. unfold c_rand. apply wp_zoom. eapply wp_mono; [apply u16_uniform_ok; [exact R|lia]| |auto].
    intros r t (H0 & H1 & R' & O). cbn [r_rng r_os] in *. apply wp_bind. apply Hmd; [reflexivity|reflexivity|]. fold bm.
    destruct (free_slot_random_spec bm slots r Hbm Hs ltac:(lia) Hex) as (slot & -> & C1 & C2 & _).
    apply wp_ret. split; [auto|]. split; [auto|]. eauto.
  - apply wp_bind. apply Hmd; [reflexivity|reflexivity|]. fold bm.
    destruct (free_slot_linear_spec bm slots Hbm Hs Hex) as (slot & -> & C1 & C2 & _).
    apply wp_ret. split; [auto|]. split; [auto|]. exists (cs_os s), (c_rng (cs_c s)).
    split; [destruct s as [o c]; cbn; destruct c; reflexivity|]. split; [auto|apply os_rel_refl].
Qed.

Lemma C35_finds g slots i s :
  rng_reachable (mkRst (cs_os s) (c_rng (cs_c s))) ->
  0 <= i < c_mallocated (cs_c s) -> 1 <= slots <= 256 ->
  let bm := sb_bitmap (c_slabs (cs_c s) i) in
  bitmap bm -> (exists j, 0 <= j < slots /\ occupied bm j = false) ->
  match get_free_slot g slots i s with
  | Ok (slot, s') => 0 <= slot < slots /\ occupied bm slot = false /\ c_slabs (cs_c s') = c_slabs (cs_c s)
  | Fail f => f = Retry \/ f = Fatal "getrandom failed"
  end.
Proof.
  intros R Hi Hs bm Hbm (j & Hj & Oj).
  pose proof (get_free_slot_ok g slots i s (reachable_ok _ R) Hi Hs (bitmap_ok _ Hbm)) as W.
  unfold wp in W. destruct (get_free_slot g slots i s) as [[slot s']|f].
  - destruct W as (H1 & H2 & o' & r' & -> & _).
    { exists j. split; [auto|]. rewrite <- occupied_get by lia. exact Oj. }
    split; [auto|]. split; [|reflexivity]. rewrite occupied_get by lia. exact H2.
  - apply W. exists j. split; [auto|]. rewrite <- occupied_get by lia. exact Oj.
Qed.

Lemma u16_draw o rsd ctx b0 b1 rest slots : 0 <= b0 < 256 -> 0 <= b1 < 256 -> length rest = 254%nat -> 1 <= slots <= 256 ->
  get_random_u16_uniform slots (mkRst o (mkRng 0 rsd ctx (b0 :: b1 :: rest))) =
  Ok ((b0 + 256 * b1) * slots / 65536, mkRst o (mkRng 2 rsd ctx (b0 :: b1 :: rest))).
Proof.
  intros H0 H1 Hl Hs. unfold get_random_u16_uniform. rewrite (w16_small slots) by lia.
  assert (get_random_u16 (mkRst o (mkRng 0 rsd ctx (b0 :: b1 :: rest))) =
          Ok (b0 + 256 * b1, mkRst o (mkRng 2 rsd ctx (b0 :: b1 :: rest)))) as E.
  { unfold get_random_u16, get_random_int. unfold bind at 1. unfold gets at 1. cbn [r_rng rs_index].
    change (w32 (RANDOM_CACHE_SIZE - 0) <? 2) with false. unfold bind, ret, gets. cbn [r_rng].
    unfold cache_read. cbn [rs_cache rs_index].
    assert (zlen (b0 :: b1 :: rest) = 256) as Lc by (unfold zlen; cbn [length]; lia). rewrite Lc.
    change ((0 <=? 0) && (0 + 2 <=? 256)) with true. unfold ret. change (Z.to_nat 0) with 0%nat. change (Z.to_nat 2) with 2%nat.
    cbn [skipn firstn le_of_bytes]. unfold modify. cbn [set_r_rng r_os]. repeat f_equal. lia. }
  unfold bind at 1. rewrite E. set (x := b0 + 256 * b1) in *. set (st := mkRst o _).
  assert (w32 (x * slots) = x * slots) as E32 by (apply w32_small; unfold x; change (2^32) with 4294967296; nia). rewrite E32.
  match goal with |- bind ?X ?k st = _ => assert (X st = Ok (x * slots, st)) as EX end.
  { destruct (w16 (x * slots) <? slots); [|reflexivity]. unfold bind, get. rewrite u16_threshold_0.
    assert (w16 (x * slots) <? 0 = false) as F by (pose proof (w16_range (x * slots)); lia).
    destruct (fuel (r_os st)); cbn [u16_reject_loop]; rewrite F; reflexivity. }
  unfold bind at 1. rewrite EX. unfold ret. rewrite Z.shiftr_div_pow2 by lia. change (2 ^ 16) with 65536.
  rewrite w16_small; [reflexivity|]. unfold x. change (2 ^ 16) with 65536. nia.
Qed.

Lemma C35_all g slots i s slot :
  SLOT_RANDOMIZE g = true ->
  0 <= i < c_mallocated (cs_c s) -> 1 <= slots <= 256 ->
  let bm := sb_bitmap (c_slabs (cs_c s) i) in
  bitmap bm -> 0 <= slot < slots -> occupied bm slot = false ->
  rs_index (c_rng (cs_c s)) = 0 ->
  exists b0 b1, 0 <= b0 < 256 /\ 0 <= b1 < 256 /\
    forall rest, length rest = 254%nat ->
    let rng := c_rng (cs_c s) in
    let s1 := mkCst (cs_os s) (set_c_rng (mkRng 0 (rs_reseed rng) (rs_ctx rng) (b0 :: b1 :: rest)) (cs_c s)) in
    exists s', get_free_slot g slots i s1 = Ok (slot, s').
Proof.
  intros Hr Hi Hs bm Hbm Hslot Hocc Hidx.
  assert (exists x, 0 <= x < 65536 /\ x * slots / 65536 = slot) as (x & Hx & Ex).
  { exists ((slot * 65536 + slots - 1) / slots). assert (0 < slots) as P by lia. clear Hocc Hbm Hidx Hi Hr.
    pose proof (Z.div_mod (slot * 65536 + slots - 1) slots ltac:(lia)) as E.
    pose proof (Z.mod_pos_bound (slot * 65536 + slots - 1) slots P) as B.
    set (q := (slot * 65536 + slots - 1) / slots) in *. set (r := (slot * 65536 + slots - 1) mod slots) in *.
    assert (slot * 65536 <= q * slots < slot * 65536 + slots) as Q by lia.
    split; [nia|]. symmetry. apply Z.div_unique with (q * slots - slot * 65536); lia. }
  exists (x mod 256), (x / 256). split; [lia|]. split; [lia|]. intros rest Hrest rng s1.
  unfold get_free_slot. rewrite Hr. unfold bind at 1. unfold c_rand at 1, zoom.
  change (mkRst (cs_os s1) (c_rng (cs_c s1))) with (mkRst (cs_os s) (mkRng 0 (rs_reseed rng) (rs_ctx rng) (x mod 256 :: x / 256 :: rest))).
  rewrite u16_draw by lia. replace (x mod 256 + 256 * (x / 256)) with x by lia. rewrite Ex.
  unfold md, bind, gets. cbn [cs_c].
  match goal with |- context [c_mallocated ?c] => change (c_mallocated c) with (c_mallocated (cs_c s)) end.
  replace ((0 <=? i) && (i <? c_mallocated (cs_c s))) with true by lia. unfold ret.
  match goal with |- context [c_slabs ?c i] => change (c_slabs c i) with (c_slabs (cs_c s) i) end. fold bm.
  destruct (free_slot_random_spec bm slots slot (bitmap_ok _ Hbm) Hs Hslot) as (s2 & E2 & C1 & C2 & C3).
  { exists slot. split; [auto|]. rewrite <- occupied_get by lia. auto. }
  assert (s2 = slot) as ->.
  { assert (bm_get bm slot = false) as F by (rewrite <- occupied_get by lia; exact Hocc).
    destruct (Z.leb_spec slot s2) as [Hle|Hlt].
    - destruct (Z.eq_dec s2 slot); [auto|]. exfalso. rewrite (C3 slot ltac:(lia)) in F. discriminate.
    - destruct C3 as [C3 _]. rewrite (C3 slot ltac:(lia)) in F. discriminate. }
  rewrite E2. eexists. reflexivity.
Qed.
