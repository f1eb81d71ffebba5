(** Lemmas for C51: what malloc_info writes is a well-formed document. *)
From Coq Require Import String Ascii ZArith List Bool Lia DecimalString DecimalFacts DecimalN.
From Verif Require Import M_Base M_Config M_SizeClass M_OS M_Slab M_Region M_Api M_Hist M_Stats M_Info S_Heap S_Class S_Stats S_Xml P_Base P_Stats P_Stats2 P_Stats3 P_Demo5.
Import ListNotations.
Open Scope Z_scope.
Lemma sapp_assoc (a b c : string) : ((a ++ b) ++ c = a ++ (b ++ c))%string.
Proof. induction a as [|x a IH]; cbn; [reflexivity|]. rewrite IH. reflexivity. Qed.
Lemma sapp_nil (a : string) : (a ++ "" = a)%string.
Proof. induction a as [|x a IH]; cbn; [reflexivity|]. rewrite IH. reflexivity. Qed.
Ltac flat := repeat (progress (rewrite ?sapp_assoc; cbn [append])).
Lemma unorm_not_nil d : Decimal.unorm d <> Decimal.Nil.
Proof. unfold Decimal.unorm. destruct (Decimal.nzhead d); discriminate. Qed.
Lemma print_spells w n : 0 <= w -> spells (Num w n) (print_unsigned w n).
Proof.
  intros W. pose proof (Z.mod_pos_bound n (2 ^ w) ltac:(apply Z.pow_pos_nonneg; lia)) as B. set (m := Z.to_N (n mod 2 ^ w)).
  assert (Decimal.unorm (N.to_uint m) = N.to_uint m) as E. { rewrite <- (DecimalN.Unsigned.to_of (N.to_uint m)), DecimalN.Unsigned.of_to. reflexivity. }
  apply (spells_num w n _ (N.to_uint m)).
  - unfold print_unsigned. fold m. apply NilZero.usu. rewrite <- E. apply unorm_not_nil.
  - exact E.
  - rewrite DecimalN.Unsigned.of_to. unfold m. lia.
Qed.
Lemma written_eq x s s' : written x s -> s = s' -> written x s'.
Proof. intros H <-. exact H. Qed.
Lemma all_eq x s s' : all_written x s -> s = s' -> all_written x s'.
Proof. intros H <-. exact H. Qed.
Lemma attr_eq x s s' : attributes_spell x s -> s = s' -> attributes_spell x s'.
Proof. intros H <-. exact H. Qed.
Lemma all_app l m a b : all_written l a -> all_written m b -> all_written (l ++ m) (a ++ b).
Proof. intros H K. revert a H. induction l as [|x l IH]; intros a H; inversion H; subst; cbn [app]; [exact K|]. rewrite sapp_assoc. constructor; auto. Qed.
Lemma counter_written name n : is_name name = true -> written (counter name n) ("<" ++ name ++ ">" ++ print_unsigned 64 n ++ "</" ++ name ++ ">").
Proof.
  intros N. eapply written_eq.
  - apply (written_elem name [] [Data (Num 64 n)] "" (print_unsigned 64 n ++ "")); auto; [constructor|constructor|]. constructor; [|constructor]. constructor. apply print_spells. lia.
  - rewrite sapp_nil. reflexivity.
Qed.
Lemma bin_written g k nm nd sa al : written (bin_node (mkBin k (class_size g k) nm nd sa al)) (print_bin g k nm nd sa al).
Proof.
  eapply written_eq.
  - eapply written_elem; [reflexivity| | |].
    + cbn. constructor; [cbn; intros [H|[]]; discriminate|]. constructor; [auto|constructor].
    + eapply attr_one; [reflexivity|apply print_spells; lia|]. eapply attr_one; [reflexivity|apply print_spells; lia|constructor].
    + repeat (eapply all_one; [apply counter_written; reflexivity|]). constructor.
  - cbn [b_nr b_size b_nmalloc b_ndalloc b_slabs b_allocated]. unfold print_bin, cat, quoted, quote. cbn [fold_right]. flat. rewrite ?sapp_nil. reflexivity.
Qed.
Lemma heap_written nr body b : all_written body b -> written (heap_node nr body) (cat ["<heap nr="; quote; print_unsigned 32 nr; quote; ">"; b; "</heap>"])%string.
Proof.
  intros H. eapply written_eq.
  - eapply written_elem; [reflexivity| | |exact H].
    + cbn. constructor; [auto|constructor].
    + eapply attr_one; [reflexivity|apply print_spells; lia|constructor].
  - unfold cat, quoted, quote. cbn [fold_right]. flat. reflexivity.
Qed.
Lemma malloc_written body b : all_written body b -> written (malloc_node body) (cat ["<malloc version="; quote; "hardened_malloc-1"; quote; ">"; b; "</malloc>"])%string.
Proof.
  intros H. eapply written_eq.
  - eapply written_elem; [reflexivity| | |exact H].
    + cbn. constructor; [auto|constructor].
    + eapply attr_one; [reflexivity|apply spells_word; reflexivity|constructor].
  - unfold cat, quoted, quote. cbn [fold_right append]. rewrite ?sapp_assoc. reflexivity.
Qed.
(** the text against the numbers *)
Lemma bins_text g a l : forall s,
  match run (info_bins g a l) s with
  | Ok (r, s') => exists txt, run (print_bins g a l) s = Ok (txt, s') /\ all_written (map bin_node r) txt
  | Fail f => run (print_bins g a l) s = Fail f
  end.
Proof.
  induction l as [|k l IH]; intros s; cbn [info_bins print_bins]; [exists ""%string; split; [reflexivity|constructor]|].
  rewrite !run_pbind. unfold bind. destruct (run (read_class g a k) s) as [[[[[nm nd] sa] al] s1]|f]; [|reflexivity].
  rewrite !run_pbind. unfold bind. specialize (IH s1). destruct (run (info_bins g a l) s1) as [[r s2]|f]; [|rewrite IH; reflexivity].
  destruct IH as (txt & -> & W). eexists. split; [reflexivity|].
  destruct (nm =? 0), (nd =? 0), (sa =? 0), (al =? 0); cbn [negb orb andb map append]; try exact W; (constructor; [apply bin_written|exact W]).
Qed.
Lemma heaps_text g l : forall s,
  match run (info_heaps g l) s with
  | Ok (r, s') => exists txt, run (print_heaps g l) s = Ok (txt, s') /\ all_written (map (fun h => heap_node (fst h) (map bin_node (snd h))) r) txt
  | Fail f => run (print_heaps g l) s = Fail f
  end.
Proof.
  induction l as [|a l IH]; intros s; cbn [info_heaps print_heaps]; [exists ""%string; split; [reflexivity|constructor]|].
  rewrite !run_pbind. unfold bind. pose proof (bins_text g a (zrange 0 (N_SIZE_CLASSES g)) s) as B. destruct (run (info_bins g a (zrange 0 (N_SIZE_CLASSES g))) s) as [[bs s1]|f]; [|rewrite B; reflexivity].
  destruct B as (tb & -> & Wb). rewrite !run_pbind. unfold bind. specialize (IH s1). destruct (run (info_heaps g l) s1) as [[r s2]|f]; [|rewrite IH; reflexivity].
  destruct IH as (txt & -> & W). eexists. split; [reflexivity|]. cbn [map fst snd].
  eapply all_eq; [constructor; [apply (heap_written a _ _ Wb)|exact W]|]. unfold cat, quote. cbn [fold_right]. flat. rewrite ?sapp_nil. reflexivity.
Qed.
Definition report_node (g : config) (r : report) : node := match r_large r with Some L => document (r_heaps r) (N_ARENA g) L | None => malloc_node [] end.
Lemma text_report g s r s' : run (h_malloc_info g 0) s = Ok ((0, Some r), s') -> exists txt, run (print_malloc_info g 0) s = Ok ((0, txt), s') /\ written (report_node g r) txt.
Proof.
  unfold h_malloc_info, print_malloc_info. cbn [Z.eqb negb]. rewrite !run_pbind. unfold bind. destruct (run (act get) s) as [[s1 s2]|f]; [|discriminate].
  destruct (negb (STATS g) || negb (is_init s1)).
  - intros [= <- <-]. eexists. split; [reflexivity|]. apply (written_eq _ _ _ (malloc_written [] "" all_none)). reflexivity.
  - rewrite !run_pbind. unfold bind. pose proof (heaps_text g (zrange 0 (N_ARENA g)) s2) as H. destruct (run (info_heaps g (zrange 0 (N_ARENA g))) s2) as [[hs s3]|f]; [|discriminate].
    destruct H as (th & -> & Wh). rewrite !run_pbind. unfold bind. destruct (run read_large s3) as [[L s4]|f]; [|discriminate]. intros [= <- <-]. eexists. split; [reflexivity|].
    unfold report_node, document. cbn [r_large r_heaps].
    assert (all_written [counter "allocated_large" L] ("<allocated_large>" ++ print_unsigned 64 L ++ "</allocated_large>")) as WL.
    { eapply all_eq; [constructor; [apply counter_written; reflexivity|constructor]|]. flat. rewrite ?sapp_nil. reflexivity. }
    eapply written_eq; [apply malloc_written, all_app; [exact Wh|constructor; [apply (heap_written _ _ _ WL)|constructor]]|]. unfold cat, quote. cbn [fold_right]. flat. rewrite ?sapp_nil. flat. reflexivity.
Qed.
Lemma C51_document_l g W o t s N : usable_config g = true -> STATS g = true -> history g W o t s -> is_init s = true -> slab_counts g s N ->
  exists txt L, reports s (print_malloc_info g 0) (0, txt) /\ written (document (map (fun a => (a, rows g s t N a)) (zrange 0 (N_ARENA g))) (N_ARENA g) L) txt /\ (ordinary t -> L = large_used g s t).
Proof.
  intros U ST H Hi SC. destruct (C28_info_l g W o t s N U ST H Hi SC) as (L & (s' & R & UN) & E). destruct (text_report _ _ _ _ R) as (txt & R' & WR). exists txt, L. split; [exists s'; auto|]. split; [exact WR|exact E].
Qed.
Lemma C51_empty_l g s : is_init s = false \/ STATS g = false -> exists txt, reports s (print_malloc_info g 0) (0, txt) /\ written (malloc_node []) txt.
Proof.
  intros H. destruct (info_early_l g s 0 0 H) as (_ & _ & _ & s' & R & UN). destruct (text_report _ _ _ _ R) as (txt & R' & WR). exists txt. split; [exists s'; auto|exact WR].
Qed.
Lemma C51_options_l g s options : options <> 0 -> exists s', run (print_malloc_info g options) s = Ok ((-1, ""%string), s') /\ errno (st_os s') = EINVAL.
Proof. intros H. unfold print_malloc_info. destruct (Z.eqb_spec options 0) as [E|_]; [contradiction|]. cbn [negb]. eexists. split; reflexivity. Qed.
