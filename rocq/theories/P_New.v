From Coq Require Import String ZArith List Bool Lia.
From Verif Require Import M_Base M_Config M_SizeClass M_OS M_Slab M_Region M_Api M_Hist M_New S_SizeClass S_Heap S_New P_Base P_Api2 P_Api3 P_Api4 P_Api5 P_Api6 P_Api7 P_Demo P_Refute.
Import ListNotations.
Open Scope Z_scope.

Definition the_alloc (g : config) (tid size : Z) (align : option Z) : prog state (option Z) :=
  match align with None => h_malloc g tid size | Some al => h_aligned_alloc g tid al size end.
Lemma attempt_ok g tid size align s r s' : run (the_alloc g tid size align) s = Ok (r, s') -> attempt g tid size align s r s'.
Proof. intros E. unfold attempt. destruct align; cbn [op_run the_alloc] in *; exact (run_pmap_ok ans_ptr _ _ _ _ E). Qed.
Lemma oom_ok g tid size align hq nothrow s0 fuel : forall n w r w', nw_query w = n -> failures g tid size align hq s0 n (nw_heap w) (nw_log w) ->
  handle_out_of_memory (the_alloc g tid size align) hq nothrow fuel w = Ok (r, w') ->
  conforms g tid size align nothrow hq s0 (n + fuel) r (nw_heap w') (nw_log w').
Proof.
  induction fuel as [|fuel IH]; intros n w r w' En F E; cbn [handle_out_of_memory] in E; [injection E as <- <-; cbn [conforms]; rewrite Nat.add_0_r; exact F|].
  rewrite En in E. destruct (hq n) as [|f e] eqn:Q.
  - injection E as <- <-. cbn [nw_heap nw_log]. destruct nothrow; (split; [reflexivity|left; eauto]).
  - destruct e.
    + destruct (run (the_alloc g tid size align) (f (nw_heap w))) as [[r0 s]|] eqn:R; cbn [nw_heap] in E; rewrite R in E; [|discriminate]. apply attempt_ok in R. destruct r0 as [p|].
      * injection E as <- <-. cbn [nw_query nw_log nw_heap conforms]. right. exists n, (nw_heap w), (nw_log w), f. auto.
      * rewrite Nat.add_succ_r, <- Nat.add_succ_l. eapply IH; [| |exact E]; [reflexivity|]. cbn [nw_log nw_heap]. econstructor; eauto.
    + injection E as <- <-. cbn [nw_heap nw_log]. destruct nothrow; (split; [reflexivity|right; exists n, (nw_heap w), (nw_log w), f; auto]).
    + injection E as <- <-. cbn [nw_heap nw_log]. destruct nothrow; (split; [reflexivity|exists n, (nw_heap w), (nw_log w), f; auto]).
Qed.
Lemma new_contract g tid size align nothrow hq fuel s0 r w' : operator_new g tid size align nothrow hq fuel (mkNw s0 0 []) = Ok (r, w') ->
  conforms g tid size align nothrow hq s0 fuel r (nw_heap w') (nw_log w').
Proof.
  unfold operator_new, new_impl. fold (the_alloc g tid size align). cbn [nw_heap nw_query nw_log]. intros E. destruct (run (the_alloc g tid size align) s0) as [[r0 s]|] eqn:R; [|discriminate]. apply attempt_ok in R. destruct r0 as [p|].
  - injection E as <- <-. cbn [nw_query nw_log nw_heap conforms]. left. auto.
  - change fuel with (0 + fuel)%nat at 1. eapply oom_ok; [| |exact E]; [reflexivity|]. cbn [nw_log nw_heap]. constructor. exact R.
Qed.
Lemma new_first g tid size nothrow hq fuel s p s' : run (h_malloc g tid size) s = Ok (Some p, s') -> operator_new g tid size None nothrow hq fuel (mkNw s 0 []) = Ok (NPtr p, mkNw s' 0 [EAlloc (Some p)]).
Proof. intros E. unfold operator_new, new_impl. cbn [nw_heap nw_query nw_log]. rewrite E. reflexivity. Qed.
(** delete *)
Lemma same_size_refl g W o t s p m : usable_config g = true -> history g W o t s -> In (p, OMalloc m) (live t) -> W = own_store g -> same_size g m m.
Proof.
  intros U H HL ->. destruct (usable_returns _ _ _ _ _ _ U H HL) as (n & US). pose proof (live_words _ _ _ _ _ H _ _ HL) as Wm. cbn in Wm.
  destruct (C17_exact_l _ _ _ _ _ _ _ m n U H HL (or_introl eq_refl) Wm US) as (r & R & _). exists r. auto.
Qed.
Lemma delete_run g p size s : run (pmap (fun _ => AUnit) (operator_delete g p size)) s = run (op_run g 0 (match size with None => OFree p | Some n => OFreeSized p n end)) s.
Proof. destruct size; reflexivity. Qed.
Lemma delete_ok g o t s p c size : usable_config g = true -> history g (own_store g) o t s -> In (p, c) (live t) -> size = None \/ (exists m, c = OMalloc m /\ size = Some m) ->
  (exists s', run (operator_delete g p size) s = Ok (tt, s')) \/ (exists f, run (operator_delete g p size) s = Fail f /\ kernel_abort f).
Proof.
  intros U H HL Hs.
  assert (word p) as Wp by (destruct (history_linv _ _ _ _ _ U H) as (LL & LI); destruct (P_Api3.live_block _ _ _ _ _ _ LI HL) as (n & B & _ & HI & PW & _); unfold word; lia).
  pose proof (delete_run g p size s) as D. destruct (run (operator_delete g p size) s) as [[[] s']|f] eqn:E; [left; eauto|right]. exists f. split; [reflexivity|].
  rewrite (run_pmap_dead _ _ _ _ E) in D. destruct Hs as [-> | (m & -> & ->)].
  - destruct (C08_valid g o t s 0 p U H Wp) as [(s' & X)|(f' & X & K)]; [right; eexists; eauto|congruence|]. rewrite X in D. injection D as ->. exact K.
  - pose proof (live_words _ _ _ _ _ H _ _ HL) as Wm. cbn in Wm. destruct (C19_own g o t s 0 p m m U H HL Wm) as [(s' & X & _)|(f' & X & [[_ N]|K])]; [destruct (Z.eq_dec m 0); [right; lia|left; auto]|congruence| |].
    + exfalso. apply N. eapply same_size_refl; eauto.
    + rewrite X in D. injection D as ->. exact K.
Qed.
Lemma aligned_delete_bad : exists (g : config) (o : os) (t : trace) (s : state) (p al n : Z) (f : fault),
  usable_config g = true /\ history g (own_store g) o t s /\ In (p, OAlignedAlloc al n) (live t) /\ run (operator_delete g p (Some n)) s = Fail f /\ size_mismatch f.
Proof.
  destruct C19_aligned_bad as (g & o & t & s & p & al & n & tid & f & U & H & HL & E & M). exists g, o, t, s, p, al, n, f. repeat split; auto.
  cbn [op_run] in E. cbn [operator_delete]. destruct (run (h_free_sized g p n) s) as [[[] s']|f'] eqn:R; [rewrite (run_pmap_ok (fun _ : unit => AUnit) _ _ _ _ R) in E; discriminate|]. rewrite (run_pmap_dead _ _ _ _ R) in E. congruence.
Qed.
