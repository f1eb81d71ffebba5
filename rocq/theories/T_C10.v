(** C10: overwritten canaries are detected on free, and only then. *)
From Coq Require Import String ZArith List Bool Lia.
From Verif Require Import M_Base M_Config M_SizeClass M_OS M_Slab M_Region M_Api M_Hist S_SizeClass S_Slab S_Heap S_Class
  P_Api3 P_Api4 P_Api5 P_Api6 P_Api7 P_Api8 P_Api9 P_Api10 P_Demo P_Demo2 P_Demo3.
Import ListNotations.
Open Scope Z_scope.

(** the eight bytes after a live small block do not hold the canary of its slab: free and
    malloc_usable_size end the process with the documented message, free_sized ends it, and
    realloc cannot move the block *)
Theorem C10_detected : forall (g : config) (W : store_rule) (o : os) (t : trace) (s : state) (p n v tid : Z),
  usable_config g = true -> history g W o t s -> SLAB_CANARY g = true ->
  is_live t p -> canary_of g s p n v -> number_at s (p + n) <> v ->
  run (op_run g tid (OFree p)) s = Fail (Fatal "canary corrupted"%string) /\
  run (op_run g tid (OUsableSize p)) s = Fail (Fatal "canary corrupted"%string) /\
  (forall m, word m -> exists msg, run (op_run g tid (OFreeSized p m)) s = Fail (Fatal msg)) /\
  (forall m q s', calls g W t s tid (ORealloc p m) (APtr q) s' -> q = p).
Proof. exact C10_live_l. Qed.
Print Assumptions C10_detected.

(** the same without naming the canary: a byte among those eight differs from what it was when
    the block was handed out *)
Theorem C10_changed : forall (g : config) (W : store_rule) (o : os) (t : trace) (s : state) (tid : Z) (c : op) (a : ans) (s0 : state) (p n : Z) (t' : trace) (s' : state) (x : Z),
  usable_config g = true -> history g W o t s -> SLAB_CANARY g = true ->
  calls g W t s tid c a s0 -> handed_out (mkEv tid c a) = Some p -> in_small_area s0 p -> usable_size g s0 p n -> n <> 0 ->
  continues g W (mkEv tid c a :: t) s0 t' s' -> (forall e, In e (since (mkEv tid c a :: t) t') -> freed_by e <> Some p) ->
  p + n <= x < p + n + 8 -> bytes_at s0 (p + n) (p + n + 8) -> bytes_at s' (p + n) (p + n + 8) -> content s' x <> content s0 x ->
  forall tid', run (op_run g tid' (OFree p)) s' = Fail (Fatal "canary corrupted"%string) /\
  run (op_run g tid' (OUsableSize p)) s' = Fail (Fatal "canary corrupted"%string) /\
  (forall m, word m -> exists msg, run (op_run g tid' (OFreeSized p m)) s' = Fail (Fatal msg)) /\
  (forall m q s2, calls g W t' s' tid' (ORealloc p m) (APtr q) s2 -> q = p).
Proof. exact C10_changed_l. Qed.
Print Assumptions C10_changed.

(** every small block is handed out with the canary in place, and its first byte is zero *)
Theorem C10_written : forall (g : config) (W : store_rule) (o : os) (t : trace) (s : state) (tid : Z) (c : op) (a : ans) (s' : state) (p n v : Z),
  usable_config g = true -> history g W o t s -> SLAB_CANARY g = true ->
  calls g W t s tid c a s' -> handed_out (mkEv tid c a) = Some p -> canary_of g s' p n v ->
  number_at s' (p + n) = v /\ v mod 256 = 0 /\ (bytes_at s' (p + n) (p + n + 8) -> content s' (p + n) = 0).
Proof. exact C10_written_l. Qed.
Print Assumptions C10_written.

(** a program that writes only to the usable bytes of its live blocks never sees the message *)
Theorem C10_no_false_alarm : forall (g : config) (o : os) (t : trace) (s : state) (tid : Z) (c : op) (f : fault),
  usable_config g = true -> history g (own_store g) o t s ->
  ends g (own_store g) t s tid c f -> valid_call g t s c -> f <> Fatal "canary corrupted"%string.
Proof. exact C10_false_l. Qed.
Print Assumptions C10_no_false_alarm.

(** a program writes to the fourth byte after a block of 104 usable bytes *)
Example C10_case : exists v, history g0 any_store o0 tK sK /\ is_live tK 25784835920 /\ canary_of g0 sK 25784835920 104 v /\ number_at sK (25784835920 + 104) <> v /\
  ends g0 any_store tK sK 0 (OFree 25784835920) (Fatal "canary corrupted") /\
  ends g0 any_store tK sK 0 (ORealloc 25784835920 5000) (Fatal "canary corrupted").
Proof.
  destruct (slab7_ok sK ltac:(lkK (LOther slab7))) as (v & H1 & H2). exists v. split; [exact histK|]. split; [eexists; left; reflexivity|]. split; [exact H1|]. split; [exact H2|].
  split; [lkK (LEnd 0 (OFree 25784835920) (Fatal "canary corrupted"))|lkK (LEnd 0 (ORealloc 25784835920 5000) (Fatal "canary corrupted"))].
Qed.
Example C10_changed_case : calls g0 any_store t1 sP 0 (OMalloc 90) (APtr 25784835920) sQ /\ in_small_area sQ 25784835920 /\ usable_size g0 sQ 25784835920 104 /\
  continues g0 any_store tQ sQ tK sK /\ (forall e, In e (since tQ tK) -> freed_by e <> Some 25784835920) /\
  bytes_at sQ (25784835920 + 104) (25784835920 + 104 + 8) /\ bytes_at sK (25784835920 + 104) (25784835920 + 104 + 8) /\ content sK 25784836027 <> content sQ 25784836027.
Proof.
  split; [exact callQ|]. split; [exact areaQ|]. split; [lkQ (LUsable 25784835920 104)|]. split; [exact contK|].
  split; [intros e He; change (since tQ tK) with [mkEv 0 (OWrite 25784836027 7) AUnit] in He; destruct He as [<-|[]]; discriminate|].
  split; [exact (bytes8_ok sQ ltac:(lkQ (LOther bytes8)))|]. split; [exact (bytes8_ok sK ltac:(lkK (LOther bytes8)))|].
  assert (content sK 25784836027 = 7) as -> by lkK (LByte 25784836027 7). assert (differs sQ = true) as D by lkQ (LOther differs). unfold differs in D. apply negb_true_iff, Z.eqb_neq in D. intros E. apply D. auto.
Qed.
Example C10_written_case : exists v, canary_of g0 sQ 25784835920 104 v /\ number_at sQ (25784835920 + 104) = v /\ content sQ (25784835920 + 104) = 0.
Proof. destruct (slab7_eq_ok sQ ltac:(lkQ (LOther slab7_eq))) as (v & H1 & H2). exists v. split; [exact H1|]. split; [exact H2|]. lkQ (LByte 25784836024 0). Qed.
Example C10_no_false_alarm_case : history g0 (own_store g0) o0 t1 s1 /\ valid_call g0 t1 s1 (OFreeSized 25784834800 105) /\
  ends g0 (own_store g0) t1 s1 0 (OFreeSized 25784834800 105) (Fatal "sized deallocation mismatch (small)").
Proof.
  split; [exact demo1_history|]. split; [right; eexists; cbn; eauto 10|look1 (LEnd 0 (OFreeSized 25784834800 105) (Fatal "sized deallocation mismatch (small)"))].
Qed.
