(** C23: large-block bookkeeping behaves like a finite map. *)
From Coq Require Import String ZArith List Bool Lia.
From Verif Require Import M_Base M_Config M_OS M_Chacha M_Random M_Region S_Region P_Region3.
Import ListNotations.
Open Scope Z_scope.

(** Any history of insertions, removals, lookups and size changes starting from the
    initial table, with any kernel answers: every answer is that of a finite map.
    The hypothesis on [ra_leftover] says that the kernel never refused to discard a
    retired table; without it the property is false (below). *)
Theorem C23_finite_map : forall (g : config) (o : os) (addr_a addr_b : Z) (rng : random_state)
    (ops : list top) (l : list tans) (s : rastate),
  usable_config g = true ->
  t_exec g ops (mkRas o (ra_init g addr_a addr_b rng)) = Ok (l, s) ->
  ra_leftover (rs_ra s) = false ->
  legal fempty ops l ->
  right_answers fempty ops l.
Proof. exact C23_map. Qed.
Print Assumptions C23_finite_map.

(** No operation loops forever, faults or aborts, except for the abort on a kernel
    error other than ENOMEM. *)
Theorem C23_terminates : forall (g : config) (o : os) (addr_a addr_b : Z) (rng : random_state)
    (ops : list top) (l : list tans) (s : rastate) (op : top),
  usable_config g = true ->
  t_exec g ops (mkRas o (ra_init g addr_a addr_b rng)) = Ok (l, s) ->
  ra_leftover (rs_ra s) = false ->
  legal fempty ops l ->
  allowed (map_end fempty ops l) op ->
  match t_step g op s with
  | Ok (a, _) => right_answer (map_end fempty ops l) op a
  | Fail f => os_abort f
  end.
Proof. exact C23_progress. Qed.
Print Assumptions C23_terminates.

(** The hypothesis on [ra_leftover] holds in every history in which the kernel grants
    what it is asked for. *)
Theorem C23_leftover_needs_refusal : forall (g : config) (o : os) (addr_a addr_b : Z) (rng : random_state)
    (ops : list top) (l : list tans) (s : rastate),
  usable_config g = true ->
  (forall n, sa_errno (sysq o n) = 0) ->
  addr_a mod 4096 = 0 -> addr_b mod 4096 = 0 -> 0 <= addr_a <= 2 ^ 46 -> 0 <= addr_b <= 2 ^ 46 ->
  t_exec g ops (mkRas o (ra_init g addr_a addr_b rng)) = Ok (l, s) ->
  legal fempty ops l ->
  ra_leftover (rs_ra s) = false.
Proof. exact C23_granted. Qed.
Print Assumptions C23_leftover_needs_refusal.

(** Example history: collisions, growth from 128 to 256 to 512 entries, removals. *)
Definition ex_os (bad : nat) : os :=
  mkOs (fun _ => Some PNone) (fun _ => 7) (fun n => mkSysans (if Nat.eqb n bad then ENOMEM else 0) 0) 0
       (fun _ => mkEntans 0 []) 0 0 0.
Definition ex_s (bad : nat) : rastate := mkRas (ex_os bad) (ra_init default_config 1048576 1073741824 rng_zero).
Definition ins (i : Z) : top := TInsert (4096 * 5 * i) (4096 * i) 4096.
Definition ex_ops : list top :=
  map ins (zrange 1 99) ++ [TRemove (4096 * 5); TLookup (4096 * 10); TResize (4096 * 15) 1234; TLookup 77]
  ++ map ins (zrange 99 200) ++ [TLookup (4096 * 5); TLookup (4096 * 15); TRemove 0].

Example C23_case :
  exists l s, t_exec default_config ex_ops (ex_s 100) = Ok (l, s) /\ legal fempty ex_ops l /\ ra_leftover (rs_ra s) = false /\
    skipn 203 l = [AMissing; AFound 1234 4096; AMissing] /\ ra_total (rs_ra s) = 512.
Proof.
  destruct (exec_answers default_config ex_ops (ex_s 100)) as [l|] eqn:E; [|vm_compute in E; discriminate].
  destruct (exec_answers_ok _ _ _ _ E) as (s & Es). vm_compute in E. injection E as <-.
  eexists. exists s. split; [exact Es|]. split; [apply legalb_ok; vm_compute; reflexivity|].
  split; [|split].
  - assert (match t_exec default_config ex_ops (ex_s 100) with Ok (_, s) => ra_leftover (rs_ra s) | Fail _ => true end = false) as X by (vm_compute; reflexivity).
    rewrite Es in X. exact X.
  - reflexivity.
  - assert (match t_exec default_config ex_ops (ex_s 100) with Ok (_, s) => ra_total (rs_ra s) | Fail _ => 0 end = 512) as X by (vm_compute; reflexivity).
    rewrite Es in X. exact X.
Qed.

(** Without that hypothesis the property fails: h_malloc.c:1050 ignores a failing
    memory_map_fixed of the retired table.  If the kernel answers that one call with
    ENOMEM, the stale entries reappear when the buffer is used again by the second
    growth, and a removed address is found. *)
Theorem C23_finite_map_if_kernel_refuses_refuted :
  exists (g : config) (o : os) (addr_a addr_b : Z) (rng : random_state) (ops : list top) (l : list tans) (s : rastate),
    usable_config g = true /\
    (forall n, sa_errno (sysq o n) = 0 \/ sa_errno (sysq o n) = ENOMEM) /\
    t_exec g ops (mkRas o (ra_init g addr_a addr_b rng)) = Ok (l, s) /\
    legal fempty ops l /\ ~ right_answers fempty ops l.
Proof.
  exists default_config, (ex_os 1), 1048576, 1073741824, rng_zero, ex_ops.
  destruct (exec_answers default_config ex_ops (ex_s 1)) as [l|] eqn:E; [|vm_compute in E; discriminate].
  destruct (exec_answers_ok _ _ _ _ E) as (s & Es). vm_compute in E. injection E as <-.
  eexists. exists s. split; [reflexivity|]. split.
  { intros n. cbn. destruct n as [|[|n]]; auto. }
  split; [exact Es|]. split; [apply legalb_ok; vm_compute; reflexivity|].
  intros H. apply rightsb_ok in H. vm_compute in H. discriminate.
Qed.
Print Assumptions C23_finite_map_if_kernel_refuses_refuted.
