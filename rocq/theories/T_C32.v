(** C32: output is ChaCha8 keystream of seeds from the OS, each byte used once. *)
From Coq Require Import String ZArith List Lia.
From Verif Require Import M_Base M_OS M_Chacha M_Random S_Chacha S_Random P_Base P_Random3 T_C30.
Import ListNotations.
Open Scope Z_scope.

(** For every initial state, every entropy stream and every sequence of requests: the
    output is a concatenation of keystream segments; every segment's key and nonce are
    the bytes of the system's answers from call number [sg_call] on; no two segments
    share a keystream byte of the same seed; at most 256 KiB come through the cache from
    one seed; and if no request exceeds 128 bytes (the allocator only makes such
    requests) the segments occur in stream order, seeds in order of their system calls. *)
Theorem C32_keystream_used_once : forall (s0 s1 : rstate) (rs : list request) (out : list Z) (s : rstate),
  Z.of_nat (length (rs_cache (r_rng s0))) = 256 ->
  random_state_init s0 = Ok (tt, s1) ->
  Forall (fun r => match r with ReqBytes n => 0 <= n | _ => True end) rs ->
  do_requests rs s1 = Ok (out, s) ->
  exists segs : list segment,
    out = flat_map seg_bytes segs /\
    Forall (seg_seeded (entq (r_os s0))) segs /\
    (forall pre g mid h post, segs = pre ++ g :: mid ++ h :: post -> seg_disjoint g h) /\
    (forall c, cached_total c segs <= 256 * 1024) /\
    (Forall (fun r => match r with ReqBytes n => n <= 128 | _ => True end) rs ->
       Forall (fun g => sg_cached g = true) segs /\
       forall pre g mid h post, segs = pre ++ g :: mid ++ h :: post -> seg_before g h).
Proof. exact history_ok. Qed.
Print Assumptions C32_keystream_used_once.

(** non-vacuity: three requests after an interrupted, short-reading seeding *)
Example C32_case : exists s1 out s,
  random_state_init ex_rng0 = Ok (tt, s1) /\
  do_requests [Req16; ReqBytes 300; Req64; ReqBytes 40] s1 = Ok (out, s) /\ length out = 350%nat.
Proof.
  destruct (random_state_init ex_rng0) as [[[] s1]|] eqn:E1; [|vm_compute in E1; discriminate].
  destruct (do_requests [Req16; ReqBytes 300; Req64; ReqBytes 40] s1) as [[out s]|] eqn:E2.
  - exists s1, out, s. split; [reflexivity|]. split; [exact E2|].
    apply (f_equal (fun r => match r with Ok (_, x) => x | Fail _ => ex_rng0 end)) in E1. cbv beta iota in E1.
    rewrite <- E1 in E2. apply (f_equal (fun r => match r with Ok (x, _) => length x | Fail _ => O end)) in E2.
    cbv beta iota in E2. rewrite <- E2. vm_compute. reflexivity.
  - exfalso.
    apply (f_equal (fun r => match r with Ok (_, x) => x | Fail _ => ex_rng0 end)) in E1. cbv beta iota in E1.
    rewrite <- E1 in E2. apply (f_equal (fun r => match r with Ok _ => true | Fail _ => false end)) in E2.
    vm_compute in E2. discriminate.
Qed.
