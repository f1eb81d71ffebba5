(** C11: writes to a free slot are detected when the slot is handed out again. *)
From Coq Require Import String ZArith List Bool Lia.
From Verif Require Import M_Base M_Config M_SizeClass M_OS M_Slab M_Region M_Api M_Hist S_SizeClass S_Slab S_Heap S_Class
  P_Api3 P_Api4 P_Api5 P_Api6 P_Api7 P_Api8 P_Api9 P_Api10 P_Demo P_Demo2 P_Demo3.
Import ListNotations.
Open Scope Z_scope.

(** a call that hands out a small block found all its bytes zero: were one of them not zero
    before the call, the call could not have returned this block *)
Theorem C11_detected : forall (g : config) (W : store_rule) (o : os) (t : trace) (s : state) (tid : Z) (c : op) (a : ans) (s' : state) (p n x : Z),
  usable_config g = true -> history g W o t s -> is_init s = true -> WRITE_AFTER_FREE_CHECK g = true ->
  calls g W t s tid c a s' -> handed_out (mkEv tid c a) = Some p -> in_small_area s' p -> usable_size g s' p n ->
  p <= x < p + n -> content s x = 0.
Proof. exact C11_detected_l. Qed.
Print Assumptions C11_detected.

(** a program that writes only to the usable bytes of its live blocks never sees the message *)
Theorem C11_no_false_alarm : forall (g : config) (o : os) (t : trace) (s : state) (tid : Z) (c : op) (f : fault),
  usable_config g = true -> history g (own_store g) o t s ->
  ends g (own_store g) t s tid c f -> valid_call g t s c -> f <> Fatal "detected write after free"%string.
Proof. exact C11_false_l. Qed.
Print Assumptions C11_no_false_alarm.

Example C11_case : history g0 any_store o0 t1 sP /\ is_init sP = true /\ WRITE_AFTER_FREE_CHECK g0 = true /\
  calls g0 any_store t1 sP 0 (OMalloc 90) (APtr 25784835920) sQ /\ in_small_area sQ 25784835920 /\ usable_size g0 sQ 25784835920 104.
Proof. split; [exact histP|]. split; [lkP (LOther is_init)|]. split; [reflexivity|]. split; [exact callQ|]. split; [exact areaQ|lkQ (LUsable 25784835920 104)]. Qed.
(** the slot that the call would hand out was written to while it was free *)
Example C11_abort_case : history g0 any_store o0 tW sW /\ content sW 25784835363 = 1 /\ ends g0 any_store tW sW 0 (OMalloc 104) (Fatal "detected write after free").
Proof. split; [exact histW|]. split; [lkW (LByte 25784835363 1)|lkW (LEnd 0 (OMalloc 104) (Fatal "detected write after free"))]. Qed.
