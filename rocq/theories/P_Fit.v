(** Lemmas for C52: blocks fit in the address space. *)
From Coq Require Import String ZArith List Bool Lia ZifyBool.
From Verif Require Import M_Base M_Config M_SizeClass M_OS M_Slab M_Region M_Api M_Hist S_Heap P_Base
  P_Heap1 P_Heap6 P_Heap7 P_Heap8 P_Api1 P_Api2 P_Api3.
Import ListNotations.
Open Scope Z_scope.
Ltac Zify.zify_post_hook ::= idtac.
Lemma C52_fit_l g W o t s p c n : usable_config g = true -> history g W o t s -> In (p, c) (live t) -> usable_size g s p n -> 0 < p /\ request c <= n /\ p + n < 2 ^ 48.
Proof.
  intros U H HL US. destruct (history_linv _ _ _ _ _ U H) as (LL & LI). destruct (live_block _ _ _ _ _ _ LI HL) as (m & B & R & HI & _). rewrite (usable_eq _ _ _ _ _ _ _ _ LI HL B US).
  pose proof (block_bounds g s LL [] (hi_inv _ _ _ HI) p m B). tauto.
Qed.
Lemma C52_huge_l g W o t s tid c a s' : usable_config g = true -> history g W o t s -> calls g W t s tid c a s' -> allocates c = true -> 2 ^ 48 <= request c -> forall p, a <> APtr p.
Proof.
  intros U H C AL HR p ->. pose proof (calls_history _ _ _ _ _ _ _ _ _ H C) as H'. destruct (history_linv _ _ _ _ _ U H') as (LL & LI).
  assert (In (p, c) (live (mkEv tid c (APtr p) :: t))) as HL by (destruct c; try discriminate; left; reflexivity).
  destruct (live_block _ _ _ _ _ _ LI HL) as (m & B & R & HI & _). pose proof (block_bounds g s' LL [] (hi_inv _ _ _ HI) p m B). lia.
Qed.
