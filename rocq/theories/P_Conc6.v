(** Interleaved calls: every call of a correct or reckless program is safe, and the
    invariant of all threads together. *)
From Coq Require Import String ZArith List Bool Lia ZifyBool Permutation.
From Verif Require Import M_Base M_Config M_SizeClass M_Libdivide M_OS M_Random M_Slab M_Region M_Api M_Hist M_Conc S_Heap S_Conc
  P_Base P_Count P_SizeClass P_Libdivide P_Random P_Bitmap P_Bitmap2 P_OS P_Links P_Slab1 P_Slab2 P_Slab3 P_Slab4 P_Slab9 P_Slab10 P_Slab11 P_Path
  P_Region P_Region2 P_Heap1 P_Heap2 P_Heap3 P_Heap4 P_Heap5 P_Heap6 P_Heap7 P_Init P_Heap8 P_Heap9 P_Heap10 P_Heap11 P_Api4 P_Conc1 P_Conc2 P_Conc3 P_Conc4 P_Conc5.
Import ListNotations.
Open Scope Z_scope.
Ltac Zify.zify_post_hook ::= idtac.

Definition sized_call (c : op) : bool := match c with OFreeSized _ _ => true | _ => false end.
(** ** returning *)
Section M.
Context (g : config) (md : bool).
Notation J := (J g md). Notation up := (up g md). Notation down := (down g md). Notation ends := P_Conc2.ends.
Lemma ends_in X r t : ends X r -> In t r -> (exists a e, t = TI a e) \/ is_bt t = true.
Proof.
  intros (A & B & C & D) Ht. destruct t; cbn; eauto.
  - elim (C t Ht).
  - apply in_flights in Ht. rewrite A in Ht. destruct Ht.
  - apply in_opens in Ht. rewrite B in Ht. destruct Ht.
Qed.
Lemma bts_only X r : Permutation (bts r) X -> flights X = [] /\ opens X = [] /\ (forall t, In t X -> is_bt t = true /\ In t r).
Proof.
  intros P. assert (forall t, In t X -> is_bt t = true /\ In t r) as H.
  { intros t Ht. apply (Permutation_in t (Permutation_sym P)) in Ht. unfold bts in Ht. apply filter_In in Ht. tauto. }
  split; [|split; [|exact H]].
  - destruct (flights X) as [|f l] eqn:E; [auto|]. assert (In (TF f) X) as K by (apply in_flights; rewrite E; left; auto). destruct (H _ K). discriminate.
  - destruct (opens X) as [|f l] eqn:E; [auto|]. assert (In (TO f) X) as K by (apply in_opens; rewrite E; left; auto). destruct (H _ K). discriminate.
Qed.
Lemma J_return bal s X r rest : ends X r -> J bal s (r ++ rest) -> J bal s (X ++ rest).
Proof.
  intros E. pose proof E as (A & B & C & D). destruct (bts_only X r D) as (F1 & F2 & F3). intros [(LL & U)|[]].
  - left. exists LL. pose proof U as [I O S K N T G]. rewrite flights_app, A in I. rewrite opens_app, B in O. constructor; auto.
    + rewrite flights_app, F1. exact I.
    + rewrite opens_app, F2. exact O.
    + intros a e Ht. apply T. apply in_app_iff in Ht. apply in_or_app. destruct Ht as [Ht|Ht]; [left; apply F3, Ht|auto].
    + revert G. unfold ghost. destruct md.
      * intros (G1 & G2 & G3). split; [auto|]. split.
        -- intros t Ht. apply G2. apply in_app_iff in Ht. apply in_or_app. destruct Ht as [Ht|Ht]; [left; apply F3, Ht|auto].
        -- eapply Permutation_NoDup; [|exact G3]. rewrite !ptrs_app, <- (ptrs_bts r). apply Permutation_app_tail, ptrs_perm, D.
      * intros G p. specialize (G p). rewrite net_app, <- (net_bts r), (net_perm _ _ p D) in G. rewrite net_app. exact G.
  - right. assert (r = []) as ->. { destruct r as [|t r]; [auto|]. destruct (dn_toks t) as (i & ->); [left; auto|]. elim (C i). left. auto. }
    cbn in D. apply Permutation_nil in D. subst X. constructor; auto.
Qed.
Lemma J_absorb bal s X r rest : md = false -> ends X r -> J bal s (r ++ rest) -> J (fun p => bal p + net X p) s rest.
Proof.
  intros Em E Jv. pose proof (J_return _ _ _ _ _ E Jv) as Jx. destruct E as (A & B & C & D). destruct (bts_only X r D) as (F1 & F2 & F3). destruct Jv as [(LL0 & U0)|D0].
  - destruct Jx as [(LL & U)|D1].
    + left. exists LL. pose proof U as [I O S K N T G]. rewrite flights_app, F1 in I. rewrite opens_app, F2 in O. constructor; auto.
      * intros a e Ht. apply T. apply in_or_app. auto.
      * unfold ghost in *. rewrite Em in *. intros p. specialize (G p). rewrite net_app in G. rewrite <- Z.add_assoc. exact G.
    + exfalso. pose proof (up_is_init _ _ _ _ _ _ U0) as Z1. destruct D1 as [_ Z2 _ _ _ _ _ _]. unfold is_init in Z1. lia.
  - assert (r = []) as ->. { destruct r as [|t r]; [auto|]. destruct (dn_toks _ _ _ _ _ D0 t) as (i & ->); [left; auto|]. elim (C i). left. auto. }
    cbn in D. apply Permutation_nil in D. subst X. right. destruct D0. constructor; auto. intros _ p. cbn. rewrite dn_bal; auto.
Qed.
End M.

(** ** correct programs *)
Section T.
Context (g : config).
Definition holds (e : Z * op) (t : tok) : Prop := exists n, lent t (fst e) n /\ request (snd e) <= n /\ (~ overaligned g (snd e) -> fit g t).
Definition done_ok (b : option (Z * op)) (c : op) (a : ans) (r : list tok) : Prop := exists X, P_Conc2.ends X r /\ Forall2 holds (back b c a) X.
Definition ready_ok (b : option (Z * op)) (c : op) (r : list tok) : Prop :=
  if borrows c then exists e t, b = Some e /\ borrowed c e = true /\ r = [t] /\ holds e t else b = None /\ r = [].
Lemma given_holds (F : Prop) n c p r : given_if g true F n (Some p) r -> request c <= n -> (~ overaligned g c -> F) -> exists X, P_Conc2.ends X r /\ Forall2 holds [(p, c)] X.
Proof. intros (t & m & E & O & L & FT) H HF. exists [t]. split; [auto|]. constructor; [|constructor]. exists m. cbn [fst snd]. split; [|split; [lia|auto]]. exact O. Qed.
Lemma map_csafe {A} md sz tid (f : A -> ans) (p : prog state A) r (Q : A -> list tok -> Prop) (Q' : ans -> list tok -> Prop) :
  csafe g md sz tid p r Q -> (forall a r', Q a r' -> Q' (f a) r') -> csafe g md sz tid (pmap f p) r Q'.
Proof. intros H HQ. unfold pmap. eapply csafe_bind; [exact H|]. exact HQ. Qed.
Lemma alloc_done (F : Prop) c md n (x : option Z) r : allocates c = true -> (forall p m, c = ORealloc p m -> p = 0) -> request c <= n -> (~ overaligned g c -> F) -> md = true -> given_if g md F n x r -> done_ok None c (ans_ptr x) r.
Proof.
  intros Ha Hr Hn HF -> H. unfold done_ok. destruct x as [p|]; cbn [ans_ptr].
  - replace (back None c (APtr p)) with [(p, c)] by (destruct c; try discriminate; reflexivity). eapply given_holds; eauto.
  - exists []. split; [exact H|]. destruct c; try discriminate; constructor.
Qed.
Lemma alloc_done' c md n (x : option Z) r : allocates c = true -> (forall p m, c = ORealloc p m -> p = 0) -> request c <= n -> md = true -> given g md n x r -> done_ok None c (ans_ptr x) r.
Proof. intros Ha Hr Hn E H. apply (alloc_done True c md n); auto. apply given_given, H. Qed.
Lemma fast_csafe md sz tid p : csafe g md sz tid (h_malloc_object_size_fast g p) [] (fun _ r => P_Conc2.ends [] r).
Proof.
  unfold h_malloc_object_size_fast. destruct (p =? 0); [apply ends_0|]. eapply csafe_bind with (Q := fun s r' => r' = [TI (st_start s) (st_end s)] \/ (r' = [] /\ st_end s = 0)).
  - apply get_csafe; [apply mine_nil|auto|auto].
  - intros s r' H. assert (P_Conc2.ends [] r') as E by (destruct H as [->|[-> _]]; [apply ends_nil|apply ends_0]). cbn beta. destruct (in_slab_region p s); [exact E|]. destruct (negb (is_init s)); exact E.
Qed.
Lemma object_csafe sz tid p q t n : 0 <= p < 2 ^ 64 -> p <> 0 -> lent t q n -> q <= p < q + n -> csafe g true sz tid (h_malloc_object_size g p) [t] (fun _ r' => P_Conc2.ends [t] r').
Proof.
  intros Hp N0 L Hq. unfold h_malloc_object_size. replace (p =? 0) with false by lia. destruct (lent_facts _ _ _ L) as (LA & LB & LC & LD & LE).
  assert (P_Conc2.loan true t q [t]) as LO by (split; [auto|exists n; exact L]). assert (forall a e, P_Conc2.ends [t] [TI a e; t]) as EN by (intros a e; apply ends_TI, (ends_self true t q), LO).
  assert (P_Conc1.mine true sz tid [t]) as M1 by (eapply loan_mine; exact LO).
  assert (forall a e, P_Conc1.mine true sz tid [TI a e; t]) as M2 by (intros a e; apply mine_cons; [exact Logic.I|exact M1]).
  eapply csafe_bind with (Q := fun s r' => r' = [TI (st_start s) (st_end s); t] /\ is_init s = true).
  - apply get_csafe; [exact M1|intros s Ei K; auto|]. intros Hr s E0. exfalso. destruct (Hr t ltac:(left; auto)) as (i & K). exact (LC i K).
  - intros s r' (-> & Ei). destruct (in_slab_region p s) eqn:Sl.
    + eapply csafe_bind with (Q := fun _ r' => r' = [TI (st_start s) (st_end s); t]); [|intros x r' ->; apply EN].
      apply (csafe_up g true sz tid _ _ (st_start s) (st_end s)); [left; auto|]. intros s1 rest bal LL T U O Es Ee. pose proof (up_inv _ _ _ _ _ _ U) as I.
      assert (in_slab_region p s1 = true) as Sl1 by (unfold in_slab_region in *; rewrite Es, Ee; auto).
      assert (block g s1 LL q n) as BK.
      { pose proof (up_ghost _ _ _ _ _ _ U) as (_ & G & _). eapply tok_block; [apply G; right; left; reflexivity|]. rewrite LB. left. reflexivity. }
      destruct (addr_class g s1 (gi_u _ _ _ _ I) (gi_pl _ _ _ _ I) p Sl1) as (a & k & E & Ck & _). apply (at_class_wp g s1 p a k (fun a k => on_class g a k (object_size_class g k p)) _ _ E).
      assert (exists i j, sblk g s1 a k i j q /\ n = usable_of g k) as (i & j & SB & En).
      { destruct BK as [(a' & k' & i & j & SB & En)|(gd & B)].
        - pose proof (usable_bounds g k' ltac:(apply SB)). destruct (sblk_extent g s1 LL _ I _ _ _ _ _ SB p ltac:(lia)) as (_ & E' & _). rewrite E in E'. injection E' as <- <-. eauto.
        - rewrite (region_not_slab g s1 LL _ I _ B p) in Sl1; [discriminate|cbn; lia]. }
      assert (k <> 0) as K0 by (intros ->; unfold usable_of in En; cbn in En; lia).
      apply on_class_wp; [exact Ck|]. destruct (gclass _ _ _ _ I a k Ck) as (E1 & F1 & Iv). eapply wp_mono; [apply (object_size_wp g k (st_os s1) (st_cls s1 a k) E1 F1 p Iv Hp K0)| |].
      * intros r cs (-> & _). cbn [cs_os cs_c]. exists [TI (st_start s) (st_end s); t]. split; [exists LL; apply put_up; auto|]. split; [apply keep_os; reflexivity|]. split; [apply M2|reflexivity].
      * intros f (_ & N). exfalso. destruct SB as (_ & Hj & Hg & Eq). pose proof (usable_bounds g k ltac:(apply Ck)). apply (N i j Hj Hg). lia.
    + rewrite Ei. cbn [negb]. eapply csafe_mono with (Q := fun _ r' => r' = [TI (st_start s) (st_end s); t]); [|intros x r' ->; apply EN].
      apply (csafe_up g true sz tid _ _ (st_start s) (st_end s)); [left; auto|]. intros s1 rest bal LL T U O Es Ee. pose proof (up_inv _ _ _ _ _ _ U) as I. unfold on_ra. apply wp_zoom. unfold object_find. apply wp_bind.
      assert (forall m : Z, exists r', (exists LL', P_Conc1.up g true bal s1 LL' (r' ++ rest)) /\ P_Conc1.keep true rest s1 s1 /\ P_Conc1.mine true sz tid r' /\ r' = [TI (st_start s) (st_end s); t]) as OK.
      { intros _. exists [TI (st_start s) (st_end s); t]. split; [eauto|]. split; [apply keep_refl|]. auto. }
      apply (find_wp g s1 (ra_get s1) LL (flights ([TI (st_start s) (st_end s); t] ++ rest))); [rewrite ra_put_get; exact I| |].
      * intros i szz gd Hin Hi _ Hc. apply wp_bind, wp_gets, wp_ret. rewrite ra_put_get. apply (OK 0).
      * intros N. apply wp_bind, wp_gets, wp_ret. rewrite ra_put_get. apply (OK 0).
Qed.
Lemma op_csafe ob tid c b r : words c -> alignment c <= 4096 \/ ob -> match c with OWrite _ _ => False | _ => True end -> (forall p n e, c = ORealloc p n -> b = Some e -> ~ overaligned g (snd e)) -> ready_ok b c r ->
  csafe g true (mkMode (sized_call c) ob) tid (op_run g tid c) r (done_ok b c).
Proof.
  intros Hw Ha Hx Hv Hr. unfold ready_ok in Hr.
  assert (P_Conc2.ends [] []) as E0 by apply ends_0.
  destruct c; try contradiction; cbn [words alignment borrows sized_call op_run] in *; unfold word in Hw.
  - destruct Hr as [-> ->]. eapply map_csafe; [apply (malloc_csafe g true (mkMode false ob) tid n (or_introl eq_refl)); lia|]. intros x r'. apply alloc_done'; [reflexivity|discriminate|cbn; lia|auto].
  - destruct Hr as [-> ->]. eapply map_csafe; [apply (calloc_csafe g true (mkMode false ob) tid _ _ (or_introl eq_refl)); [lia|lia|discriminate]|]. intros x r'. apply alloc_done'; [reflexivity|discriminate|cbn; lia|auto].
  - destruct (Z.eqb_spec p 0) as [->|Np]; cbn [negb] in Hr.
    + destruct Hr as [-> ->]. eapply map_csafe; [apply realloc_new; lia|]. intros x r'. apply alloc_done'; [reflexivity|congruence|cbn; lia|auto].
    + destruct Hr as ([p' o] & t & -> & Eb & -> & n0 & L & R & F). cbn [borrowed fst snd] in Eb. apply Z.eqb_eq in Eb. subst p'. cbn [fst snd] in *. eapply map_csafe; [apply (realloc_csafe g (mkMode false ob) tid p n t n0); [lia|lia|exact L|apply F, (Hv p n _ eq_refl eq_refl)]|].
      intros [q|] r' H; cbn [ans_ptr]; [apply (given_holds True n (ORealloc p n) q r'); [apply given_given, H|cbn; lia|auto]|]. exists [t]. split; [exact H|]. constructor; [|constructor]. exists n0. auto.
  - destruct Hr as [-> ->]. eapply map_csafe; [apply (aligned_csafe g true (mkMode false ob) tid al n 8 (or_introl eq_refl)); [lia|lia|exact Ha|lia]|]. intros [er|p] r' H; cbn [ans_code].
    + exists []. split; [exact H|constructor].
    + eapply given_holds; [exact H|cbn; lia|unfold overaligned, reallocable; cbn; lia].
  - destruct Hr as [-> ->]. eapply map_csafe; [apply (simple_csafe g true (mkMode false ob) tid _ _ (or_introl eq_refl)); [lia|lia|exact Ha]|]. intros x r'. apply alloc_done; [reflexivity|discriminate|cbn; lia|unfold overaligned, reallocable; cbn; lia|auto].
  - destruct Hr as [-> ->]. eapply map_csafe; [apply (simple_csafe g true (mkMode false ob) tid _ _ (or_introl eq_refl)); [lia|lia|exact Ha]|]. intros x r'. apply alloc_done; [reflexivity|discriminate|cbn; lia|unfold overaligned, reallocable; cbn; lia|auto].
  - destruct Hr as [-> ->]. eapply map_csafe; [apply (simple_csafe g true (mkMode false ob) tid PAGE_SIZE n (or_introl eq_refl)); unfold PAGE_SIZE; change (2 ^ 64) with 18446744073709551616 in *; lia|]. intros x r'. apply alloc_done; [reflexivity|discriminate|cbn; lia|unfold overaligned, reallocable, PAGE_SIZE; cbn; lia|auto].
  - destruct Hr as [-> ->]. eapply map_csafe; [apply (pvalloc_csafe g true (mkMode false ob) tid _ (or_introl eq_refl)); lia|]. intros x r'. apply alloc_done'; [reflexivity|discriminate|cbn; lia|auto].
  - destruct (Z.eqb_spec p 0) as [->|Np]; cbn [negb] in Hr.
    + destruct Hr as [-> ->]. exists []. split; [exact E0|constructor].
    + destruct Hr as ([p' o] & t & -> & Eb & -> & n0 & L & R & F). cbn [borrowed fst snd] in Eb. apply Z.eqb_eq in Eb. subst p'. eapply map_csafe; [apply (free_csafe g true (mkMode false ob) tid p t [t]); auto; split; [auto|exists n0; exact L]|]. intros [] r' H. exists []. split; [exact H|constructor].
  - destruct (Z.eqb_spec p 0) as [->|Np]; cbn [negb] in Hr.
    + destruct Hr as [-> ->]. exists []. split; [exact E0|constructor].
    + destruct Hr as ([p' o] & t & -> & Eb & -> & n0 & L & R & F). cbn [borrowed fst snd] in Eb. apply Z.eqb_eq in Eb. subst p'. eapply map_csafe; [apply (free_sized_csafe g true (mkMode true ob) tid p n t [t]); auto; [lia|split; [auto|exists n0; exact L]]|]. intros [] r' H. exists []. split; [exact H|constructor].
  - destruct (Z.eqb_spec p 0) as [->|Np]; cbn [negb] in Hr.
    + destruct Hr as [-> ->]. exists []. split; [exact E0|constructor].
    + destruct Hr as ([p' o] & t & -> & Eb & -> & n0 & L & R & F). cbn [borrowed fst snd] in Eb. apply Z.eqb_eq in Eb. subst p'. eapply map_csafe; [apply (usable_csafe g true (mkMode false ob) tid p t [t]); auto; split; [auto|exists n0; exact L]|]. intros x r' H. exists [t]. split; [exact H|]. constructor; [|constructor]. exists n0. auto.
  - destruct (Z.eqb_spec p 0) as [->|Np]; cbn [negb] in Hr.
    + destruct Hr as [-> ->]. exists []. split; [exact E0|constructor].
    + destruct Hr as ([q o] & t & -> & Eb & -> & n0 & L & R & F). cbn [borrowed fst snd] in *. eapply map_csafe; [apply (object_csafe (mkMode false ob) tid p q t n0); [lia|exact Np|exact L|lia]|]. intros x r' H. exists [t]. split; [exact H|]. constructor; [|constructor]. exists n0. auto.
  - destruct Hr as [-> ->]. eapply map_csafe; [apply fast_csafe|]. intros x r' H. exists []. split; [exact H|constructor].
  - destruct Hr as [-> ->]. eapply map_csafe; [apply malloc_trim_csafe|]. intros x r' H. exists []. split; [exact H|constructor].
Qed.
(** ** reckless programs *)
Definition change (c : op) (a : ans) (p : Z) : Z :=
  match c, a with
  | OFree q, _ | OFreeSized q _, _ => if q =? p then -1 else 0
  | _, APtr q => if allocates c && (q =? p) then 1 else 0
  | _, _ => 0
  end.
Definition done_any (c : op) (a : ans) (r : list tok) : Prop := exists X, P_Conc2.ends X r /\ forall p, p <> 0 -> net X p = change c a p.
Lemma given_any F n c p r : given_if g false F n (Some p) r -> allocates c = true -> done_any c (APtr p) r.
Proof.
  intros (t & m & E & O & L & FT) H. exists [t]. split; [auto|]. cbn in O. subst t. intros q Hq. cbn. rewrite Z.add_0_r. destruct c; try discriminate; cbn; auto.
Qed.
Lemma alloc_any F c n (x : option Z) r : allocates c = true -> given_if g false F n x r -> done_any c (ans_ptr x) r.
Proof.
  intros Ha H. destruct x as [p|]; cbn [ans_ptr]; [eapply given_any; eauto|]. exists []. split; [exact H|]. intros q _. destruct c; try discriminate; reflexivity.
Qed.
Lemma alloc_any' c n (x : option Z) r : allocates c = true -> given g false n x r -> done_any c (ans_ptr x) r.
Proof. intros Ha H. apply (alloc_any True c n x r Ha), given_given, H. Qed.
Lemma none_any c a r : P_Conc2.ends [] r -> (forall p, p <> 0 -> change c a p = 0) -> done_any c a r.
Proof. intros E H. exists []. split; [auto|]. intros p Hp. rewrite H; auto. Qed.
Lemma gone_any c p r : P_Conc2.ends (P_Conc2.gone false p) r -> (forall q, change c AUnit q = if p =? q then -1 else 0) -> done_any c AUnit r.
Proof. intros E H. exists [TD p]. split; [exact E|]. intros q _. cbn. rewrite H. lia. Qed.
Lemma op_any ob tid c : words c -> alignment c <= 4096 \/ ob ->
  match c with ORealloc p _ => p = 0 | OCalloc _ _ => ZERO_ON_FREE g = true | OObjectSize _ | OWrite _ _ => False | _ => True end ->
  csafe g false (mkMode (negb (allocates c)) ob) tid (op_run g tid c) [] (done_any c).
Proof.
  intros Hw Ha Hx. assert (P_Conc2.ends [] []) as E0 by apply ends_0.
  destruct c; try contradiction; cbn [words alignment op_run allocates negb] in *; unfold word in Hw.
  - eapply map_csafe; [apply (malloc_csafe g false (mkMode false ob) tid n (or_intror eq_refl)); lia|]. intros x r'. apply alloc_any'. reflexivity.
  - eapply map_csafe; [apply (calloc_csafe g false (mkMode false ob) tid _ _ (or_intror eq_refl)); [lia|lia|auto]|]. intros x r'. apply alloc_any'. reflexivity.
  - subst p. eapply map_csafe; [exact (malloc_csafe g false (mkMode false ob) tid n (or_intror eq_refl) ltac:(lia))|]. intros x r'. apply alloc_any'. reflexivity.
  - eapply map_csafe; [apply (aligned_csafe g false (mkMode false ob) tid al n 8 (or_intror eq_refl)); [lia|lia|exact Ha|lia]|]. intros [er|p] r' H; cbn [ans_code]; [apply none_any; [exact H|reflexivity]|eapply given_any; [exact H|reflexivity]].
  - eapply map_csafe; [apply (simple_csafe g false (mkMode false ob) tid _ _ (or_intror eq_refl)); [lia|lia|exact Ha]|]. intros x r'. apply alloc_any. reflexivity.
  - eapply map_csafe; [apply (simple_csafe g false (mkMode false ob) tid _ _ (or_intror eq_refl)); [lia|lia|exact Ha]|]. intros x r'. apply alloc_any. reflexivity.
  - eapply map_csafe; [apply (simple_csafe g false (mkMode false ob) tid PAGE_SIZE n (or_intror eq_refl)); unfold PAGE_SIZE; change (2 ^ 64) with 18446744073709551616 in *; lia|]. intros x r'. apply alloc_any. reflexivity.
  - eapply map_csafe; [apply (pvalloc_csafe g false (mkMode false ob) tid _ (or_intror eq_refl)); lia|]. intros x r'. apply alloc_any'. reflexivity.
  - destruct (Z.eqb_spec p 0) as [->|Np].
    + apply none_any; [exact E0|]. intros q Hq. cbn [change]. destruct (Z.eqb_spec 0 q); [lia|reflexivity].
    + eapply map_csafe; [apply (free_csafe g false (mkMode true ob) tid p (TD 0) []); auto; reflexivity|]. intros [] r' H. apply (gone_any _ p); [exact H|reflexivity].
  - destruct (Z.eqb_spec p 0) as [->|Np].
    + apply none_any; [exact E0|]. intros q Hq. cbn [change]. destruct (Z.eqb_spec 0 q); [lia|reflexivity].
    + eapply map_csafe; [apply (free_sized_csafe g false (mkMode true ob) tid p n (TD 0) []); auto; [lia|reflexivity]|]. intros [] r' H. apply (gone_any _ p); [exact H|reflexivity].
  - destruct (Z.eqb_spec p 0) as [->|Np]; [apply none_any; [exact E0|reflexivity]|].
    eapply map_csafe; [apply (usable_csafe g false (mkMode true ob) tid p (TD 0) []); auto; reflexivity|]. intros x r' H. apply none_any; [exact H|reflexivity].
  - eapply map_csafe; [apply fast_csafe|]. intros x r' H. apply none_any; [exact H|reflexivity].
  - eapply map_csafe; [apply malloc_trim_csafe|]. intros x r' H. apply none_any; [exact H|reflexivity].
Qed.
End T.
