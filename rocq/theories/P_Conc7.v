(** Interleaved calls: the invariant of all threads together, along every execution. *)
From Coq Require Import String ZArith List Bool Lia ZifyBool Permutation.
From Verif Require Import M_Base M_Config M_SizeClass M_Libdivide M_OS M_Random M_Slab M_Region M_Api M_Hist M_Conc S_Heap S_Conc
  P_Base P_Count P_SizeClass P_Libdivide P_Random P_Bitmap P_Bitmap2 P_OS P_Links P_Slab1 P_Slab2 P_Slab3 P_Slab4 P_Slab9 P_Slab10 P_Slab11 P_Path
  P_Region P_Region2 P_Heap1 P_Heap2 P_Heap3 P_Heap4 P_Heap5 P_Heap6 P_Heap7 P_Init P_Heap8 P_Heap9 P_Heap11 P_Api4 P_Conc1 P_Conc2 P_Conc3 P_Conc4 P_Conc5 P_Conc6 P_Keep1 P_Keep2 P_Keep3 P_Err.
Import ListNotations.
Open Scope Z_scope.
Ltac Zify.zify_post_hook ::= idtac.

Section M.
Context (g : config) (md : bool) (szf : op -> mode).
Notation J := (J g md). Notation up := (up g md). Notation ends := P_Conc2.ends. Notation mine := (mine md). Notation others := (others md). Notation covd := (covd md).
Definition posts : Type := Z -> op -> ans -> list tok -> kmap -> Prop.
Record pool (bal : Z -> Z) (x : conc) (idle : list tok) (R : Z -> list tok) (KM : Z -> kmap) (L : list Z) (Q : posts) : Prop := {
  pl_nd : NoDup L;
  pl_in : forall tid, co_run x tid <> None -> In tid L;
  pl_idle : forall t, In t idle -> is_bt t = true;
  pl_J : J bal (co_st x) (idle ++ flat_map R L);
  pl_off : forall tid, co_run x tid = None -> R tid = [];
  pl_on : forall tid c p, co_run x tid = Some (c, p) -> mine (szf c) tid (R tid) /\ kon (KM tid) (co_st x) /\ cov md (KM tid) (R tid) /\ csafek g md (szf c) tid p (R tid) (KM tid) (Q tid c) }.
Lemma pool_ext bal x idle R KM L Q Q' : pool bal x idle R KM L Q -> (forall tid c p, co_run x tid = Some (c, p) -> Q' tid c = Q tid c) -> pool bal x idle R KM L Q'.
Proof. intros [] H. constructor; auto. intros tid c p E. rewrite (H tid c p E). auto. Qed.
Lemma flat_off {A} (R : Z -> list A) tid r' L : ~ In tid L -> flat_map (fupd R tid r') L = flat_map R L.
Proof. intros H. induction L as [|a L IH]; [auto|]. cbn. rewrite IH by (intros K; apply H; right; auto). f_equal. unfold fupd. destruct (Z.eqb_spec a tid) as [->|N]; [|auto]. elim H. left. auto. Qed.
Lemma pool_mine bal x idle R KM L Q tid : pool bal x idle R KM L Q -> covd (R tid) /\ forall t, In (TP t) (R tid) -> t = tid.
Proof. intros []. destruct (co_run x tid) as [[c p]|] eqn:E; [destruct (pl_on0 tid c p E) as [(A & B & _) _]; auto|]. rewrite (pl_off0 tid E). split; [intros r []|intros t []]. Qed.
Lemma bt_covd l : (forall t, In t l -> is_bt t = true) -> covd l /\ forall i, ~ In (TP i) l.
Proof. intros H. split; [intros r Hr|intros i Hr]; discriminate (H _ Hr). Qed.
Lemma covd_flat (R : Z -> list tok) L : (forall t, In t L -> covd (R t)) -> covd (flat_map R L).
Proof. induction L as [|a L IH]; intros H; [intros r []|]. cbn. apply covd_app; [apply H; left; auto|apply IH; intros t Ht; apply H; right; auto]. Qed.
Lemma pool_split bal x idle R KM L Q tid : pool bal x idle R KM L Q -> In tid L -> exists rest, others tid rest /\ incl idle rest /\ Permutation (idle ++ flat_map R L) (R tid ++ rest) /\
  (forall r', Permutation (r' ++ rest) (idle ++ flat_map (fupd R tid r') L)) /\ (forall tid' t, In t (R tid') -> tid' <> tid -> In tid' L -> In t rest).
Proof.
  intros P H. destruct (in_split _ _ H) as (L1 & L2 & ->). pose proof (pl_nd _ _ _ _ _ _ _ P) as ND. apply NoDup_remove in ND. destruct ND as [_ ND]. rewrite in_app_iff in ND.
  exists (idle ++ flat_map R L1 ++ flat_map R L2). destruct (bt_covd idle (pl_idle _ _ _ _ _ _ _ P)) as [C1 C2]. split; [split|split; [|split; [|split]]].
  - apply covd_app; [exact C1|]. apply covd_app; apply covd_flat; intros t _; apply (pool_mine _ _ _ _ _ _ _ t P).
  - rewrite !in_app_iff, !in_flat_map. assert (forall t, In (TP tid) (R t) -> tid = t) as K by (intros t Ht; apply (pool_mine _ _ _ _ _ _ _ t P), Ht).
    intros [K1|[(t & K1 & K2)|(t & K1 & K2)]]; [exact (C2 _ K1)|rewrite <- (K t K2) in K1; tauto|rewrite <- (K t K2) in K1; tauto].
  - intros t Ht. apply in_or_app. auto.
  - rewrite flat_map_app. cbn. rewrite app_assoc. eapply Permutation_trans; [apply Permutation_app_comm|]. rewrite <- !app_assoc. apply Permutation_app_head.
    eapply Permutation_trans; [apply Permutation_app_comm|]. rewrite <- app_assoc. apply Permutation_refl.
  - intros r'. rewrite flat_map_app. cbn. rewrite !flat_off by tauto. unfold fupd at 1. rewrite Z.eqb_refl. symmetry. rewrite app_assoc. eapply Permutation_trans; [apply Permutation_app_comm|]. rewrite <- !app_assoc. apply Permutation_app_head.
    eapply Permutation_trans; [apply Permutation_app_comm|]. rewrite <- app_assoc. apply Permutation_refl.
  - intros tid' t Ht Nt Hl. rewrite !in_app_iff, !in_flat_map. rewrite in_app_iff in Hl. cbn in Hl. destruct Hl as [Hl|[Hl|Hl]]; [eauto|congruence|eauto].
Qed.
Lemma pool_others bal x idle R KM L Q tid s' c' rest : pool bal x idle R KM L Q -> (forall tid' t, In t (R tid') -> tid' <> tid -> In tid' L -> In t rest) -> keep md rest (co_st x) s' ->
  forall t c p, t <> tid -> co_run x t = Some (c, p) -> c' = c -> kon (KM t) s'.
Proof.
  intros P I H t c p N E _. destruct (pl_on _ _ _ _ _ _ _ P t c p E) as (_ & N1 & C & _). eapply kon_keep; [exact C| |exact H|exact N1]. intros y Hy. apply (I t y Hy N). apply (pl_in _ _ _ _ _ _ _ P). congruence.
Qed.
Lemma pool_act bal x idle R KM L Q tid c B (m : M state B) k : pool bal x idle R KM L Q -> okst (szf c) (co_st x) -> co_run x tid = Some (c, Act m k) ->
  wp m (co_st x) (fun b s' => exists r' kn', pool bal (mkConc s' (fupd (co_run x) tid (Some (c, k b)))) idle (fupd R tid r') (fupd KM tid kn') L Q /\ keep md idle (co_st x) s') (efault md (szf c)).
Proof.
  intros P T E. destruct (pool_split _ _ _ _ _ _ _ tid P ltac:(apply (pl_in _ _ _ _ _ _ _ P); congruence)) as (rest & O & I & P1 & P2 & P3).
  destruct (pl_on _ _ _ _ _ _ _ P tid c _ E) as (Mr & Nr & _ & C). cbn in C. eapply wp_mono; [apply (C (co_st x) rest bal T); [eapply J_perm; [exact P1|apply (pl_J _ _ _ _ _ _ _ P)]|exact O|exact Nr]| |auto].
  intros b s' (r' & kn' & K1 & K2 & K3 & K4 & K5 & K6). exists r', kn'. split.
  - constructor; cbn [co_run co_st]; try apply P.
    + intros t Ht. unfold fupd in Ht. destruct (Z.eqb_spec t tid) as [Et|N]; [subst t|]; apply (pl_in _ _ _ _ _ _ _ P); congruence.
    + eapply J_perm; [apply P2|exact K1].
    + intros t Ht. unfold fupd in *. destruct (Z.eqb_spec t tid) as [Et|N]; [subst t; discriminate|]. apply (pl_off _ _ _ _ _ _ _ P), Ht.
    + intros t c' p Ht. unfold fupd in *. destruct (Z.eqb_spec t tid) as [Et|N]; [subst t; injection Ht as <- <-; auto|]. destruct (pl_on _ _ _ _ _ _ _ P t c' p Ht) as (X1 & X2 & X3 & X4). split; [exact X1|]. split; [|auto].
      eapply (pool_others _ _ _ _ _ _ _ tid s' c' rest P P3 K2 t c' p); auto.
  - eapply keep_incl; [exact I|exact K2].
Qed.
Lemma pool_return bal x idle R KM L Q tid c a X : pool bal x idle R KM L Q -> co_run x tid = Some (c, Ret a) -> ends X (R tid) ->
  pool bal (mkConc (co_st x) (fupd (co_run x) tid None)) (X ++ idle) (fupd R tid []) KM L Q /\
  (md = false -> pool (fun p => bal p + net X p) (mkConc (co_st x) (fupd (co_run x) tid None)) idle (fupd R tid []) KM L Q).
Proof.
  intros P E EX. destruct (pool_split _ _ _ _ _ _ _ tid P ltac:(apply (pl_in _ _ _ _ _ _ _ P); congruence)) as (rest & O & I & P1 & P2 & _).
  pose proof (pl_J _ _ _ _ _ _ _ P) as Jv. apply (J_perm _ _ _ _ _ _ P1) in Jv. destruct (bts_only X (R tid) ltac:(apply EX)) as (F1 & F2 & F3).
  assert (forall bal idle', (forall t, In t idle' -> is_bt t = true) -> J bal (co_st x) (idle' ++ flat_map (fupd R tid []) L) -> pool bal (mkConc (co_st x) (fupd (co_run x) tid None)) idle' (fupd R tid []) KM L Q) as MK.
  { intros bal' idle' Hi Hj. constructor; cbn [co_run co_st]; try apply P; auto.
    - intros t Ht. unfold fupd in Ht. destruct (Z.eqb_spec t tid) as [Et|N]; [subst t|]; apply (pl_in _ _ _ _ _ _ _ P); congruence.
    - intros t Ht. unfold fupd in *. destruct (Z.eqb_spec t tid) as [Et|N]; [subst t; reflexivity|]. apply (pl_off _ _ _ _ _ _ _ P), Ht.
    - intros t c' p Ht. unfold fupd in *. destruct (Z.eqb_spec t tid) as [Et|N]; [subst t; discriminate|]. apply (pl_on _ _ _ _ _ _ _ P), Ht. }
  split.
  - apply MK; [intros t Ht; apply in_app_iff in Ht; destruct Ht as [Ht|Ht]; [apply F3, Ht|apply (pl_idle _ _ _ _ _ _ _ P), Ht]|].
    eapply J_perm; [|apply (J_return _ _ _ _ _ _ _ EX Jv)]. rewrite <- app_assoc. apply Permutation_app_head. apply (P2 []).
  - intros Em. apply MK; [apply P|]. eapply J_perm; [apply (P2 [])|]. exact (J_absorb _ _ _ _ _ _ _ Em EX Jv).
Qed.
Lemma pool_call bal x idle R KM L Q tid c r kn idle' : pool bal x idle R KM L Q -> co_run x tid = None -> Permutation idle (r ++ idle') -> mine (szf c) tid r -> kon kn (co_st x) -> cov md kn r -> csafek g md (szf c) tid (op_run g tid c) r kn (Q tid c) ->
  exists L', pool bal (begin g tid c x) idle' (fupd R tid r) (fupd KM tid kn) L' Q.
Proof.
  intros P E PI Mr Kn Kc C. assert (exists L', NoDup L' /\ (forall t, In t L' <-> In t L \/ t = tid) /\ Permutation (flat_map R L') (flat_map R L)) as (L' & N' & I' & P').
  { destruct (in_dec Z.eq_dec tid L) as [H|H].
    - exists L. split; [apply P|]. split; [intros t; split; [auto|intros [K| ->]; auto]|apply Permutation_refl].
    - exists (tid :: L). split; [constructor; [auto|apply P]|]. split; [intros t; cbn; split; [intros [<-|K]; auto|intros [K| ->]; auto]|]. cbn. rewrite (pl_off _ _ _ _ _ _ _ P tid E). apply Permutation_refl. }
  exists L'. assert (pool bal x idle R KM L' Q) as P0.
  { constructor; try apply P; [exact N'|intros t Ht; apply I'; left; apply (pl_in _ _ _ _ _ _ _ P t Ht)|]. eapply J_perm; [|apply (pl_J _ _ _ _ _ _ _ P)]. apply Permutation_app_head. symmetry. exact P'. }
  destruct (pool_split _ _ _ _ _ _ _ tid P0 ltac:(apply I'; auto)) as (rest & O & I & P1 & P2 & _).
  constructor; unfold begin; cbn [co_run co_st]; auto.
  - intros t Ht. apply I'. unfold fupd in Ht. destruct (Z.eqb_spec t tid) as [Et|N]; [subst t; auto|]. left. apply (pl_in _ _ _ _ _ _ _ P t Ht).
  - intros t Ht. apply (pl_idle _ _ _ _ _ _ _ P). eapply Permutation_in; [symmetry; exact PI|]. apply in_or_app. auto.
  - eapply J_perm; [|apply (pl_J _ _ _ _ _ _ _ P0)]. rewrite PI. pose proof (P2 []) as H0. pose proof (P2 r) as Hr. rewrite (pl_off _ _ _ _ _ _ _ P tid E) in P1. cbn [app] in *.
    assert (Permutation (flat_map (fupd R tid r) L') (r ++ flat_map R L')) as K.
    { apply (Permutation_app_inv_l idle). etransitivity; [symmetry; exact Hr|]. rewrite <- P1. rewrite !app_assoc. apply Permutation_app_tail. apply Permutation_app_comm. }
    rewrite K. rewrite !app_assoc. apply Permutation_app_tail. apply Permutation_app_comm.
  - intros t Ht. unfold fupd in *. destruct (Z.eqb_spec t tid) as [Et|N]; [subst t; discriminate|]. apply (pl_off _ _ _ _ _ _ _ P), Ht.
  - intros t c' p Ht. unfold fupd in *. destruct (Z.eqb_spec t tid) as [Et|N]; [subst t; injection Ht as <- <-; auto|]. apply (pl_on _ _ _ _ _ _ _ P), Ht.
Qed.
Lemma store_is a v s s' : store g a v s = Ok (tt, s') -> pages (st_os s) (page_of a) = Some PRW /\ s' = set_st_os (set_mem (fupd (mem (st_os s)) a (w8 v)) (st_os s)) s.
Proof.
  unfold store, bind, get, fail, on_os, zoom, modify. destruct (pages (st_os s) (page_of a)) as [[]|]; cbn [is_rw negb]; try discriminate.
  destruct (_ && _); [discriminate|]. intros [= <-]. auto.
Qed.
Lemma pool_store bal x idle R KM L Q a v s' : pool bal x idle R KM L Q -> store g a v (co_st x) = Ok (tt, s') -> (md = true -> exists p n, In (p, n) (blks idle) /\ p <= a < p + n) ->
  pool bal (mkConc s' (co_run x)) idle R KM L Q.
Proof.
  intros P H HB. destruct (store_is _ _ _ _ H) as [Hp ->]. constructor; cbn [co_run co_st]; try apply P.
  - destruct (pl_J _ _ _ _ _ _ _ P) as [(LL & U)|D]; [left; exists LL|right].
    + apply up_poke; [exact U|split; cbn; auto|reflexivity|..]; cbn [set_mem mem]; unfold fupd.
      * intros y. destruct (Z.eqb_spec y a) as [->|]; [intros _; exact Hp|congruence].
      * intros Em y. destruct (Z.eqb_spec y a) as [->|]; [intros _|congruence]. destruct (HB Em) as (p & n & Hb & Hy). exists p, n. split; [rewrite blks_app; apply in_or_app; auto|auto].
    + destruct D. constructor; auto.
  - intros tid c p E. destruct (pl_on _ _ _ _ _ _ _ P tid c p E) as (X1 & X2 & X3 & X4). split; [exact X1|]. split; [|auto].
    intros y w Hy. cbn [st_os set_st_os set_mem mem]. unfold fupd. destruct (Z.eqb_spec y a) as [->|]; [|exact (X2 y w Hy)]. exfalso.
    assert (incl (R tid) (flat_map R L)) as IR by (intros t Ht; apply in_flat_map; exists tid; split; [apply (pl_in _ _ _ _ _ _ _ P); congruence|exact Ht]).
    destruct (X3 a w Hy) as (Em & HC). destruct (HB Em) as (p1 & n1 & Hb & Hx). destruct (pl_J _ _ _ _ _ _ _ P) as [(LL & U)|D].
    + assert (ghost g md bal (co_st x) LL (idle ++ flat_map R L)) as G by apply U. unfold ghost in G. rewrite Em in G. destruct G as (_ & G2 & G3).
      assert (block g (co_st x) LL p1 n1) as B1. { apply in_blks in Hb. destruct Hb as (t & Ht & Hb). eapply tok_block; [apply G2, in_or_app; left; exact Ht|exact Hb]. }
      destruct HC as [(p2 & n2 & Hb2 & Hx2)|(f & Hf & Hq)].
      * assert (In (p2, n2) (blks (flat_map R L))) as Hb3 by (apply in_blks in Hb2; destruct Hb2 as (t & Ht & Hb2); apply in_blks; eauto).
        assert (block g (co_st x) LL p2 n2) as B2. { apply in_blks in Hb3. destruct Hb3 as (t & Ht & Hb4). eapply tok_block; [apply G2, in_or_app; right; exact Ht|exact Hb4]. }
        pose proof (block_disjoint g _ LL _ (up_inv _ _ _ _ _ _ U) p1 n1 p2 n2 a B1 B2 Hx Hx2) as Ep. subst p2. rewrite ptrs_app in G3. apply NoDup_app_inv in G3. destruct G3 as (_ & _ & G3). apply (G3 p1); unfold ptrs; apply in_map_iff; [exists (p1, n1)|exists (p1, n2)]; auto.
      * eapply (user_away g (co_st x) LL _ (fl_in f) (page_of a) (up_inv _ _ _ _ _ _ U)); [|exact Hq|eapply (block_user g (co_st x) LL _ (up_inv _ _ _ _ _ _ U)); eauto].
        right. apply in_or_app. right. apply in_map. rewrite flights_app. apply in_or_app. right. apply in_flights. apply IR, in_flights, Hf.
    + apply in_blks in Hb. destruct Hb as (t & Ht & Hb). destruct (dn_toks _ _ _ _ _ D t ltac:(apply in_or_app; auto)) as (i & ->). destruct Hb.
Qed.
Lemma pool_first o Q : usable_config g = true -> pool (fun _ => 0) (first g o) [] (fun _ => []) (fun _ => nokn) [] Q.
Proof.
  intros Hu. pose proof (gfacts_of g Hu) as GF. constructor; [constructor|intros t H; elim H; reflexivity|intros t []| |reflexivity|intros t c p [=]]. right.
  constructor; cbn; auto; try lia; try (intros t; lia); intros; destruct GF; lia.
Qed.
End M.

(** ** the answers of the kernel are those it has from the start *)
Definition same_answers (o : os) (x : conc) : Prop := sysq (st_os (co_st x)) = sysq o /\ forall tid c p, co_run x tid = Some (c, p) -> pf st_os p.
Lemma same_first g o : same_answers o (first g o). Proof. split; [reflexivity|]. intros tid c p [=]. Qed.
Lemma same_step g o x e x' : same_answers o x -> cstep g x e x' -> same_answers o x'.
Proof.
  intros [E H] St. destruct St as [x tid c Er|x tid c B m k b s' Er Em|x tid c a Er|x tid a v s' Er Es].
  - split; [exact E|]. unfold begin. cbn. intros t c' p. unfold fupd. destruct (Z.eqb_spec t tid); [intros [= <- <-]; subst t; apply op_fine|apply H].
  - destruct (H _ _ _ Er) as [M K]. pose proof (M (co_st x)) as W. unfold wp in W. rewrite Em in W. destruct W as (Eq & _). split; [cbn; congruence|]. cbn. intros t c' p. unfold fupd. destruct (Z.eqb_spec t tid); [intros [= <- <-]; apply K|apply H].
  - split; [exact E|]. cbn. intros t c' p. unfold fupd. destruct (Z.eqb_spec t tid); [discriminate|apply H].
  - destruct (store_is _ _ _ _ _ Es) as [_ ->]. split; [exact E|exact H].
Qed.
Lemma same_obliged o x : same_answers o x -> obliging o -> obliged (st_os (co_st x)).
Proof. intros [E _] H n. rewrite E. apply H. Qed.
Lemma same_ok o x b : same_answers o x -> table_cleared (co_st x) -> okst (mkMode b (obliging o)) (co_st x).
Proof. intros S T. split; [exact T|]. exact (same_obliged o x S). Qed.

(** ** correct programs *)
Lemma Forall2_in_l {A B} (P : A -> B -> Prop) l l' a : Forall2 P l l' -> In a l -> exists b, In b l' /\ P a b.
Proof. intros F. induction F as [|x y l l' H F IH]; intros K; [destruct K|]. destruct K as [<-|K]; [exists y; split; [left|]; auto|]. destruct (IH K) as (b & H1 & H2). exists b. split; [right|]; auto. Qed.
Section T.
Context (g : config) (o : os).
Definition kind (c : op) : mode := mkMode (sized_call c) (obliging o).
(** what realloc must carry along and calloc must clear *)
Definition saved (b : option (Z * op)) (c : op) (a : ans) (M : Z -> Z) (kn : kmap) : Prop :=
  match c, b, a with
  | ORealloc p n, Some (_, c0), APtr q => forall i, 0 <= i < Z.min (request c0) n -> kn (q + i) = Some (M (p + i))
  | ORealloc p n, Some (_, c0), ANull => forall i, 0 <= i < request c0 -> kn (p + i) = Some (M (p + i))
  | ORealloc _ _, Some _, _ => False
  | OCalloc m n, _, APtr q => forall i, 0 <= i < m * n -> kn (q + i) = Some 0
  | _, _, _ => True
  end.
Definition known_at (b : option (Z * op)) (c : op) (M : Z -> Z) : kmap :=
  match c, b with
  | ORealloc _ _, Some (p, c0) => fun y => if (p <=? y) && (y <? p + request c0) then Some (M y) else None
  | _, _ => nokn
  end.
Lemma op_csafek tid c b r M : words c -> alignment c <= 4096 \/ obliging o -> match c with OWrite _ _ => False | _ => True end -> (forall p n e, c = ORealloc p n -> b = Some e -> ~ overaligned g (snd e)) -> ready_ok g b c r ->
  csafek g true (kind c) tid (op_run g tid c) r (known_at b c M) (fun a r' kn' => done_ok g b c a r' /\ saved b c a M kn').
Proof.
  intros Hw Ha Hx Hv Hr. assert ((forall a kn', saved b c a M kn') -> csafek g true (kind c) tid (op_run g tid c) r (known_at b c M) (fun a r' kn' => done_ok g b c a r' /\ saved b c a M kn')) as EASY.
  { intros HS. eapply csafek_mono; [apply csafek_lift, (op_csafe g (obliging o) tid c b r Hw Ha Hx Hv Hr)|]. intros a r' kn' H. split; [exact H|apply HS]. }
  destruct c; try (apply EASY; intros a kn'; exact Logic.I).
  { clear EASY. match goal with |- context [OCalloc ?a ?b] => rename a into m, b into n end. unfold ready_ok in Hr. cbn [borrows words op_run sized_call] in *. unfold word in Hw. destruct Hr as [-> ->]. unfold pmap. eapply csafek_bind; [apply (calloc_csafek g (mkMode false (obliging o)) tid m n); lia|].
    intros [q|] r' kn' [H MV]; cbn [ans_ptr].
    - split; [apply (given_holds g True (m * n) (OCalloc m n) q r'); [apply given_given, H|cbn; lia|auto]|]. cbn. intros i Hi. apply MV. lia.
    - split; [|exact Logic.I]. exists []. split; [exact H|]. constructor. }
  destruct b as [[p' c0]|]; [|apply EASY; intros a kn'; exact Logic.I]. clear EASY.
  unfold ready_ok in Hr. cbn [borrows words op_run sized_call] in *. unfold word in Hw. destruct (Z.eqb_spec p 0) as [->|Np]; cbn [negb] in Hr; [destruct Hr as [[=] _]|]. destruct Hr as (e & t & [= <-] & Eb & -> & n0 & L & R & F). cbn [borrowed fst snd] in *. apply Z.eqb_eq in Eb. subst p'.
  set (kn := known_at (Some (p, c0)) (ORealloc p n) M).
  assert (forall y v, kn y = Some v -> p <= y < p + n0) as HK by (intros y v; unfold kn, known_at; destruct (_ && _) eqn:Q; [intros _; lia|discriminate]).
  assert (forall i, 0 <= i < request c0 -> kn (p + i) = Some (M (p + i))) as KI by (intros i Hi; unfold kn, known_at; replace ((p <=? p + i) && (p + i <? p + request c0)) with true by lia; reflexivity).
  unfold pmap. eapply csafek_bind; [apply (realloc_csafek g (mkMode false (obliging o)) tid p n t n0 kn); [lia|lia|exact L|apply F, (Hv p n _ eq_refl eq_refl)|exact HK]|].
  intros [q|] r' kn' [H MV]; cbn [ans_ptr]; (split; [|cbn in MV |- *]).
  - apply (given_holds g True n (ORealloc p n) q r'); [apply given_given, H|cbn; lia|auto].
  - intros i Hi. apply MV; [lia|]. apply KI. lia.
  - exists [t]. split; [exact H|]. constructor; [|constructor]. exists n0. auto.
  - intros i Hi. apply MV, KI, Hi.
Qed.
Definition lends (t : list cev) (S : Z -> Z -> Z) : posts := fun tid c a r kn => done_ok g (h_lent (handed t) tid) c a r /\ saved (h_lent (handed t) tid) c a (S tid) kn.
Definition tracked (S : Z -> Z -> Z) (t : list cev) (x : conc) : Prop := exists idle R KM L,
  pool g true kind (fun _ => 0) x idle R KM L (lends t S) /\ Forall2 (holds g) (in_hand t) idle /\ same_answers o x.
(** what memory was when each running call began *)
Definition snap (S : Z -> Z -> Z) (x : conc) (e : list cev) : Z -> Z -> Z :=
  match e with Began tid _ :: _ => fupd S tid (mem (st_os (co_st x))) | _ => S end.
Lemma take_spec f l idle : (exists b, In b l /\ f b = true) -> Forall2 (holds g) l idle -> exists b l' t idle', take f l = Some (b, l') /\ f b = true /\ In b l /\ Permutation idle (t :: idle') /\ holds g b t /\ Forall2 (holds g) l' idle'.
Proof.
  intros (b & H & Hf) F. induction F as [|e t l idle He F IH]; [destruct H|]. cbn. destruct (f e) eqn:E.
  - exists e, l, t, idle. split; [auto|]. split; [auto|]. split; [left; auto|auto].
  - destruct H as [->|H]; [congruence|]. destruct (IH H) as (e1 & l' & t' & idle' & -> & Ho & Hi & P & H1 & H2). exists e1, (e :: l'), t', (t :: idle'). split; [auto|]. split; [auto|]. split; [right; auto|]. split; [|auto].
    etransitivity; [apply perm_skip, P|apply perm_swap].
Qed.
Lemma lend_ext t t' S S' x tid bal idle R KM L : co_run x tid = None -> (forall tid', tid' <> tid -> h_lent (handed t') tid' = h_lent (handed t) tid' /\ S' tid' = S tid') ->
  pool g true kind bal x idle R KM L (lends t S) -> pool g true kind bal x idle R KM L (lends t' S').
Proof. intros E H P. eapply pool_ext; [exact P|]. intros t0 c p Ht. unfold lends. destruct (H t0 ltac:(congruence)) as [-> ->]. reflexivity. Qed.
Lemma tracked_step S t x e x' : tracked S t x -> table_cleared (co_st x) -> cstep g x e x' -> (forall a, In a e -> correct g o t a) -> tracked (snap S x e) (e ++ t) x'.
Proof.
  intros IH Tc St Ru. destruct IH as (idle & R & KM & L & P & F & SA). pose proof (same_step _ _ _ _ _ SA St) as SA'. destruct St as [x tid c Er|x tid c B m k b s' Er Em|x tid c a Er|x tid a v s' Er Es]; cbn [app snap].
  - destruct (Ru (Began tid c) ltac:(left; auto)) as ((W & Br & X) & A & AV). specialize (A tid c eq_refl). set (M := mem (st_os (co_st x))).
    assert (exists r idle', Permutation idle (r ++ idle') /\ Forall2 (holds g) (in_hand (Began tid c :: t)) idle' /\ ready_ok g (h_lent (handed (Began tid c :: t)) tid) c r /\
      (forall tid', tid' <> tid -> h_lent (handed (Began tid c :: t)) tid' = h_lent (handed t) tid') /\
      (forall e, h_lent (handed (Began tid c :: t)) tid = Some e -> In e (in_hand t) /\ borrowed c e = true)) as (r & idle' & PI & F' & RO & HL & HI).
    { unfold in_hand, ready_ok. cbn [handed hand]. destruct (borrows c) eqn:Eb.
      - destruct (take_spec _ _ _ (Br eq_refl) F) as (e' & l' & t' & idle' & Et & Hf & Hi & P1 & H1 & H2). unfold in_hand in Et. rewrite Et. exists [t'], idle'. cbn [h_live h_lent]. split; [exact P1|]. split; [exact H2|].
        split; [exists e', t'; unfold fupd; rewrite Z.eqb_refl; auto|]. split; [intros tid' N; unfold fupd; destruct (Z.eqb_spec tid' tid); [congruence|auto]|]. intros e0. unfold fupd. rewrite Z.eqb_refl. intros [= <-]. auto.
      - exists [], idle. cbn [h_live h_lent]. split; [apply Permutation_refl|]. split; [exact F|]. split; [unfold fupd; rewrite Z.eqb_refl; auto|]. split; [intros tid' N; unfold fupd; destruct (Z.eqb_spec tid' tid); [congruence|auto]|]. intros e0. unfold fupd. rewrite Z.eqb_refl. discriminate. }
    assert (pool g true kind (fun _ => 0) x idle R KM L (lends (Began tid c :: t) (fupd S tid M))) as P'.
    { eapply (lend_ext t _ S); [exact Er| |exact P]. intros tid' N. split; [apply HL, N|]. unfold fupd. destruct (Z.eqb_spec tid' tid); [congruence|auto]. }
    set (b := h_lent (handed (Began tid c :: t)) tid) in *.
    destruct (pool_call g true kind _ _ _ _ _ _ _ tid c r (known_at b c M) idle' P' Er PI) as (L' & P2).
    + apply mine_plain. unfold ready_ok in RO. destruct (borrows c); [destruct RO as (e' & t' & _ & _ & -> & n & LT & _)|destruct RO as [_ ->]; intros y []]. intros y [<-|[]]. destruct LT as [->|(gd & ->)]; exact Logic.I.
    + intros y v Hy. unfold known_at in Hy. destruct c; try discriminate. destruct b as [[p' c0]|]; [|discriminate]. destruct (_ && _); [|discriminate]. injection Hy as <-. reflexivity.
    + intros y v Hy. unfold known_at in Hy. destruct c; try discriminate. destruct b as [[p' c0]|]; [|discriminate]. destruct (_ && _) eqn:Q; [|discriminate]. unfold ready_ok in RO. destruct (borrows _); [|destruct RO as [[=] _]].
      destruct RO as (e' & t' & [= <-] & Eb & -> & n1 & LT & Hn & _). cbn [fst snd] in *. split; [reflexivity|]. left. exists p', n1. split; [|lia]. destruct (lent_facts _ _ _ LT) as (_ & -> & _). left. reflexivity.
    + unfold lends. fold b. unfold fupd. rewrite Z.eqb_refl. apply op_csafek; auto. intros p n [p' b'] -> Hb. destruct (HI _ Hb) as [Hi Hq]. cbn [borrowed fst] in Hq. apply Z.eqb_eq in Hq. subst p'. exact (AV tid p n b' eq_refl Hi).
    + exists idle', (fupd R tid r), (fupd KM tid (known_at b c M)), L'. auto.
  - pose proof (pool_act g true kind _ _ _ _ _ _ _ tid c B m k P (same_ok _ _ _ SA Tc) Er) as K. unfold wp in K. rewrite Em in K. destruct K as (r' & kn' & K1 & K2). exists idle, (fupd R tid r'), (fupd KM tid kn'), L. auto.
  - destruct (pl_on _ _ _ _ _ _ _ _ _ _ P tid c _ Er) as (_ & _ & _ & D). cbn in D. destruct D as ((X & EX & FX) & _).
    destruct (pool_return g true kind _ _ _ _ _ _ _ tid c a X P Er EX) as [P' _]. exists (X ++ idle), (fupd R tid []), KM, L. split.
    + eapply (lend_ext t _ S _ _ tid); [cbn; unfold fupd; rewrite Z.eqb_refl; reflexivity| |exact P']. intros tid' N. split; [|reflexivity]. cbn. unfold fupd. destruct (Z.eqb_spec tid' tid); [congruence|auto].
    + split; [|exact SA']. unfold in_hand. cbn [handed hand h_live]. apply Forall2_app; auto.
  - destruct (Ru (Stored tid a v) ltac:(left; auto)) as ((p & b & Hb & Ha) & _). exists idle, R, KM, L. split; [|split; [exact F|exact SA']]. eapply pool_store; [exact P|exact Es|]. intros _.
    destruct (Forall2_in_l _ _ _ _ F Hb) as (t' & Ht & n & LT & Hn & _). exists p, n. cbn [fst snd] in *. split; [|lia]. apply in_blks. exists t'. split; [auto|]. destruct (lent_facts _ _ _ LT) as (_ & -> & _). left. auto.
Qed.
Lemma tracked_all t x : usable_config g = true -> execution (correct g o) g o t x -> exists S, tracked S t x.
Proof.
  intros Hu. induction 1 as [|t x e x' Ex [S IH] Tc St Ru].
  - exists (fun _ _ => 0), [], (fun _ => []), (fun _ => nokn), []. split; [apply pool_first, Hu|]. split; [constructor|apply same_first].
  - exists (snap S x e). apply tracked_step; auto.
Qed.
(** what the invariant says about the blocks in hand *)
Lemma holds_blk idle t x l : Forall2 (holds g) l idle -> J g true (fun _ => 0) x (idle ++ t) ->
  NoDup (map fst l) /\ (forall p b, In (p, b) l -> exists n, request b <= n /\ In (p, n) (blks idle)) /\
  (l <> [] -> exists LL, ginv g x LL (flights (idle ++ t)) /\ forall p n, In (p, n) (blks idle) -> block g x LL p n).
Proof.
  intros F Jv. assert (ptrs idle = map fst l) as Ep.
  { clear Jv. induction F as [|[p b] t0 l idle (n & LT & _) F IH]; [reflexivity|]. change (t0 :: idle) with ([t0] ++ idle). rewrite ptrs_app, IH. unfold ptrs. destruct (lent_facts _ _ _ LT) as (_ & -> & _). reflexivity. }
  assert (forall p b, In (p, b) l -> exists n, request b <= n /\ In (p, n) (blks idle)) as HB.
  { intros p b Hb. destruct (Forall2_in_l _ _ _ _ F Hb) as (t' & Ht & n & LT & Hn & _). exists n. cbn [fst snd] in *. split; [lia|]. apply in_blks. exists t'. split; [auto|]. destruct (lent_facts _ _ _ LT) as (_ & -> & _). left. auto. }
  destruct Jv as [(LL & U)|D].
  - pose proof (up_ghost _ _ _ _ _ _ U) as (G1 & G2 & G3). split; [|split; [exact HB|]].
    + rewrite <- Ep. rewrite ptrs_app in G3. apply NoDup_app_inv in G3. apply G3.
    + intros _. exists LL. split; [apply U|]. intros p n Hb. apply in_blks in Hb. destruct Hb as (t' & Ht & Hb). eapply tok_block; [apply G2, in_or_app; left; exact Ht|exact Hb].
  - destruct F as [|e t' l idle (n & LT & _) F].
    + split; [constructor|]. split; [exact HB|]. intros H. elim H. reflexivity.
    + exfalso. destruct (dn_toks _ _ _ _ _ D t' ltac:(left; auto)) as (i & ->). destruct LT as [[=]|(gd & [=])].
Qed.
Lemma conc_blocks t x : usable_config g = true -> execution (correct g o) g o t x ->
  NoDup (map fst (in_hand t)) /\
  (forall p b y, In (p, b) (in_hand t) -> p <= y < p + request b -> accessible (co_st x) y) /\
  (forall p b q c y, In (p, b) (in_hand t) -> In (q, c) (in_hand t) -> p <= y < p + request b -> q <= y < q + request c -> p = q).
Proof.
  intros Hu Ex. destruct (tracked_all t x Hu Ex) as (S & idle & R & KM & L & P & F & SA). destruct (holds_blk idle _ (co_st x) _ F (pl_J _ _ _ _ _ _ _ _ _ _ P)) as (N & HB & HL). split; [exact N|]. split.
  - intros p b y Hb Hy. destruct (HB p b Hb) as (n & Hn & Hi). destruct HL as (LL & I & BL); [intros E; rewrite E in Hb; destruct Hb|]. unfold accessible. eapply (block_rw g _ LL _ I); [apply BL, Hi|lia].
  - intros p b q c y Hb Hc Hy1 Hy2. destruct (HB p b Hb) as (n & Hn & Hi). destruct (HB q c Hc) as (m & Hm & Hj). destruct HL as (LL & I & BL); [intros E; rewrite E in Hb; destruct Hb|].
    eapply (block_disjoint g _ LL _ I p n q m y); [apply BL, Hi|apply BL, Hj|lia|lia].
Qed.
Lemma conc_contents t x e x' p b y : usable_config g = true -> execution (correct g o) g o t x -> table_cleared (co_st x) -> cstep g x e x' ->
  In (p, b) (in_hand t) -> p <= y < p + request b -> (forall tid v, ~ In (Stored tid y v) e) -> content (co_st x') y = content (co_st x) y.
Proof.
  intros Hu Ex Tc St Hb Hy Hs. destruct (tracked_all t x Hu Ex) as (S & idle & R & KM & L & P & F & SA). destruct (holds_blk idle _ (co_st x) _ F (pl_J _ _ _ _ _ _ _ _ _ _ P)) as (N & HB & HL).
  destruct St as [x tid c Er|x tid c B m k r s' Er Em|x tid c a Er|x tid a v s' Er Es]; try reflexivity.
  - pose proof (pool_act g true kind _ _ _ _ _ _ _ tid c B m k P (same_ok _ _ _ SA Tc) Er) as K. unfold wp in K. rewrite Em in K. destruct K as (r' & kn' & K1 & K2). destruct (HB p b Hb) as (n & Hn & Hi). apply (proj1 K2 eq_refl p n y Hi). lia.
  - destruct (store_is _ _ _ _ _ Es) as [_ ->]. cbn. unfold fupd. destruct (Z.eqb_spec y a) as [->|]; [|auto]. elim (Hs tid v). left. auto.
Qed.
(** ** realloc *)
Lemma took f p b l : (forall e, f e = (fst e =? p)) -> NoDup (map fst l) -> In (p, b) l -> exists l', take f l = Some ((p, b), l').
Proof.
  intros Ef. induction l as [|[q c] l IH]; intros N H; [destruct H|]. cbn in N. inversion N as [|? ? N1 N2]; subst. cbn. rewrite Ef. cbn [fst]. destruct (Z.eqb_spec q p) as [->|Nq].
  - destruct H as [H|H]; [injection H as ->; eauto|]. elim N1. apply in_map_iff. exists (p, b). auto.
  - destruct H as [H|H]; [congruence|]. destruct (IH N2 H) as (l' & ->). eauto.
Qed.
Lemma tracked_on tid e M t0 x0 t x : (exists S, tracked S t0 x0 /\ S tid = M) -> h_lent (handed t0) tid = e -> goes_on (correct g o) g tid t0 x0 t x ->
  exists S, tracked S t x /\ S tid = M /\ (co_run x tid = None \/ h_lent (handed t) tid = e).
Proof.
  intros (S0 & T0 & E0) H0. induction 1 as [|t x ev x' G IH Tc St Ru Nb]; [exists S0; auto|]. destruct IH as (S & T & E & H). exists (snap S x ev). split; [apply tracked_step; auto|].
  destruct St as [x i c Er|x i c B m k b s' Er Em|x i c a Er|x i a v s' Er Es]; cbn [snap app].
  - assert (i <> tid) as N by (intros ->; apply (Nb c); left; auto). split; [unfold fupd; destruct (Z.eqb_spec tid i); [congruence|auto]|]. destruct H as [H|H]; [left|right].
    + cbn. unfold fupd. destruct (Z.eqb_spec tid i); [congruence|auto].
    + rewrite <- H. cbn [handed hand]. assert (forall w, fupd (h_lent (handed t)) i w tid = h_lent (handed t) tid) as U by (intros w; unfold fupd; destruct (Z.eqb_spec tid i); [congruence|auto]). destruct (borrows c); [destruct (take _ _) as [[]|]|]; apply U.
  - split; [exact E|]. destruct H as [H|H]; [left|right; exact H]. cbn. unfold fupd. destruct (Z.eqb_spec tid i) as [->|]; [congruence|exact H].
  - split; [exact E|]. cbn. unfold fupd. destruct (Z.eqb_spec tid i) as [->|]; [left; reflexivity|]. destruct H as [H|H]; auto.
  - split; [exact E|]. destruct H as [H|H]; auto.
Qed.
Lemma conc_realloc t x tid p n b x1 t2 x2 a x3 : usable_config g = true -> execution (correct g o) g o t x -> table_cleared (co_st x) -> In (p, b) (in_hand t) -> p <> 0 ->
  cstep g x [Began tid (ORealloc p n)] x1 -> correct g o t (Began tid (ORealloc p n)) ->
  goes_on (correct g o) g tid (Began tid (ORealloc p n) :: t) x1 t2 x2 ->
  cstep g x2 [Ended tid (ORealloc p n) a] x3 ->
  match a with
  | APtr q => forall i, 0 <= i < Z.min (request b) n -> content (co_st x3) (q + i) = content (co_st x) (p + i)
  | _ => a = ANull /\ forall i, 0 <= i < request b -> content (co_st x3) (p + i) = content (co_st x) (p + i)
  end.
Proof.
  intros Hu Ex Tc Hb Np S1 Ru Go S3. destruct (conc_blocks t x Hu Ex) as (ND & _). destruct (tracked_all t x Hu Ex) as (S & TR). destruct (took (borrowed (ORealloc p n)) p b _ (fun e => eq_refl) ND Hb) as (l' & Et). unfold in_hand in Et.
  assert (h_lent (handed (Began tid (ORealloc p n) :: t)) tid = Some (p, b)) as HL.
  { cbn [handed hand borrows]. replace (p =? 0) with false by lia. cbn [negb]. rewrite Et. cbn. unfold fupd. rewrite Z.eqb_refl. reflexivity. }
  destruct (tracked_on tid (Some (p, b)) (mem (st_os (co_st x))) (Began tid (ORealloc p n) :: t) x1 t2 x2) as (S2 & T2 & E2 & H2); [|exact HL|exact Go|].
  - exists (snap S x [Began tid (ORealloc p n)]). split; [apply (tracked_step S t x [Began tid (ORealloc p n)] x1 TR Tc S1); intros y [<-|[]]; exact Ru|]. cbn. unfold fupd. rewrite Z.eqb_refl. reflexivity.
  - inversion S3 as [| |y i c a' Er| ]; subst. destruct H2 as [H2|H2]; [congruence|]. destruct T2 as (idle & R & KM & L & P & F & SA). destruct (pl_on _ _ _ _ _ _ _ _ _ _ P tid _ _ Er) as (_ & Kn & _ & D). cbn in D. destruct D as ((X & _ & FX) & D). rewrite H2, E2 in D. rewrite H2 in FX. unfold content. cbn [co_st].
    destruct a; cbn in D, FX; try contradiction.
    + split; [reflexivity|]. intros i Hi. apply Kn, D, Hi.
    + intros i Hi. apply Kn, D, Hi.
Qed.
Lemma conc_calloc t x tid m n q x' : usable_config g = true -> execution (correct g o) g o t x -> cstep g x [Ended tid (OCalloc m n) (APtr q)] x' ->
  forall i, 0 <= i < m * n -> content (co_st x') (q + i) = 0.
Proof.
  intros Hu Ex St. destruct (tracked_all t x Hu Ex) as (S & idle & R & KM & L & P & F & SA). inversion St as [| |y i c a' Er| ]; subst. destruct (pl_on _ _ _ _ _ _ _ _ _ _ P tid _ _ Er) as (_ & Kn & _ & D). cbn in D. destruct D as (_ & D).
  intros i Hi. unfold content. cbn [co_st]. apply Kn. destruct (h_lent (handed t) tid) as [[]|]; apply D, Hi.
Qed.
Lemma conc_aborts t x tid c f : usable_config g = true -> execution (correct g o) g o t x -> aborts g x tid c f ->
  kernel_abort f \/ startup_abort f \/ (exists p n, c = OFreeSized p n) /\ size_mismatch f.
Proof.
  intros Hu Ex (Tc & B & m & k & Er & Em). destruct (tracked_all t x Hu Ex) as (S & idle & R & KM & L & P & F & SA). pose proof (pool_act g true kind _ _ _ _ _ _ _ tid c B m k P (same_ok _ _ _ SA Tc) Er) as K. unfold wp in K. rewrite Em in K.
  destruct K as [K|[K|[K|[[K1 K2]|[[=] _]]]]]; [left; apply sys_abort, K|left; apply rng_abort, K|destruct (start_abort f K); auto|]. right. right. split; [|exact K2]. destruct c; try discriminate. eauto.
Qed.
End T.

(** ** reckless programs *)
Definition frees_or_looks (c : op) : bool := negb (allocates c).
Section U.
Context (g : config) (o : os).
Definition sort (c : op) : mode := mkMode (frees_or_looks c) (obliging o).
Definition counted (t : list cev) (x : conc) : Prop := exists bal R KM L,
  pool g false sort bal x [] R KM L (fun _ c a r _ => done_any c a r) /\ (forall p, p <> 0 -> bal p = times_given t p - times_freed t p) /\ same_answers o x.
Lemma change_count tid c a t p : p <> 0 -> times_given (Ended tid c a :: t) p - times_freed (Ended tid c a :: t) p = times_given t p - times_freed t p + change c a p.
Proof. intros Hp. destruct c, a; cbn; try lia; destruct (_ =? p); lia. Qed.
Lemma counted_all t x : usable_config g = true -> execution (reckless g o) g o t x -> counted t x.
Proof.
  intros Hu. induction 1 as [|t x e x' Ex IH Tc St Ru].
  - exists (fun _ => 0), (fun _ => []), (fun _ => nokn), []. split; [apply pool_first, Hu|split; [reflexivity|apply same_first]].
  - destruct IH as (bal & R & KM & L & P & HB & SA). pose proof (same_step _ _ _ _ _ SA St) as SA'. destruct St as [x tid c Er|x tid c B m k b s' Er Em|x tid c a Er|x tid a v s' Er Es]; cbn [app].
    + destruct (Ru (Began tid c) ltac:(left; auto)) as (W & A & X). destruct (pool_call g false sort _ _ _ _ _ _ _ tid c [] nokn [] P Er) as (L' & P'); [apply Permutation_refl|apply mine_nil|apply kon_none|apply cov_none|apply csafek_lift, op_any; auto|]. exists bal, (fupd R tid []), (fupd KM tid nokn), L'. auto.
    + pose proof (pool_act g false sort _ _ _ _ _ _ _ tid c B m k P (same_ok _ _ _ SA Tc) Er) as K. unfold wp in K. rewrite Em in K. destruct K as (r' & kn' & K1 & K2). exists bal, (fupd R tid r'), (fupd KM tid kn'), L. auto.
    + destruct (pl_on _ _ _ _ _ _ _ _ _ _ P tid c _ Er) as (_ & _ & _ & D). cbn in D. destruct D as (X & EX & FX). destruct (pool_return g false sort _ _ _ _ _ _ _ tid c a X P Er EX) as [_ P']. specialize (P' eq_refl).
      exists (fun p => bal p + net X p), (fupd R tid []), KM, L. split; [exact P'|]. split; [|exact SA']. intros p Hp. rewrite change_count, HB, FX by auto. reflexivity.
    + exists bal, R, KM, L. split; [|split; [exact HB|exact SA']]. eapply pool_store; [exact P|exact Es|discriminate].
Qed.
Lemma flat_off_all {A} (R : Z -> list A) L : (forall t, R t = []) -> flat_map R L = [].
Proof. intros H. induction L as [|a L IH]; [auto|]. cbn. rewrite H, IH. reflexivity. Qed.
Lemma conc_balance t x p : usable_config g = true -> execution (reckless g o) g o t x -> (forall tid, co_run x tid = None) -> p <> 0 -> 0 <= times_given t p - times_freed t p <= 1.
Proof.
  intros Hu Ex Nr Hp. destruct (counted_all t x Hu Ex) as (bal & R & KM & L & P & HB & SA). pose proof (pl_J _ _ _ _ _ _ _ _ _ _ P) as Jv. rewrite (flat_off_all R L) in Jv by (intros tid; apply (pl_off _ _ _ _ _ _ _ _ _ _ P), Nr). cbn [app] in Jv.
  rewrite <- (HB p Hp). destruct Jv as [(LL & U)|D]; [|rewrite (dn_bal _ _ _ _ _ D eq_refl p); lia]. pose proof (up_ghost _ _ _ _ _ _ U) as G. unfold ghost in G. specialize (G p). cbn [net] in G. pose proof (up_inv _ _ _ _ _ _ U) as I.
  assert (0 <= bal p <= 1 \/ ~ 0 <= bal p <= 1) as [H|H] by lia; [exact H|exfalso]. destruct G as [G1 G2].
  assert (forall n, ~ block g (co_st x) LL p n) as N by (intros n N; specialize (G1 (ex_intro _ n N)); lia). specialize (G2 N). lia.
Qed.
Lemma net_neg T p : (forall q, ~ In (TG q) T) -> net T p <= 0.
Proof.
  induction T as [|t T IH]; intros H; [cbn; lia|]. assert (net T p <= 0) by (apply IH; intros q Hq; apply (H q); right; auto). destruct t; cbn; try lia; [elim (H p0); left; auto|]. destruct (p0 =? p); lia.
Qed.
Lemma conc_freed t x p : usable_config g = true -> execution (reckless g o) g o t x -> no_allocation_running x -> p <> 0 -> times_freed t p <= times_given t p.
Proof.
  intros Hu Ex Nr Hp. destruct (counted_all t x Hu Ex) as (bal & R & KM & L & P & HB & SA). pose proof (pl_J _ _ _ _ _ _ _ _ _ _ P) as Jv. cbn [app] in Jv.
  assert (forall q, ~ In (TG q) (flat_map R L)) as NG.
  { intros q Hq. apply in_flat_map in Hq. destruct Hq as (tid & _ & Hq). destruct (co_run x tid) as [[c pr]|] eqn:E; [|rewrite (pl_off _ _ _ _ _ _ _ _ _ _ P tid E) in Hq; destruct Hq].
    destruct (pl_on _ _ _ _ _ _ _ _ _ _ P tid c pr E) as [(_ & _ & M) _]. specialize (M q Hq). cbn in M. unfold frees_or_looks in M. rewrite (Nr tid c pr E) in M. discriminate. }
  pose proof (net_neg _ p NG) as NN. pose proof (HB p Hp) as HBp. destruct Jv as [(LL & U)|D]; [|rewrite (dn_bal _ _ _ _ _ D eq_refl p) in HBp; lia].
  pose proof (up_ghost _ _ _ _ _ _ U) as G. unfold ghost in G. specialize (G p). destruct G as [G1 G2].
  assert (times_freed t p <= times_given t p \/ ~ times_freed t p <= times_given t p) as [H|H] by lia; [exact H|exfalso].
  assert (forall n, ~ block g (co_st x) LL p n) as N by (intros n N; specialize (G1 (ex_intro _ n N)); lia). specialize (G2 N). lia.
Qed.
Lemma conc_reckless t x tid c f : usable_config g = true -> execution (reckless g o) g o t x -> aborts g x tid c f -> f = Retry \/ exists m, f = Fatal m.
Proof.
  intros Hu Ex (Tc & B & m & k & Er & Em). destruct (counted_all t x Hu Ex) as (bal & R & KM & L & P & HB & SA). pose proof (pool_act g false sort _ _ _ _ _ _ _ tid c B m k P (same_ok _ _ _ SA Tc) Er) as K. unfold wp in K. rewrite Em in K.
  assert (sys_fault f -> exists m, f = Fatal m) as SF by (intros (e & -> & _); eauto). assert (rng_fault f -> f = Retry \/ exists m, f = Fatal m) as RF by (intros [->| ->]; eauto).
  destruct K as [K|[K|[[K|[K|K]]|[[_ [K|K]]|[_ K]]]]]; eauto. right. cbn in K. repeat destruct K as [<-|K]; eauto. destruct K.
Qed.
End U.
