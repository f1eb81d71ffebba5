(** Interleaved calls: bytes a running call knows, because it holds the block or the pages
    they lie in. *)
From Coq Require Import String ZArith List Bool Lia ZifyBool Permutation.
From Verif Require Import M_Base M_Config M_SizeClass M_Libdivide M_OS M_Random M_Slab M_Region M_Api M_Hist S_Heap
  P_Base P_Count P_SizeClass P_Libdivide P_Random P_Bitmap P_Bitmap2 P_OS P_Links P_Slab1 P_Slab2 P_Slab3 P_Slab4 P_Slab9 P_Slab10 P_Slab11 P_Path
  P_Region P_Region2 P_Heap1 P_Heap2 P_Heap3 P_Heap4 P_Heap5 P_Heap6 P_Heap7 P_Init P_Heap8 P_Heap9 P_Heap10 P_Heap11 P_Api0 P_Api1 P_Conc1 P_Conc2 P_Conc3 P_Conc4 P_Conc5.
Import ListNotations.
Open Scope Z_scope.
Ltac Zify.zify_post_hook ::= idtac.

Definition kmap : Type := Z -> option Z.
Definition nokn : kmap := fun _ => None.
Definition kon (kn : kmap) (s : state) : Prop := forall x v, kn x = Some v -> mem (st_os s) x = v.
Lemma kon_none s : kon nokn s. Proof. intros x v [=]. Qed.

Section M.
Context (g : config) (md : bool) (sz : mode).
Notation J := (J g md). Notation up := (up g md). Notation keep := (keep md). Notation efault := (efault md sz). Notation mine := (mine md sz). Notation others := (others md). Notation covd := (covd md).
Definition cov (kn : kmap) (r : list tok) : Prop := forall x v, kn x = Some v -> md = true /\
  ((exists p n, In (p, n) (blks r) /\ p <= x < p + n) \/ exists f, In f (flights r) /\ fl_in f (page_of x) = true).
Lemma cov_none r : cov nokn r. Proof. intros x v [=]. Qed.
Lemma cov_incl kn r r' : (forall t, In t r -> In t r') -> cov kn r -> cov kn r'.
Proof.
  intros H C x v Hx. destruct (C x v Hx) as (Em & [(p & n & Hb & Hp)|(f & Hf & Hq)]); (split; [exact Em|]).
  - left. exists p, n. split; [|exact Hp]. apply in_blks in Hb. destruct Hb as (t & Ht & Hb). apply in_blks. eauto.
  - right. exists f. split; [|exact Hq]. apply in_flights, H, in_flights, Hf.
Qed.
Lemma cov_l kn r r' : cov kn r -> cov kn (r ++ r'). Proof. apply cov_incl. intros t Ht. apply in_or_app. auto. Qed.
Lemma cov_r kn r r' : cov kn r' -> cov kn (r ++ r'). Proof. apply cov_incl. intros t Ht. apply in_or_app. auto. Qed.
Lemma cov_lent (kn : kmap) t p n : md = true -> lent t p n -> (forall x v, kn x = Some v -> p <= x < p + n) -> cov kn [t].
Proof. intros Em L H x v Hx. split; [exact Em|]. left. exists p, n. split; [|eauto]. destruct (lent_facts _ _ _ L) as (_ & -> & _). left. reflexivity. Qed.
Lemma kon_keep kn r rest s s' : cov kn r -> (forall t, In t r -> In t rest) -> keep rest s s' -> kon kn s -> kon kn s'.
Proof.
  intros C I [K1 K2] H x v Hx. rewrite <- (H x v Hx). destruct (cov_incl _ _ _ I C x v Hx) as (Em & [(p & n & Hb & Hp)|(f & Hf & Hq)]); [apply (K1 Em p n x Hb Hp)|apply (K2 f x Hf Hq)].
Qed.
Fixpoint csafek {A} (tid : Z) (p : prog state A) (r : list tok) (kn : kmap) (Q : A -> list tok -> kmap -> Prop) : Prop :=
  match p with
  | Ret a => Q a r kn
  | Act m k => forall s rest bal, okst sz s -> J bal s (r ++ rest) -> others tid rest -> kon kn s ->
      wp m s (fun b s' => exists r' kn', J bal s' (r' ++ rest) /\ keep rest s s' /\ mine tid r' /\ kon kn' s' /\ cov kn' r' /\ csafek tid (k b) r' kn' Q) efault
  end.
Lemma csafek_mono {A} tid (p : prog state A) : forall r kn (Q Q' : A -> list tok -> kmap -> Prop), csafek tid p r kn Q -> (forall a r' kn', Q a r' kn' -> Q' a r' kn') -> csafek tid p r kn Q'.
Proof.
  induction p as [a|B m k IH]; cbn; intros r kn Q Q' H HQ; [auto|]. intros s rest bal T U O N. eapply wp_mono; [apply (H s rest bal T U O N)| |auto].
  intros b s' (r' & kn' & K1 & K2 & K3 & K4 & K5 & K6). exists r', kn'. repeat (split; [assumption|]). eapply IH; eauto.
Qed.
Lemma csafek_bind {A B} tid (p : prog state A) (f : A -> prog state B) : forall r kn (Q : A -> list tok -> kmap -> Prop) (Q' : B -> list tok -> kmap -> Prop),
  csafek tid p r kn Q -> (forall a r' kn', Q a r' kn' -> csafek tid (f a) r' kn' Q') -> csafek tid (pbind p f) r kn Q'.
Proof.
  induction p as [a|C m k IH]; cbn; intros r kn Q Q' H HQ; [auto|]. intros s rest bal T U O N. eapply wp_mono; [apply (H s rest bal T U O N)| |auto].
  intros b s' (r' & kn' & K1 & K2 & K3 & K4 & K5 & K6). exists r', kn'. repeat (split; [assumption|]). eapply IH; eauto.
Qed.
(** a call that need not know anything *)
Lemma csafek_lift {A} tid (p : prog state A) : forall r kn (Q : A -> list tok -> Prop), csafe g md sz tid p r Q -> csafek tid p r kn (fun a r' _ => Q a r').
Proof.
  induction p as [a|B m k IH]; cbn; intros r kn Q H; [auto|]. intros s rest bal T U O N. eapply wp_mono; [apply (H s rest bal T U O)| |auto].
  intros b s' (r' & K1 & K2 & K3 & K4). exists r', nokn. split; [auto|]. split; [auto|]. split; [auto|]. split; [apply kon_none|]. split; [apply cov_none|]. apply IH, K4.
Qed.
(** the bytes lie in what the call does not touch *)
Lemma csafek_frame {A} tid (F : list tok) kn (p : prog state A) : covd F -> ~ In (TP tid) F -> (forall t, ~ In (TP t) F) -> (forall p, ~ In (TG p) F) -> cov kn F -> forall r (Q : A -> list tok -> Prop),
  csafe g md sz tid p r Q -> csafek tid p (r ++ F) kn (fun a r' kn' => kn' = kn /\ exists r0, r' = r0 ++ F /\ Q a r0).
Proof.
  intros HF NF NP NG CV. induction p as [a|C m k IH]; cbn; intros r Q H; [eauto|]. intros s rest bal T U O N. rewrite <- app_assoc in U.
  eapply wp_mono; [apply (H s (F ++ rest) bal T U)| |auto].
  - destruct O as [O1 O2]. split; [apply covd_app; auto|]. rewrite in_app_iff. tauto.
  - intros b s' (r' & K1 & K2 & K3 & K4). exists (r' ++ F), kn. rewrite <- app_assoc. split; [auto|]. split; [|split; [|split; [|split; [|apply IH, K4]]]].
    + eapply keep_incl; [|exact K2]. intros t Ht. apply in_or_app. auto.
    + destruct K3 as (M1 & M2 & M3). split; [apply covd_app; auto|]. split; [intros t Ht; apply in_app_iff in Ht; destruct Ht as [Ht|Ht]; [auto|elim (NP t Ht)]|]. intros q Ht. apply in_app_iff in Ht. destruct Ht as [Ht|Ht]; [eauto|elim (NG q Ht)].
    + eapply kon_keep; [exact CV| |exact K2|exact N]. intros t Ht. apply in_or_app. auto.
    + apply cov_r, CV.
Qed.
Lemma csafek_perm {A} tid (p : prog state A) r r' kn (Q : A -> list tok -> kmap -> Prop) : Permutation r r' -> (forall a x y kn', Permutation x y -> Q a x kn' -> Q a y kn') -> csafek tid p r kn Q -> csafek tid p r' kn Q.
Proof.
  intros P HQ. destruct p as [a|C m k]; cbn; [intros H; eapply HQ; eauto|]. intros H s rest bal T U O N. apply (H s rest bal T); [|auto|auto].
  eapply J_perm; [|exact U]. apply Permutation_app_tail, Permutation_sym, P.
Qed.
Lemma csafek_zoom_bind {S A B} tid (gt : state -> S) (st : S -> state -> state) (p : prog S A) (f : A -> prog S B) : forall r kn (Q : B -> list tok -> kmap -> Prop),
  csafek tid (pbind (pzoom gt st p) (fun a => pzoom gt st (f a))) r kn Q -> csafek tid (pzoom gt st (pbind p f)) r kn Q.
Proof.
  induction p as [a|C m k IH]; cbn; intros r kn Q H; [auto|]. intros s rest bal T U O N. eapply wp_mono; [apply (H s rest bal T U O N)| |auto].
  intros b s' (r' & kn' & K1 & K2 & K3 & K4 & K5 & K6). exists r', kn'. repeat (split; [assumption|]). apply IH, K6.
Qed.
Lemma csafek_psys {A} tid (p : prog os A) : forall r kn (Q : A -> list tok -> kmap -> Prop), csafek tid (p_os p) r kn Q -> csafek tid (p_ra (ra_psys p)) r kn Q.
Proof.
  induction p as [a|C m k IH]; cbn; intros r kn Q H; [auto|]. intros s rest bal T U O N. specialize (H s rest bal T U O N). revert H. unfold wp, zoom, ra_sys. cbn [ra_get rs_os].
  destruct (m (st_os s)) as [[b o]|f]; [|auto]. replace (ra_put (set_rs_os o (ra_get s)) s) with (set_st_os o s) by (destruct s; reflexivity).
  intros (r' & kn' & K1 & K2 & K3 & K4 & K5 & K6). exists r', kn'. repeat (split; [assumption|]). apply IH, K6.
Qed.
(** an action of its own *)
Lemma csafek_own {A} tid (m : M state A) r kn (KN : A -> kmap) (Q : A -> list tok -> Prop) : csafe g md sz tid (act m) r Q ->
  (forall s rest bal, okst sz s -> J bal s (r ++ rest) -> others tid rest -> kon kn s -> wp m s (fun b s' => kon (KN b) s') anyf) ->
  (forall b r', Q b r' -> cov (KN b) r') ->
  csafek tid (act m) r kn (fun b r' kn' => Q b r' /\ kn' = KN b).
Proof.
  intros H HK HC. cbn in *. intros s rest bal T U O N. eapply wp_mono; [apply wp_and; [apply (H s rest bal T U O)|apply (HK s rest bal T U O N)]| |auto].
  intros b s' ((r' & K1 & K2 & K3 & K4) & K5). exists r', (KN b). repeat (split; [assumption|]). split; [auto|]. split; [auto|]. auto.
Qed.
Definition same_mem {A} (m : M state A) : Prop := forall s, wp m s (fun _ s' => mem (st_os s') = mem (st_os s)) anyf.
Lemma csafek_same {A} tid (m : M state A) r kn (Q : A -> list tok -> Prop) : csafe g md sz tid (act m) r Q -> same_mem m ->
  (forall b r', Q b r' -> cov kn r') -> csafek tid (act m) r kn (fun b r' kn' => Q b r' /\ kn' = kn).
Proof.
  intros H HS HC. apply (csafek_own tid m r kn (fun _ => kn) Q H); [|exact HC]. intros s rest bal _ _ _ N. eapply wp_mono; [apply (HS s)| |intros; exact I]. intros b s' E x v Hx. rewrite E. auto.
Qed.
End M.
Lemma frame_csafek {A} g sz tid F kn (p : prog state A) r (Q : A -> list tok -> Prop) (Q' : A -> list tok -> kmap -> Prop) : plain F -> cov true kn F -> csafe g true sz tid p r Q ->
  (forall a r', Q a r' -> Q' a (r' ++ F) kn) -> csafek g true sz tid p (r ++ F) kn Q'.
Proof.
  intros P C H K. destruct (plain_frame tid F P) as (A1 & A2 & A3 & A4). eapply csafek_mono; [apply (csafek_frame g true sz tid F kn p A1 A2 A3 A4 C r Q H)|]. intros a r' kn' (-> & r0 & -> & HQ). auto.
Qed.
(** actions that do not touch memory *)
Lemma same_get : same_mem get. Proof. intros s. apply wp_get. reflexivity. Qed.
Lemma same_enforce : same_mem enforce_init.
Proof. intros s. unfold enforce_init. apply wp_bind, wp_get. destruct (is_init s); [apply wp_ret; reflexivity|apply wp_fail; exact I]. Qed.
Lemma same_ra {A} (m : M rastate A) : (forall rs, wp m rs (fun _ rs' => rs_os rs' = rs_os rs) anyf) -> same_mem (on_ra m).
Proof. intros H s. unfold on_ra. apply wp_zoom. eapply wp_mono; [apply (H (ra_get s))| |intros; exact I]. intros a rs E. cbn [ra_put st_os set_st_os set_st_ra]. rewrite E. reflexivity. Qed.
Lemma find_same p rs (Q : option Z -> rastate -> Prop) : (forall x, Q x rs) -> wp (regions_find p) rs Q anyf.
Proof. intros H. unfold regions_find. apply wp_bind, wp_gets. destruct (probe_key _ _ _ _ _); [apply wp_ret; auto|apply wp_fail; exact I]. Qed.
Lemma same_find old : same_mem (on_ra (realloc_find old)).
Proof. apply same_ra. intros rs. unfold realloc_find. apply wp_bind, find_same. intros [i|]; apply wp_bind, wp_gets; [apply wp_ret; reflexivity|apply wp_fail; exact I]. Qed.
Lemma same_stats g n rs0 rs : rs_os rs = rs_os rs0 -> wp (stats_large_deallocate g n) rs (fun _ rs' => rs_os rs' = rs_os rs0) anyf.
Proof. intros E. unfold stats_large_deallocate. destruct (STATS g); [apply wp_modify; exact E|apply wp_ret; exact E]. Qed.
Lemma same_resize g old os size : same_mem (on_ra (realloc_resize g old os size)).
Proof. apply same_ra. intros rs. unfold realloc_resize. apply wp_bind, find_same. intros [i|]; [|apply wp_fail; exact I]. apply wp_bind. unfold regions_set_size. apply wp_modify. apply same_stats. reflexivity. Qed.
Lemma same_delete g old os : same_mem (on_ra (realloc_delete g old os)).
Proof.
  apply same_ra. intros rs. unfold realloc_delete. apply wp_bind, find_same. intros [i|]; [|apply wp_fail; exact I]. apply wp_bind. unfold regions_delete. apply wp_bind, wp_gets.
  destruct (delete_loop _ _ _ _ _); [|apply wp_fail; exact I]. apply wp_modify. apply same_stats. reflexivity.
Qed.
