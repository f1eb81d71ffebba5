(** Proofs about the OS layer: exact effect of each memory.c function. *)
From Coq Require Import String ZArith List Bool Lia ZifyBool.
From Verif Require Import M_Base M_OS P_Base.
Import ListNotations.
Open Scope Z_scope.
Ltac Zify.zify_post_hook ::= Z.div_mod_to_equations.

(** faults of the memory layer: only fatal errors with these messages *)
Definition sys_msgs : list string := [
  "non-ENOMEM mmap failure"; "non-ENOMEM MAP_FIXED mmap failure"; "non-ENOMEM munmap failure";
  "non-ENOMEM mprotect failure"; "non-ENOMEM MREMAP_FIXED mremap failure"; "non-ENOMEM MADV_DONTNEED madvise failure" ]%string.
Definition sys_fault (f : fault) : Prop := exists m, f = Fatal m /\ In m sys_msgs.

Lemma pages_all_spec f o a len : pages_all f o a len = true <-> (forall p, in_pages a len p = true -> f (pages o p) = true).
Proof.
  unfold pages_all, page_span. rewrite forallb_zrange. unfold in_pages; cbv zeta beta. split; intros H p Hp; apply H; lia.
Qed.
Lemma in_pages_spec a len p : in_pages a len p = true <-> page_of a <= p < (a + len + 4095) / 4096.
Proof. unfold in_pages; cbv zeta beta. lia. Qed.
Lemma in_pages_addr a len x : 0 < len -> a <= x < a + len -> in_pages a len (page_of x) = true.
Proof. intros. rewrite in_pages_spec. unfold page_of. lia. Qed.
(** for page aligned ranges the pages are exactly those of the addresses *)
Lemma in_pages_aligned a len x : a mod 4096 = 0 -> len mod 4096 = 0 ->
  in_pages a len (page_of x) = true <-> a <= x < a + len.
Proof. intros. rewrite in_pages_spec. unfold page_of. lia. Qed.
Lemma in_pages_aligned' a len p : a mod 4096 = 0 -> len mod 4096 = 0 ->
  in_pages a len p = true <-> a <= p * 4096 < a + len.
Proof. intros. rewrite in_pages_spec. unfold page_of. lia. Qed.

Definition failed_os (o : os) : os := set_errno ENOMEM (next_sys o).

Definition mapped_os (p size : Z) (o : os) : os := zero_pages p size (map_pages p size (Some PNone) (next_sys o)).
Definition unmapped_os (p size : Z) (o : os) : os := map_pages p size None (next_sys o).
Definition protected_os (p size : Z) (pr : prot) (o : os) : os := map_pages p size (Some pr) (next_sys o).
Definition purged_os (p size : Z) (o : os) : os := zero_pages p size (next_sys o).
Definition moved_os (old old_size new new_size : Z) (o : os) : os :=
  set_mem (fun x => if in_pages new new_size (page_of x) then
                      if x - new <? (old_size + 4095) / 4096 * 4096 then mem o (x - new + old) else 0
                    else mem o x)
    (map_pages new new_size (Some PRW) (map_pages old old_size None (next_sys o))).

Ltac in_msgs := unfold sys_msgs; repeat (first [left; reflexivity | right]).
Ltac sysf := apply wp_fail; eexists; split; [reflexivity|in_msgs].

Lemma check_enomem_wp msg m o Q : In msg sys_msgs ->
  wp m o (fun e o' => if e =? 0 then Q false o' else e = ENOMEM -> Q true o') sys_fault ->
  wp (check_enomem msg m) o Q sys_fault.
Proof.
  intros I H. unfold check_enomem. apply wp_bind. eapply wp_mono; [exact H| |auto].
  intros e o' He. destruct (Z.eqb_spec e 0) as [->|]; cbn [negb].
  - now apply wp_ret.
  - destruct (Z.eqb_spec e ENOMEM) as [->|]; cbn [negb].
    + apply wp_ret. auto.
    + apply wp_fail. exists msg. auto.
Qed.
Lemma sys_result_wp e o (Q : Z -> os -> Prop) E : (if e =? 0 then Q 0 o else Q e (set_errno e o)) -> wp (sys_result e) o Q E.
Proof. unfold sys_result. destruct (e =? 0); intros; [now apply wp_ret|]. apply wp_bind, wp_modify, wp_ret. auto. Qed.
Lemma sys_answer_wp o (Q : sysans -> os -> Prop) E : Q (sysq o (sysn o)) (next_sys o) -> wp sys_answer o Q E.
Proof. auto. Qed.

Ltac sys_step1 := match goal with
  | |- wp (bind _ _) _ _ _ => apply wp_bind
  | |- wp (ret _) _ _ _ => apply wp_ret
  | |- wp (modify _) _ _ _ => apply wp_modify
  | |- wp get _ _ _ => apply wp_get
  | |- wp (put _) _ _ _ => apply wp_put
  | |- wp (fatal _) _ _ _ => apply wp_fail
  | |- wp sys_answer _ _ _ => apply sys_answer_wp
  | |- wp (sys_result _) _ _ _ => apply sys_result_wp
  | |- wp (if ?b then _ else _) _ _ _ => let E := fresh "E" in destruct b eqn:E
  end.
Ltac sys_step := repeat sys_step1.

Lemma memory_map_fixed_wp p size o :
  wp (memory_map_fixed p size) o
    (fun failed o' => if failed then o' = failed_os o
       else o' = mapped_os p size o /\ p mod 4096 = 0 /\ size <> 0 /\ p + size + 4095 <= ADDR_MAX) sys_fault.
Proof.
  unfold memory_map_fixed, sys_mmap_fixed. apply check_enomem_wp; [in_msgs|]. sys_step.
  - destruct (sa_errno (sysq o (sysn o)) =? 0) eqn:E0; [discriminate|]. rewrite ?E0. intros EE. unfold failed_os. rewrite EE. reflexivity.
  - discriminate.
  - intros _. reflexivity.
  - cbn [Z.eqb]. split; [reflexivity|]. lia.
Qed.
Lemma memory_unmap_wp p size o :
  wp (memory_unmap p size) o
    (fun failed o' => if failed then o' = failed_os o
       else o' = unmapped_os p size o /\ p mod 4096 = 0 /\ size <> 0) sys_fault.
Proof.
  unfold memory_unmap, sys_munmap. apply check_enomem_wp; [in_msgs|]. sys_step.
  - destruct (sa_errno (sysq o (sysn o)) =? 0) eqn:E0; [discriminate|]. rewrite ?E0. intros EE. unfold failed_os. rewrite EE. reflexivity.
  - discriminate.
  - cbn [Z.eqb]. split; [reflexivity|]. lia.
Qed.
Lemma memory_protect_wp p size pr o :
  wp (memory_protect_prot p size pr) o
    (fun failed o' => if failed then o' = failed_os o
       else o' = protected_os p size pr o /\ p mod 4096 = 0 /\ pages_all is_mapped o p size = true) sys_fault.
Proof.
  unfold memory_protect_prot, sys_mprotect. apply check_enomem_wp; [in_msgs|]. sys_step.
  - destruct (sa_errno (sysq o (sysn o)) =? 0) eqn:E0; [discriminate|]. rewrite ?E0. intros EE. unfold failed_os. rewrite EE. reflexivity.
  - discriminate.
  - intros _. reflexivity.
  - cbn [Z.eqb]. split; [reflexivity|]. split; [lia|]. now apply negb_false_iff in E1.
Qed.
Lemma memory_purge_wp p size o :
  wp (memory_purge p size) o
    (fun failed o' => if failed then o' = failed_os o
       else o' = purged_os p size o /\ p mod 4096 = 0 /\ pages_all is_mapped o p size = true) sys_fault.
Proof.
  unfold memory_purge, sys_madvise. apply check_enomem_wp; [in_msgs|]. sys_step.
  - destruct (sa_errno (sysq o (sysn o)) =? 0) eqn:E0; [discriminate|]. rewrite ?E0. intros EE. unfold failed_os. rewrite EE. reflexivity.
  - discriminate.
  - intros _. reflexivity.
  - cbn [Z.eqb]. split; [reflexivity|]. split; [lia|]. now apply negb_false_iff in E1.
Qed.
Lemma memory_remap_fixed_wp old osz new nsz o :
  wp (memory_remap_fixed old osz new nsz) o
    (fun failed o' => if failed then o' = failed_os o
       else o' = moved_os old osz new nsz o /\ pages_all is_rw o old osz = true /\ old mod 4096 = 0 /\ new mod 4096 = 0 /\ nsz <> 0 /\
            (new + nsz <= old \/ old + osz <= new) /\ new + nsz + 4095 <= ADDR_MAX) sys_fault.
Proof.
  unfold memory_remap_fixed, sys_mremap_fixed. apply check_enomem_wp; [in_msgs|]. sys_step.
  - destruct (sa_errno (sysq o (sysn o)) =? 0) eqn:E0; [discriminate|]. rewrite ?E0. intros EE. unfold failed_os. rewrite EE. reflexivity.
  - discriminate.
  - discriminate.
  - intros _. reflexivity.
  - cbn [Z.eqb]. split; [reflexivity|]. apply negb_false_iff in E1. split; [exact E1|]. lia.
Qed.
Lemma memory_map_wp size o :
  wp (memory_map size) o
    (fun r o' => match r with
       | None => o' = failed_os o
       | Some p => o' = mapped_os p size o /\ p mod 4096 = 0 /\ 4096 <= p /\ p + size + 4095 <= ADDR_MAX /\ size <> 0 /\
                   pages_all is_unmapped o p size = true
       end) sys_fault.
Proof.
  unfold memory_map. apply wp_bind.
  assert (forall (e p : Z) o1 (Q : option Z -> os -> Prop), (if e =? 0 then Q (Some p) o1 else e = ENOMEM -> Q None o1) ->
    wp (let '(e, p) := (e, p) in if negb (e =? 0) then if negb (e =? ENOMEM) then fatal "non-ENOMEM mmap failure" else ret None else ret (Some p)) o1 Q sys_fault) as K.
  { intros e p o1 Q H. destruct (Z.eqb_spec e 0); cbn [negb]; [now apply wp_ret|].
    destruct (Z.eqb_spec e ENOMEM); cbn [negb]; [apply wp_ret; auto|]. apply wp_fail. eexists; split; [reflexivity|in_msgs]. }
  unfold sys_mmap. apply wp_bind, sys_answer_wp, wp_bind, wp_get.
  destruct (Z.eqb_spec (sa_errno (sysq o (sysn o))) 0) as [E0|E0]; cbn [negb].
  - destruct (Z.eqb_spec size 0).
    + apply wp_bind, sys_result_wp. cbn [Z.eqb EINVAL]. apply wp_ret, K. discriminate.
    + match goal with |- wp (if ?b then _ else _) _ _ _ => destruct b eqn:B end.
      * apply wp_bind, wp_modify, wp_bind, wp_modify, wp_ret, K. cbn [Z.eqb]. split; [reflexivity|].
        repeat match goal with H : _ && _ = true |- _ => apply andb_prop in H; destruct H end.
        split; [lia|]. split; [lia|]. split; [lia|]. split; [lia|]. assumption.
      * apply wp_bind, sys_result_wp. cbn [Z.eqb ENOMEM]. apply wp_ret, K. intros _. reflexivity.
  - apply wp_bind, sys_result_wp. replace (sa_errno (sysq o (sysn o)) =? 0) with false by lia.
    apply wp_ret, K. replace (sa_errno (sysq o (sysn o)) =? 0) with false by lia. intros EE. unfold failed_os. rewrite EE. reflexivity.
Qed.

(** ** data accesses *)
Lemma load_bytes_wp a len o (Q : list Z -> os -> Prop) E :
  pages_all is_readable o a len = true -> Q (map (mem o) (zrange a (a + len))) o -> wp (load_bytes a len) o Q E.
Proof. intros H HQ. unfold load_bytes. apply wp_bind, wp_get. rewrite H. now apply wp_ret. Qed.
Definition set_range (a v len : Z) (o : os) : os :=
  set_mem (fun x => if (a <=? x) && (x <? a + len) then v else mem o x) o.
Lemma mem_set_wp a v len o (Q : unit -> os -> Prop) E :
  (0 < len -> pages_all is_rw o a len = true) -> Q tt (set_range a v len o) -> wp (mem_set a v len) o Q E.
Proof.
  intros H HQ. unfold mem_set. apply wp_bind, wp_get.
  assert ((len <=? 0) || pages_all is_rw o a len = true) as ->.
  { destruct (Z.leb_spec len 0); [auto|]. cbn. auto. }
  now apply wp_put.
Qed.
Definition copied_os (dst src len : Z) (o : os) : os :=
  set_mem (fun x => if (dst <=? x) && (x <? dst + len) then mem o (x - dst + src) else mem o x) o.
Lemma mem_copy_wp dst src len o (Q : unit -> os -> Prop) E :
  (0 < len -> pages_all is_rw o dst len = true /\ pages_all is_readable o src len = true) ->
  Q tt (copied_os dst src len o) -> wp (mem_copy dst src len) o Q E.
Proof.
  intros H HQ. unfold mem_copy. apply wp_bind, wp_get.
  assert ((len <=? 0) || (pages_all is_rw o dst len && pages_all is_readable o src len) = true) as ->.
  { destruct (Z.leb_spec len 0); [auto|]. cbn. destruct (H ltac:(lia)) as [-> ->]. auto. }
  now apply wp_put.
Qed.
Definition stored_os (a v : Z) (o : os) : os :=
  set_mem (fun x => if (a <=? x) && (x <? a + 8) then byte_of v (x - a) else mem o x) o.
Lemma store_u64_wp a v o (Q : unit -> os -> Prop) E :
  pages_all is_rw o a 8 = true -> Q tt (stored_os a v o) -> wp (store_u64 a v) o Q E.
Proof. intros H HQ. unfold store_u64. apply wp_bind, wp_get. rewrite H. now apply wp_put. Qed.
Definition u64_at (m : Z -> Z) (a : Z) : Z := le_of_bytes (map m (zrange a (a + 8))).
Lemma load_u64_wp a o (Q : Z -> os -> Prop) E :
  pages_all is_readable o a 8 = true -> Q (u64_at (mem o) a) o -> wp (load_u64 a) o Q E.
Proof. intros H HQ. unfold load_u64. apply wp_bind. apply load_bytes_wp; [auto|]. now apply wp_ret. Qed.
Lemma rw_readable o a len : pages_all is_rw o a len = true -> pages_all is_readable o a len = true.
Proof.
  rewrite !pages_all_spec. intros H p Hp. specialize (H p Hp). destruct (pages o p) as [[]|]; auto; discriminate.
Qed.

Ltac Zify.zify_post_hook ::= idtac.
(** changes of the system state confined to the pages D: contents/protections
    outside D untouched, nothing in D gets unmapped *)
Record os_in (D : Z -> Prop) (o o' : os) : Prop := {
  oi_pages : forall p, ~ D p -> pages o' p = pages o p;
  oi_mem : forall x, ~ D (page_of x) -> mem o' x = mem o x;
  oi_mapped : forall p, pages o p <> None -> pages o' p <> None;
  oi_sysq : sysq o' = sysq o; oi_sysn : (sysn o <= sysn o')%nat;
  oi_entq : entq o' = entq o; oi_entn : (entn o <= entn o')%nat; oi_fuel : fuel o' = fuel o
}.
Lemma os_in_refl D o : os_in D o o. Proof. constructor; auto. Qed.
Lemma os_in_trans D o1 o2 o3 : os_in D o1 o2 -> os_in D o2 o3 -> os_in D o1 o3.
Proof.
  intros [] []. constructor; auto; try congruence; try lia.
  - intros p Hp. rewrite oi_pages1, oi_pages0 by auto. auto.
  - intros p Hp. rewrite oi_mem1, oi_mem0 by auto. auto.
Qed.
Lemma os_in_mono (D D' : Z -> Prop) o o' : (forall p, D p -> D' p) -> os_in D o o' -> os_in D' o o'.
Proof. intros S []. constructor; auto. Qed.
Lemma os_in_failed D o : os_in D o (failed_os o). Proof. constructor; cbn; auto. Qed.
Lemma os_in_errno D o e : os_in D o (set_errno e o). Proof. constructor; cbn; auto. Qed.
Lemma os_in_protected (D : Z -> Prop) p size pr o : (forall q, in_pages p size q = true -> D q) -> os_in D o (protected_os p size pr o).
Proof.
  intros H. constructor; cbn; auto.
  - intros q Hq. destruct (in_pages p size q) eqn:E; auto. elim Hq. auto.
  - intros q Hq. destruct (in_pages p size q); congruence.
Qed.
Lemma os_in_mapped (D : Z -> Prop) p size o : (forall q, in_pages p size q = true -> D q) -> os_in D o (mapped_os p size o).
Proof.
  intros H. constructor; cbn; auto.
  - intros q Hq. destruct (in_pages p size q) eqn:E; auto. elim Hq. auto.
  - intros q Hq. destruct (in_pages p size (page_of q)) eqn:E; auto. elim Hq. auto.
  - intros q Hq. destruct (in_pages p size q); congruence.
Qed.
Lemma os_in_purged (D : Z -> Prop) p size o : (forall q, in_pages p size q = true -> D q) -> os_in D o (purged_os p size o).
Proof.
  intros H. constructor; cbn; auto.
  intros q Hq. destruct (in_pages p size (page_of q)) eqn:E; auto. elim Hq. auto.
Qed.

Lemma in_pages_le a l1 l2 q : l1 <= l2 -> in_pages a l1 q = true -> in_pages a l2 q = true.
Proof.
  rewrite !in_pages_spec. intros H [H1 H2]. split; [auto|].
  assert ((a + l1 + 4095) / 4096 <= (a + l2 + 4095) / 4096) by (apply Z.div_le_mono; lia). lia.
Qed.


Lemma map_fixed_reason p size o :
  wp (memory_map_fixed p size) o
    (fun failed _ => failed = true -> sa_errno (sysq o (sysn o)) = ENOMEM \/ ADDR_MAX < p + size + 4095) (fun _ => True).
Proof.
  unfold memory_map_fixed, check_enomem, sys_mmap_fixed. apply wp_bind, wp_bind, sys_answer_wp.
  assert (forall e o' (Q : bool -> os -> Prop), (e <> 0 -> e = ENOMEM -> Q true o') -> (e = 0 -> Q false o') ->
    wp (if negb (e =? 0) then if negb (e =? ENOMEM) then fatal "non-ENOMEM MAP_FIXED mmap failure" else ret true else ret false) o' Q (fun _ => True)) as K.
  { intros e o' Q H1 H2. destruct (Z.eqb_spec e 0); cbn [negb]; [apply wp_ret; auto|].
    destruct (Z.eqb_spec e ENOMEM); cbn [negb]; [apply wp_ret; auto|apply wp_fail; auto]. }
  destruct (Z.eqb_spec (sa_errno (sysq o (sysn o))) 0) as [E0|E0]; cbn [negb].
  - destruct (_ || _) eqn:B.
    + apply sys_result_wp. apply (K EINVAL); discriminate.
    + destruct (Z.leb_spec (p + size + 4095) ADDR_MAX); cbn [negb].
      * apply wp_bind, wp_modify, wp_bind, wp_modify, wp_ret. apply K; [congruence|discriminate].
      * apply sys_result_wp. apply (K ENOMEM); [auto|discriminate].
  - apply sys_result_wp. destruct (Z.eqb_spec (sa_errno (sysq o (sysn o))) 0) as [|N]; [congruence|]. cbn [negb].
    destruct (Z.eqb_spec (sa_errno (sysq o (sysn o))) ENOMEM) as [EE|]; cbn [negb]; [apply wp_ret; auto|apply wp_fail; auto].
Qed.

Lemma unmap_reason p size o :
  wp (memory_unmap p size) o (fun failed _ => failed = true -> sa_errno (sysq o (sysn o)) = ENOMEM) (fun _ => True).
Proof.
  unfold memory_unmap, check_enomem, sys_munmap. apply wp_bind, wp_bind, sys_answer_wp.
  assert (forall e o' (Q : bool -> os -> Prop), (e <> 0 -> e = ENOMEM -> Q true o') -> (e = 0 -> Q false o') ->
    wp (if negb (e =? 0) then if negb (e =? ENOMEM) then fatal "non-ENOMEM munmap failure" else ret true else ret false) o' Q (fun _ => True)) as K.
  { intros e o' Q H1 H2. destruct (Z.eqb_spec e 0); cbn [negb]; [apply wp_ret; auto|].
    destruct (Z.eqb_spec e ENOMEM); cbn [negb]; [apply wp_ret; auto|apply wp_fail; auto]. }
  destruct (Z.eqb_spec (sa_errno (sysq o (sysn o))) 0) as [E0|E0]; cbn [negb].
  - destruct (_ || _) eqn:B.
    + apply sys_result_wp. apply (K EINVAL); discriminate.
    + apply wp_bind, wp_modify, wp_ret. apply K; [congruence|discriminate].
  - apply sys_result_wp. destruct (Z.eqb_spec (sa_errno (sysq o (sysn o))) 0) as [|N]; [congruence|]. cbn [negb].
    destruct (Z.eqb_spec (sa_errno (sysq o (sysn o))) ENOMEM) as [EE|]; cbn [negb]; [apply wp_ret; auto|apply wp_fail; auto].
Qed.
Lemma protect_reason p size pr o :
  wp (memory_protect_prot p size pr) o
    (fun failed _ => failed = true -> sa_errno (sysq o (sysn o)) = ENOMEM \/ pages_all is_mapped o p size = false) (fun _ => True).
Proof.
  unfold memory_protect_prot, check_enomem, sys_mprotect. apply wp_bind, wp_bind, sys_answer_wp, wp_bind, wp_get.
  assert (forall e o' (Q : bool -> os -> Prop), (e <> 0 -> e = ENOMEM -> Q true o') -> (e = 0 -> Q false o') ->
    wp (if negb (e =? 0) then if negb (e =? ENOMEM) then fatal "non-ENOMEM mprotect failure" else ret true else ret false) o' Q (fun _ => True)) as K.
  { intros e o' Q H1 H2. destruct (Z.eqb_spec e 0); cbn [negb]; [apply wp_ret; auto|].
    destruct (Z.eqb_spec e ENOMEM); cbn [negb]; [apply wp_ret; auto|apply wp_fail; auto]. }
  destruct (Z.eqb_spec (sa_errno (sysq o (sysn o))) 0) as [E0|E0]; cbn [negb].
  - destruct (negb (p mod 4096 =? 0)) eqn:B.
    + apply sys_result_wp. apply (K EINVAL); discriminate.
    + change (pages_all is_mapped (next_sys o) p size) with (pages_all is_mapped o p size). destruct (pages_all is_mapped o p size) eqn:PM; cbn [negb].
      * apply wp_bind, wp_modify, wp_ret. apply K; [congruence|discriminate].
      * apply sys_result_wp. apply (K ENOMEM); [auto|discriminate].
  - apply sys_result_wp. destruct (Z.eqb_spec (sa_errno (sysq o (sysn o))) 0) as [|N]; [congruence|]. cbn [negb].
    destruct (Z.eqb_spec (sa_errno (sysq o (sysn o))) ENOMEM) as [EE|]; cbn [negb]; [apply wp_ret; auto|apply wp_fail; auto].
Qed.
(** the kernel refused a request between two states *)
Definition refused (o o' : os) : Prop := exists t, (sysn o <= t < sysn o')%nat /\ sa_errno (sysq o t) = ENOMEM.
