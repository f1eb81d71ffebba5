(** Operating system: page table, memory, system calls; memory.c and pages.c.

    The kernel's answers are arbitrary: [sysq] is the stream of answers of the
    memory system calls, [entq] that of getrandom.  The model checks what the
    kernel itself checks (alignment, mapped pages, freshness of the address
    returned by mmap) and turns an impossible answer into an error.
    Simplification: a failing call has no effect on the page table. *)
From Coq Require Import String ZArith List Bool.
From Verif Require Import M_Base.
Import ListNotations.
Open Scope Z_scope.

Inductive prot : Type := PNone | PRead | PRW.

(** answer of one memory system call: errno (0 = success), and the address that
    mmap(NULL, ...) returns *)
Record sysans : Type := mkSysans { sa_errno : Z; sa_addr : Z }.
(** answer of one getrandom call: errno (0 = success) and the bytes delivered *)
Record entans : Type := mkEntans { en_errno : Z; en_bytes : list Z }.

Record os : Type := mkOs {
  pages : Z -> option prot;      (* page number -> protection, None = unmapped *)
  mem   : Z -> Z;                (* address -> byte *)
  sysq  : nat -> sysans;         (* answers of memory system calls *)
  sysn  : nat;                   (* number of answers consumed *)
  entq  : nat -> entans;         (* answers of getrandom *)
  entn  : nat;
  fuel  : nat;                   (* bound on random retries, see [Retry] *)
  errno : Z                      (* errno of the running thread *)
}.

Definition set_pages (f : Z -> option prot) (o : os) : os :=
  mkOs f (mem o) (sysq o) (sysn o) (entq o) (entn o) (fuel o) (errno o).
Definition set_mem (f : Z -> Z) (o : os) : os :=
  mkOs (pages o) f (sysq o) (sysn o) (entq o) (entn o) (fuel o) (errno o).
Definition set_errno (e : Z) (o : os) : os :=
  mkOs (pages o) (mem o) (sysq o) (sysn o) (entq o) (entn o) (fuel o) e.
Definition next_sys (o : os) : os :=
  mkOs (pages o) (mem o) (sysq o) (S (sysn o)) (entq o) (entn o) (fuel o) (errno o).
Definition next_ent (o : os) : os :=
  mkOs (pages o) (mem o) (sysq o) (sysn o) (entq o) (S (entn o)) (fuel o) (errno o).

Definition page_of (a : Z) : Z := a / 4096.
(** page numbers touched by [a, a+len) *)
Definition page_span (a len : Z) : list Z := zrange (page_of a) ((a + len + 4095) / 4096).
Definition pages_all (f : option prot -> bool) (o : os) (a len : Z) : bool :=
  forallb (fun p => f (pages o p)) (page_span a len).
Definition is_mapped (x : option prot) : bool := match x with Some _ => true | None => false end.
Definition is_unmapped (x : option prot) : bool := negb (is_mapped x).
Definition is_rw (x : option prot) : bool := match x with Some PRW => true | _ => false end.
Definition is_readable (x : option prot) : bool :=
  match x with Some PRW | Some PRead => true | _ => false end.

(** (the [let]s only make the model faster to run) *)
Definition in_pages (a len : Z) : Z -> bool :=
  let lo := page_of a in let hi := (a + len + 4095) / 4096 in fun p => (lo <=? p) && (p <? hi).
Definition map_pages (a len : Z) (v : option prot) (o : os) : os :=
  let f := in_pages a len in set_pages (fun p => if f p then v else pages o p) o.
Definition zero_pages (a len : Z) (o : os) : os :=
  let f := in_pages a len in set_mem (fun x => if f (page_of x) then 0 else mem o x) o.

(** highest address a user mapping can reach (x86_64/arm64 with 47 bits) *)
Definition ADDR_MAX : Z := 2 ^ 47.

(** take the next answer *)
Definition sys_answer : M os sysans :=
  fun o => Ok (sysq o (sysn o), next_sys o).

(** Result of a system call: 0 or an errno; errno is set on failure. *)
Definition sys_result (e : Z) : M os Z :=
  if e =? 0 then ret 0 else modify (set_errno e);; ret e.

(** mmap(NULL, size, PROT_NONE, MAP_ANONYMOUS|MAP_PRIVATE, -1, 0): (errno, address) *)
Definition sys_mmap (size : Z) : M os (Z * Z) :=
  let! a := sys_answer in
  let! o := get in
  if negb (sa_errno a =? 0) then
    let! e := sys_result (sa_errno a) in ret (e, 0)
  else if size =? 0 then
    let! e := sys_result EINVAL in ret (e, 0)
  else
    let p := sa_addr a in
    if (p mod 4096 =? 0) && (4096 <=? p) && (p + size + 4095 <=? ADDR_MAX)
       && pages_all is_unmapped o p size
    then modify (map_pages p size (Some PNone));;
         modify (zero_pages p size);;
         ret (0, p)
    else let! e := sys_result ENOMEM in ret (e, 0).

(** mmap(ptr, size, PROT_NONE, MAP_ANONYMOUS|MAP_PRIVATE|MAP_FIXED, -1, 0) *)
Definition sys_mmap_fixed (ptr size : Z) : M os Z :=
  let! a := sys_answer in
  if negb (sa_errno a =? 0) then sys_result (sa_errno a)
  else if negb (ptr mod 4096 =? 0) || (size =? 0) then sys_result EINVAL
  else if negb (ptr + size + 4095 <=? ADDR_MAX) then sys_result ENOMEM
  else modify (map_pages ptr size (Some PNone));;
       modify (zero_pages ptr size);;
       ret 0.

(** munmap(ptr, size) *)
Definition sys_munmap (ptr size : Z) : M os Z :=
  let! a := sys_answer in
  if negb (sa_errno a =? 0) then sys_result (sa_errno a)
  else if negb (ptr mod 4096 =? 0) || (size =? 0) then sys_result EINVAL
  else modify (map_pages ptr size None);; ret 0.

(** mprotect(ptr, size, prot) *)
Definition sys_mprotect (ptr size : Z) (pr : prot) : M os Z :=
  let! a := sys_answer in
  let! o := get in
  if negb (sa_errno a =? 0) then sys_result (sa_errno a)
  else if negb (ptr mod 4096 =? 0) then sys_result EINVAL
  else if negb (pages_all is_mapped o ptr size) then sys_result ENOMEM
  else modify (map_pages ptr size (Some pr));; ret 0.

(** madvise(ptr, size, MADV_DONTNEED) on private anonymous memory: the pages
    read as zero afterwards *)
Definition sys_madvise (ptr size : Z) : M os Z :=
  let! a := sys_answer in
  let! o := get in
  if negb (sa_errno a =? 0) then sys_result (sa_errno a)
  else if negb (ptr mod 4096 =? 0) then sys_result EINVAL
  else if negb (pages_all is_mapped o ptr size) then sys_result ENOMEM
  else modify (zero_pages ptr size);; ret 0.

(** mremap(old, old_size, new_size, MREMAP_MAYMOVE|MREMAP_FIXED, new): the pages
    of [old, old+old_size) move to new with their protection (uniform over the old
    range, as mremap requires a single mapping), the rest of
    [new, new+new_size) is fresh zero memory with the same protection. *)
Definition sys_mremap_fixed (old old_size new new_size : Z) : M os Z :=
  let! a := sys_answer in
  let! o := get in
  if negb (sa_errno a =? 0) then sys_result (sa_errno a)
  else if negb (old mod 4096 =? 0) || negb (new mod 4096 =? 0) || (new_size =? 0)
       || ((old <? new + new_size) && (new <? old + old_size)) then sys_result EINVAL
  else if negb (pages_all is_rw o old old_size) then sys_result EFAULT
  else if negb (new + new_size + 4095 <=? ADDR_MAX) then sys_result ENOMEM
  else
    let o' := map_pages new new_size (Some PRW) (map_pages old old_size None o) in
    put (set_mem (fun x => if in_pages new new_size (page_of x) then
                             if x - new <? (old_size + 4095) / 4096 * 4096 then mem o (x - new + old) else 0
                           else mem o x) o');;
    ret 0.

(** getrandom(buf, size, 0): error or the bytes stored (at most size) *)
Definition sys_getrandom (size : Z) : M os (Z * list Z) :=
  fun o =>
    let a := entq o (entn o) in
    let o := next_ent o in
    if negb (en_errno a =? 0) then Ok ((en_errno a, []), set_errno (en_errno a) o)
    else Ok ((0, map w8 (firstn (Z.to_nat size) (en_bytes a))), o).

(** ** memory.c *)

(** memory.c:20-29: None = NULL *)
Definition memory_map (size : Z) : M os (option Z) :=
  let! r := sys_mmap size in
  let '(e, p) := r in
  if negb (e =? 0) then
    if negb (e =? ENOMEM) then fatal "non-ENOMEM mmap failure"
    else ret None
  else ret (Some p).

(** the common shape "bool ret = call; if (ret && errno != ENOMEM) fatal_error(...)" *)
Definition check_enomem (msg : string) (m : M os Z) : M os bool :=
  let! e := m in
  if negb (e =? 0) then
    if negb (e =? ENOMEM) then fatal msg
    else ret true
  else ret false.

(** memory.c:45-52 *)
Definition memory_map_fixed (ptr size : Z) : M os bool :=
  check_enomem "non-ENOMEM MAP_FIXED mmap failure" (sys_mmap_fixed ptr size).
(** memory.c:54-60 *)
Definition memory_unmap (ptr size : Z) : M os bool :=
  check_enomem "non-ENOMEM munmap failure" (sys_munmap ptr size).
(** memory.c:62-84; the protection key argument of the sealing build is modelled
    separately (M_Flow.v) *)
Definition memory_protect_prot (ptr size : Z) (pr : prot) : M os bool :=
  check_enomem "non-ENOMEM mprotect failure" (sys_mprotect ptr size pr).
Definition memory_protect_ro (ptr size : Z) : M os bool := memory_protect_prot ptr size PRead.
Definition memory_protect_rw (ptr size : Z) : M os bool := memory_protect_prot ptr size PRW.
Definition memory_protect_rw_metadata (ptr size : Z) : M os bool := memory_protect_prot ptr size PRW.
(** memory.c:96-103 *)
Definition memory_remap_fixed (old old_size new new_size : Z) : M os bool :=
  check_enomem "non-ENOMEM MREMAP_FIXED mremap failure" (sys_mremap_fixed old old_size new new_size).
(** memory.c:106-112 *)
Definition memory_purge (ptr size : Z) : M os bool :=
  check_enomem "non-ENOMEM MADV_DONTNEED madvise failure" (sys_madvise ptr size).
(** memory.c:114-120: memory_set_name does nothing without LABEL_MEMORY (only
    Android debug builds define it); it is omitted from the model. *)

(** ** Data accesses of the allocator to user memory: a page that is not
    accessible is a segmentation fault. *)
Definition load_byte (a : Z) (o : os) : Z := mem o a.
Definition load_bytes (a len : Z) : M os (list Z) :=
  let! o := get in
  if pages_all is_readable o a len then ret (map (mem o) (zrange a (a + len)))
  else fail Segv.
(** memset(a, v, len) *)
Definition mem_set (a v len : Z) : M os unit :=
  let! o := get in
  if (len <=? 0) || pages_all is_rw o a len
  then put (set_mem (fun x => if (a <=? x) && (x <? a + len) then v else mem o x) o)
  else fail Segv.
(** memcpy(dst, src, len) between disjoint ranges *)
Definition mem_copy (dst src len : Z) : M os unit :=
  let! o := get in
  if (len <=? 0) || (pages_all is_rw o dst len && pages_all is_readable o src len)
  then put (set_mem (fun x => if (dst <=? x) && (x <? dst + len) then mem o (x - dst + src) else mem o x) o)
  else fail Segv.
(** an 8-byte little-endian store / load *)
Definition store_u64 (a v : Z) : M os unit :=
  let! o := get in
  if pages_all is_rw o a 8
  then put (set_mem (fun x => if (a <=? x) && (x <? a + 8) then byte_of v (x - a) else mem o x) o)
  else fail Segv.
Definition load_u64 (a : Z) : M os Z :=
  let! l := load_bytes a 8 in ret (le_of_bytes l).

(** ** pages.c, as programs: each system call is one atomic step *)
(** pages.c:7-10: None = overflow *)
Definition add_overflow (a b : Z) : option Z :=
  if a + b <? 2 ^ 64 then Some (a + b) else None.
Definition add_guards (size guard_size : Z) : option Z :=
  match add_overflow size guard_size with
  | Some t => add_overflow t guard_size
  | None => None
  end.

(** pages.c:12-29 *)
Definition allocate_pages (usable_size guard_size : Z) (unprotect : bool) : prog os (option Z) :=
  match add_guards usable_size guard_size with
  | None => act (modify (set_errno ENOMEM)) ;;; Ret None
  | Some real_size =>
      do! real := act (memory_map real_size) in
      match real with
      | None => Ret None
      | Some real =>
          let usable := w64 (real + guard_size) in
          do! failed := (if unprotect then act (memory_protect_rw usable usable_size) else Ret false) in
          if failed : bool then act (memory_unmap real real_size) ;;; Ret None
          else Ret (Some usable)
      end
  end.

(** pages.c:31-82 *)
Definition allocate_pages_aligned (usable_size alignment guard_size : Z) : prog os (option Z) :=
  let usable_size := page_align usable_size in
  if usable_size =? 0 then act (modify (set_errno ENOMEM)) ;;; Ret None
  else
  match add_overflow usable_size (w64 (alignment - PAGE_SIZE)) with
  | None => act (modify (set_errno ENOMEM)) ;;; Ret None
  | Some alloc_size =>
  match add_guards alloc_size guard_size with
  | None => act (modify (set_errno ENOMEM)) ;;; Ret None
  | Some real_alloc_size =>
      do! real := act (memory_map real_alloc_size) in
      match real with
      | None => Ret None
      | Some real =>
          let usable := w64 (real + guard_size) in
          let lead_size := w64 (c_align usable alignment - usable) in
          let trail_size := w64 (alloc_size - lead_size - usable_size) in
          let base := w64 (usable + lead_size) in
          do! failed := act (memory_protect_rw base usable_size) in
          if failed : bool then act (memory_unmap real real_alloc_size) ;;; Ret None
          else
          do! failed := (if lead_size =? 0 then Ret false else act (memory_unmap real lead_size)) in
          if failed : bool then act (memory_unmap real real_alloc_size) ;;; Ret None
          else
          do! failed := (if trail_size =? 0 then Ret false
                         else act (memory_unmap (w64 (base + usable_size + guard_size)) trail_size)) in
          if failed : bool then act (memory_unmap real real_alloc_size) ;;; Ret None
          else Ret (Some base)
      end
  end end.

(** pages.c:84-88 *)
Definition deallocate_pages (usable usable_size guard_size : Z) : prog os unit :=
  do! failed := act (memory_unmap (w64 (usable - guard_size)) (w64 (usable_size + guard_size * 2))) in
  if failed : bool then act (memory_purge usable usable_size) ;;; Ret tt
  else Ret tt.

(** pages.h:23-30 *)
Definition hash_page (p : Z) : Z :=
  let u := Z.shiftr p PAGE_SHIFT in
  let sum := u in
  let sum := w64 (w64 (Z.shiftl sum 7) - sum + Z.shiftr u 16) in
  let sum := w64 (w64 (Z.shiftl sum 7) - sum + Z.shiftr u 32) in
  let sum := w64 (w64 (Z.shiftl sum 7) - sum + Z.shiftr u 48) in
  sum.
