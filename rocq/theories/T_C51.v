(** C51: malloc_info writes a well-formed document that contains the statistics. *)
From Coq Require Import String ZArith List Bool.
From Verif Require Import M_Base M_Config M_SizeClass M_OS M_Slab M_Region M_Api M_Hist M_Stats M_Info S_Heap S_Class S_Stats S_Xml P_Demo P_Demo5 P_Stats P_Stats3 P_Info.
Import ListNotations.
Open Scope Z_scope.

(** After any history the text written is a well-formed document: properly nested elements, no attribute twice, no
    character that needs an escape.  It has one heap element for every arena, in it one bin element for every class that was ever
    used, and a last heap element for the large blocks.  Read as decimal numbers, the attributes and the character data
    are the numbers of calls, the bytes of the slabs in use and the bytes in live blocks; the call changes nothing.
    As in C28 the large total is that of the live blocks if no block was asked for with an alignment above the page
    size. *)
Theorem C51_document : forall (g : config) (W : store_rule) (o : os) (t : trace) (s : state) (N : Z -> Z -> Z),
  usable_config g = true -> STATS g = true -> history g W o t s -> is_init s = true -> slab_counts g s N ->
  exists txt L, reports s (print_malloc_info g 0) (0, txt) /\
    written (document (map (fun a => (a, rows g s t N a)) (zrange 0 (N_ARENA g))) (N_ARENA g) L) txt /\
    (ordinary t -> L = large_used g s t).
Proof. exact C51_document_l. Qed.
Print Assumptions C51_document.

(** before the first allocation, or without CONFIG_STATS: an empty element *)
Theorem C51_empty : forall (g : config) (s : state),
  is_init s = false \/ STATS g = false -> exists txt, reports s (print_malloc_info g 0) (0, txt) /\ written (malloc_node []) txt.
Proof. exact C51_empty_l. Qed.
Print Assumptions C51_empty.

(** options other than 0 are rejected and nothing is written *)
Theorem C51_options : forall (g : config) (s : state) (options : Z), options <> 0 ->
  exists s', run (print_malloc_info g options) s = Ok ((-1, ""%string), s') /\ errno (st_os s') = EINVAL.
Proof. exact C51_options_l. Qed.
Print Assumptions C51_options.

(** a state with classes in use; what is written for one of them; the text before the first allocation *)
Example C51_case : exists N,
  usable_config g0 = true /\ STATS g0 = true /\ history g0 (own_store g0) o0 t5 s5 /\ is_init s5 = true /\ slab_counts g0 s5 N /\ ordinary t5.
Proof.
  destruct C28_example as (A & B & C & D & E & _). destruct (P_Stats.counts_exist g0 (own_store g0) o0 t5 s5 A C D) as (N & H). exists N. auto 7.
Qed.
Example C51_bin : print_bin g0 7 2 1 8192 112 =
  "<bin nr=""7"" size=""112""><nmalloc>2</nmalloc><ndalloc>1</ndalloc><slab_allocated>8192</slab_allocated><allocated>112</allocated></bin>"%string.
Proof. vm_compute. reflexivity. Qed.
Example C51_boot : match run (print_malloc_info g0 0) (boot g0 o0) with Ok (r, _) => r = (0, "<malloc version=""hardened_malloc-1""></malloc>"%string) | _ => False end.
Proof. vm_compute. reflexivity. Qed.
