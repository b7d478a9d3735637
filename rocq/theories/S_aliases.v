(** The order in which the symbol table lists the names of a function. *)
From Coq Require Import Permutation.
From Verif Require Import M_base M_thumb M_ty M_parse M_build M_driver S_build.

(** Two entries of the table: the same address and size, the same names in any order.  On Thumb the code looks at the first name of an entry
    (main.rs 800), mapping symbols included. *)
Definition same_entry (x y : N * symbol) : Prop :=
  fst y = fst x /\ sy_size (snd y) = sy_size (snd x) /\ Permutation (sy_names (snd x)) (sy_names (snd y)).
Definition same_head (x y : N * symbol) : Prop :=
  option_map mapping_symbol (hd_error (sy_names (snd y))) = option_map mapping_symbol (hd_error (sy_names (snd x))).
(** Two programs that differ in the order of the names at the addresses. *)
Record relisted (p q : prog) : Prop := {
  rl_target : pg_target q = pg_target p;
  rl_defines : pg_defines q = pg_defines p;
  rl_declares : pg_declares q = pg_declares p;
  rl_sizes : pg_sizes q = pg_sizes p;
  rl_undefined : pg_undefined q = pg_undefined p;
  rl_tags : pg_tags q = pg_tags p;
  rl_text : pg_text q = pg_text p;
  rl_defined : Forall2 same_entry (pg_defined p) (pg_defined q);
  rl_heads : is_thumb (pg_target p) = true -> Forall2 same_head (pg_defined p) (pg_defined q)
}.
(** The functions go by the same names and have the same types in both. *)
Record same_choice (p q : prog) : Prop := {
  sc_chosen : forall i n, chosen p i n -> chosen q i n;
  sc_def : forall i s, typed_by_def p i s -> typed_by_def q i s;
  sc_decl : forall i s, typed_by_decl p i s -> typed_by_decl q i s
}.
(** At each address: there is one name, or one of the names has a stack size; at most one name has a definition; if none has, at most one
    has a declaration. *)
Record unambiguous (p : prog) : Prop := {
  ua_sized : forall i ns, names_at p i ns -> length ns <= 1 \/ exists n, In n ns /\ sized p n /\ forall m, In m ns -> sized p m -> m = n;
  ua_def : forall i ns n m, names_at p i ns -> In n ns -> In m ns -> has_def p n -> has_def p m -> n = m;
  ua_decl : forall i ns n m, names_at p i ns -> (forall k, In k ns -> ~ has_def p k) -> In n ns -> In m ns -> has_decl p n -> has_decl p m -> n = m
}.

(** A world in which the executables list their symbols otherwise. *)
Definition listing (f : str -> outcome elf_symbols) (w : world) : world :=
  mkWorld (w_wrapper w) (w_argv w) (w_rustc w) (w_hash w) (w_host w) (w_meta w) (w_override w) (w_args w) (w_project w) (w_root w) (w_cfg w) (w_exe w) (w_set_times w)
    (w_exists w) (w_walk w) (w_cargo w) (w_utf8 w) (w_path w) (w_dir w) (w_read w) (w_object w) (w_archive w) f (w_symtab w) (w_text w) (w_defines_order w) (w_orders w) (w_fault w).
(** Only the order of the names of each symbol is different. *)
Definition names_reordered (f : str -> outcome elf_symbols) (w : world) : Prop :=
  forall elf s, w_executable w elf = Ret s -> exists s', f elf = Ret s' /\ el_undefined s' = el_undefined s /\
    Forall2 same_entry (el_defined s) (el_defined s') /\ Forall2 same_head (el_defined s) (el_defined s').
