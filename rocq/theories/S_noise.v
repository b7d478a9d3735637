(** What of a program counts for the report. *)
From Coq Require Import Permutation.
From Verif Require Import M_base M_graph M_filter M_thumb M_ty M_parse M_build M_driver.

(** [linked ss n]: a symbol of the executable has the name [n]. *)
Definition linked (ss : list (N * symbol)) (n : str) : bool := existsb (fun x => existsb (str_eqb n) (sy_names (snd x))) ss.
(** Comments, labels and instructions other than calls are noise; what counts of a function is its name, its type and the other statements. *)
Definition counts (st : stmt) : bool := match st with SComment | Label | Other => false | _ => true end.
Definition substance (d : define) : str * fnsig * list stmt := (d_name d, d_sig d, filter counts (d_stmts d)).
(** The definitions of functions that are in the executable. *)
Definition linked_defs (ss : list (N * symbol)) (ds : list (str * define)) : list (str * (str * fnsig * list stmt)) :=
  map (fun x => (fst x, substance (snd x))) (filter (fun x => linked ss (fst x)) ds).
(** Two programs that differ in other definitions, in noise, and in declarations of names that are not in the executable; [R] relates the lists of
    what counts. *)
Record same_substance (R : list (str * (str * fnsig * list stmt)) -> list (str * (str * fnsig * list stmt)) -> Prop) (p q : prog) : Prop := {
  ss_target : pg_target q = pg_target p;
  ss_sizes : pg_sizes q = pg_sizes p;
  ss_defined : pg_defined q = pg_defined p;
  ss_undefined : pg_undefined q = pg_undefined p;
  ss_tags : pg_tags q = pg_tags p;
  ss_text : pg_text q = pg_text p;
  ss_defines : R (linked_defs (pg_defined p) (pg_defines p)) (linked_defs (pg_defined p) (pg_defines q));
  ss_declares : forall n, linked (pg_defined p) n = true -> sget (pg_declares q) n = sget (pg_declares p) n
}.

(** The same for the items of a module: definitions and declarations of functions that are in the executable.  [l] tells which ones are. *)
Inductive gist := GDefine (s : str * fnsig * list stmt) | GDeclare (n : str) (s : option fnsig).
Definition gist_of (l : str -> bool) (it : item) : list gist :=
  match it with
  | IDefine d => if l (d_name d) then [GDefine (substance d)] else []
  | IDeclare n s => if l n then [GDeclare n s] else []
  | _ => []
  end.
Definition gists (l : str -> bool) (its : list item) : list gist := flat_map (gist_of l) its.
(** Two texts of modules that differ in noise only, or are the same. *)
Definition same_module (l : str -> bool) (a b : str) : Prop :=
  a = b \/ exists ia ib, parse a = Parsed ia /\ parse b = Parsed ib /\ gists l ia = gists l ib.
(** What counts of a list of definitions. *)
Definition view (l : str -> bool) (ds : list (str * define)) : list (str * (str * fnsig * list stmt)) :=
  map (fun x => (fst x, substance (snd x))) (filter (fun x => l (fst x)) ds).

(** [edited rd ds os w]: files have other contents, and the hash maps of the tool are iterated in other orders. *)
Definition edited (rd : str -> outcome str) (ds : list (str * define) -> list (str * define)) (os : orders) (w : world) : world :=
  mkWorld (w_wrapper w) (w_argv w) (w_rustc w) (w_hash w) (w_host w) (w_meta w) (w_override w) (w_args w) (w_project w) (w_root w) (w_cfg w) (w_exe w) (w_set_times w)
    (w_exists w) (w_walk w) (w_cargo w) (w_utf8 w) (w_path w) (w_dir w) rd (w_object w) (w_archive w) (w_executable w) (w_symtab w) (w_text w) ds os (w_fault w).
(** [noise_only l rd w]: only modules change, in what is not linked; [l] holds of the names in the executables, which are not modules. *)
Record noise_only (l : str -> bool) (rd : str -> outcome str) (w : world) : Prop := {
  no_files : forall path, rd path = w_read w path \/
    ends_with (lit ".ll") path = true /\ exists a b, w_read w path = Ret a /\ rd path = Ret b /\ w_utf8 w a = true /\ w_utf8 w b = true /\ same_module l a b;
  no_elf : forall file path, pick_file (w_args w) = Ret file ->
    w_path w (match a_example (w_args w) with Some _ => true | None => false end) file (a_target (w_args w)) (w_host w) = Ret path -> ends_with (lit ".ll") path = false;
  no_names : forall elf s x n, w_executable w elf = Ret s -> In x (el_defined s) -> In n (sy_names (snd x)) -> l n = true
}.
