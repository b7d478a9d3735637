(** Programs that differ in the names of their functions. *)
From Verif Require Import M_base M_stack M_graph M_filter M_names M_thumb M_ty M_parse M_build S_names S_build.

(** [renamed r p]: every symbol [n] is called [r n]. *)
Definition ren_stmt (r : str -> str) (st : stmt) : stmt :=
  match st with
  | BitcastCall (Some n) => BitcastCall (Some (r n))
  | DirectCall n => DirectCall (r n)
  | _ => st
  end.
Definition ren_def (r : str -> str) (d : define) : define := {| d_name := r (d_name d); d_sig := d_sig d; d_stmts := map (ren_stmt r) (d_stmts d) |}.
Definition ren_sym (r : str -> str) (s : symbol) : symbol := mkSym (map r (sy_names s)) (sy_size s).
Definition renamed (r : str -> str) (p : prog) : prog :=
  mkProg (pg_target p) (map (fun x => (r (fst x), ren_def r (snd x))) (pg_defines p)) (map (fun x => (r (fst x), snd x)) (pg_declares p))
    (map (fun x => (r (fst x), snd x)) (pg_sizes p)) (map (fun x => (fst x, ren_sym r (snd x))) (pg_defined p)) (map r (pg_undefined p)) (pg_tags p) (pg_text p).

(** The names that the tool looks at: symbols of the executable and callees. *)
Definition calls_name (st : stmt) (n : str) : Prop := st = DirectCall n \/ st = BitcastCall (Some n).
Definition looked_at (p : prog) (n : str) : Prop :=
  (exists a s, In (a, s) (pg_defined p) /\ In n (sy_names s)) \/ (exists k d st, In (k, d) (pg_defines p) /\ In st (d_stmts d) /\ calls_name st n).
(** All names of a program. *)
Definition names_of (p : prog) : list str :=
  map fst (pg_defines p) ++ map (fun x => d_name (snd x)) (pg_defines p) ++ flat_map (fun x => flat_map (fun st => match st with DirectCall n | BitcastCall (Some n) => [n] | _ => [] end) (d_stmts (snd x))) (pg_defines p) ++
  map fst (pg_declares p) ++ map fst (pg_sizes p) ++ flat_map (fun x => sy_names (snd x)) (pg_defined p) ++ pg_undefined p.
(** Routines that calls of memory intrinsics are lowered to, and `memcmp`: the tool knows them by their names. *)
Definition known_names : list str := map lit ["memcpy"; "__aeabi_memcpy"; "__aeabi_memcpy4"; "memset"; "__aeabi_memset"; "__aeabi_memset4"; "memclr"; "__aeabi_memclr"; "__aeabi_memclr4"; "memcmp"]%string.

(** [keeps demangle p r]: the renaming changes nothing that the tool reads off a name: whether it is a mapping symbol, an outlined function, an
    intrinsic of LLVM (these are left alone), and what is left of it without its hash. *)
Record keeps (demangle : str -> str) (p : prog) (r : str -> str) : Prop := {
  kp_mapping : forall n, looked_at p n -> mapping_symbol (r n) = mapping_symbol n;
  kp_outlined : forall n, looked_at p n -> (outlined_name (r n) <-> outlined_name n);
  kp_llvm : forall n, looked_at p n -> starts_with (lit "llvm.") n = true \/ starts_with (lit "llvm.") (r n) = true -> r n = n;
  kp_short : forall n s, looked_at p n -> (has_hash (demangle (r n)) s <-> has_hash (demangle n) s)
}.
(** Renamed functions have a hash, and no other function has the same name up to the hash. *)
Definition only_hashes (demangle : str -> str) (p : prog) (r : str -> str) : Prop :=
  forall n, looked_at p n -> r n <> n -> exists s, has_hash (demangle n) s /\ forall m, looked_at p m -> has_hash (demangle m) s -> m = n.
(** [r] does not identify names, and leaves the known ones alone. *)
Definition distinct (l : list str) (r : str -> str) : Prop :=
  (forall n, In n known_names -> r n = n) /\ (forall a b, In a (known_names ++ l) -> In b (known_names ++ l) -> r a = r b -> a = b).
(** The start point of the second run is found in the same way. *)
Definition same_start (demangle : str -> str) (p : prog) (r : str -> str) (start start' : option str) : Prop :=
  match start, start' with
  | None, None => True
  | Some s, Some s' => (forall n, looked_at p n -> (r n = s' <-> n = s) /\ starts_with (s' ++ lit "::h") (demangle (r n)) = starts_with (s ++ lit "::h") (demangle n))
  | _, _ => False
  end.

(** Two reports with the same numbers; a node is called the same, or by its new name. *)
Definition new_name (p : prog) (r : str -> str) (nd nd' : node) : Prop := nd' = nd \/ (looked_at p (nname nd) /\ nd' = set_name nd (r (nname nd))).
Definition renamed_report (p : prog) (r : str -> str) (x y : outcome (graph node * list (list nat))) : Prop :=
  match x, y with
  | Ret (g, cs), Ret (g', cs') => Forall2 (new_name p r) (gnodes g) (gnodes g') /\ gedges g' = gedges g /\ cs' = cs
  | Ret _, _ | _, Ret _ => False
  | _, _ => x = y
  end.
