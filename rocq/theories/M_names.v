(** Model of the treatment of symbol names: hash removal (main.rs 1496-1514), the table of short names
    (main.rs 432, 506-509), the shortening pass (main.rs 1217-1226), outlined functions (main.rs 1532-1540)
    and version suffixes of undefined symbols (main.rs 407-418). *)
From Verif Require Import M_base M_stack M_graph M_filter.

(** [u8] of a UTF-8 continuation byte, [0b10xxxxxx]. *)
Definition is_continuation (c : ascii) : bool := ((128 <=? code c) && (code c <? 192))%N.

(** [str::is_char_boundary] (main.rs 1503, 1507). *)
Definition is_char_boundary (s : str) (i : nat) : bool :=
  if Nat.eqb i 0 then true
  else match nth_error s i with
       | Some c => negb (is_continuation c)
       | None => Nat.eqb i (length s)
       end.

(** [s.get(i..)] (main.rs 1503). *)
Definition str_get_from (s : str) (i : nat) : option str :=
  if is_char_boundary s i then Some (skipn i s) else None.

(** [&s[..i]]; panics if [i] is not a character boundary (main.rs 1507). *)
Definition str_slice_to (s : str) (i : nat) : outcome str :=
  if is_char_boundary s i then Ret (firstn i s) else Panic "byte index is not a char boundary".

(** main.rs 1498 [HASH_LENGTH]. *)
Definition hash_length : nat := 19.

(** main.rs 1497-1514 [dehash]. *)
Definition dehash (demangled : str) : outcome (option str) :=
  let len := length demangled in
  if Nat.ltb hash_length len then
    if match str_get_from demangled (len - hash_length) with
       | Some hash => starts_with (lit "::h") hash
       | None => false
       end
    then let* s := str_slice_to demangled (len - hash_length) in Ret (Some s)
    else Ret None
  else Ret None.

(** main.rs 508 [*ambiguous.entry(k).or_insert(0) += 1].  The [u32] counter is unbounded here; it would
    overflow only with 2^32 functions. *)
Fixpoint bump (m : list (str * nat)) (k : str) : list (str * nat) :=
  match m with
  | [] => [(k, 1)]
  | (a, n) :: m' => if str_eqb a k then (a, S n) :: m' else (a, n) :: bump m' k
  end.

(** main.rs 506-509: the entry of one canonical name in the table of short names. *)
Definition note_name (demangle : str -> str) (ambiguous : list (str * nat)) (canonical_name : str)
  : outcome (list (str * nat)) :=
  let* d := dehash (demangle canonical_name) in
  match d with
  | Some dehashed => Ret (bump ambiguous dehashed)
  | None => Ret ambiguous
  end.

(** The effect of main.rs 506-509 on [ambiguous] over the whole loop of main.rs 482-590. *)
Fixpoint note_names (demangle : str -> str) (ambiguous : list (str * nat)) (names : list str)
  : outcome (list (str * nat)) :=
  match names with
  | [] => Ret ambiguous
  | c :: rest => let* a := note_name demangle ambiguous c in note_names demangle a rest
  end.

(** main.rs 1218-1225: one node.  [ambiguous[dehashed]] panics if there is no entry. *)
Definition shorten_node (demangle : str -> str) (ambiguous : list (str * nat)) (nd : node) : outcome node :=
  let* d := dehash (demangle (nname nd)) in
  match d with
  | Some dehashed =>
    match sget ambiguous dehashed with
    | Some n => if Nat.eqb n 1 then Ret (set_name nd dehashed) else Ret nd
    | None => Panic "HashMap index: no entry found for key"
    end
  | None => Ret nd
  end.

(** main.rs 1218-1226. *)
Fixpoint shorten_nodes (demangle : str -> str) (ambiguous : list (str * nat)) (nds : list node)
  : outcome (list node) :=
  match nds with
  | [] => Ret []
  | nd :: rest =>
    let* nd' := shorten_node demangle ambiguous nd in
    let* rest' := shorten_nodes demangle ambiguous rest in
    Ret (nd' :: rest')
  end.

(** main.rs 1217-1226. *)
Definition shorten (demangle : str -> str) (ambiguous : list (str * nat)) (g : graph node) : outcome (graph node) :=
  let* nds := shorten_nodes demangle ambiguous (gnodes g) in Ret (mkG nds (gedges g)).

(** The digit loop of [u64::from_str_radix(_, 10)]: [checked_mul], [to_digit], [checked_add]. *)
Fixpoint u64_digits (s : str) (acc : N) : option N :=
  match s with
  | [] => Some acc
  | c :: s' =>
    if (acc * 10 <? two64)%N then
      if is_digit c then
        if (acc * 10 + digit_val c <? two64)%N then u64_digits s' (acc * 10 + digit_val c) else None
      else None
    else None
  end.

(** [u64::from_str_radix(s, 10)]: empty and sign-only strings are errors, one leading [+] is skipped. *)
Definition u64_from_str (s : str) : option N :=
  match s with
  | [] => None
  | c :: rest =>
    if Ascii.eqb c "+" then match rest with [] => None | _ => u64_digits rest 0 end
    else u64_digits s 0
  end.

(** main.rs 1534-1540 [is_outlined_function]. *)
Definition is_outlined_function (name : str) : bool :=
  match strip_prefix (lit "OUTLINED_FUNCTION_") name with
  | Some number => match u64_from_str number with Some _ => true | None => false end
  | None => false
  end.

(** The text before and after the last occurrence of the nonempty pattern [p] ([str::rsplit_once]) (main.rs 412). *)
Fixpoint rsplit_once (p s : str) : option (str * str) :=
  match s with
  | [] => None
  | c :: s' =>
    match rsplit_once p s' with
    | Some (b, a) => Some (c :: b, a)
    | None => if starts_with p s then Some ([], skipn (length p) s) else None
    end
  end.

(** [s.rsplit(p).nth(1)]: the second piece from the right. *)
Definition rsplit_nth1 (p s : str) : option str :=
  match rsplit_once p s with
  | None => None
  | Some (before, _) =>
    match rsplit_once p before with
    | None => Some before
    | Some (_, piece) => Some piece
    end
  end.

(** main.rs 411-417: an undefined symbol without its version. *)
Definition strip_version (sym : str) : str :=
  match rsplit_nth1 (lit "@@") sym with
  | Some name => name
  | None => sym
  end.

(** [s.splitn(2, p)] for a nonempty [p]: the text before and after the first occurrence of [p]. *)
Fixpoint split_once (p s : str) : option (str * str) :=
  if starts_with p s then Some ([], skipn (length p) s)
  else match s with
       | [] => None
       | c :: s' => match split_once p s' with Some (a, b) => Some (c :: a, b) | None => None end
       end.
(** main.rs 434-454: the methods of `impl Trait for Type`.  The set is not used afterwards; its elements are given in the order of
    insertion, with repetitions. *)
Fixpoint default_methods (demangle : str -> str) (names : list str) : outcome (list str) :=
  match names with
  | [] => Ret []
  | name :: names' =>
      let demangled := demangle name in
      let* here :=
        if starts_with (lit "<") demangled then
          match split_once (lit " as ") demangled with
          | Some (_, rhs) =>
              match split_once (lit ">::") rhs with
              | Some (trait_, rhs) =>
                  let* method := dehash rhs in
                  Ret (match method with Some m => [trait_ ++ lit "::" ++ m] | None => [] end)
              | None => Ret []
              end
          | None => Ret []
          end
        else Ret [] in
      let* rest := default_methods demangle names' in
      Ret (here ++ rest)
  end.
