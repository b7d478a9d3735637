(** Model of src/ir.rs, src/ir/item.rs, src/ir/define.rs: parsing of LLVM IR. *)
From Verif Require Import M_base M_nom M_ty.

(** `?.0` in ir.rs and ir/*.rs, where the result is not used. *)
Definition drop {A} (p : parser A) : parser unit := pmap p (fun _ => tt).

(** Membership of a word in a list of literals (`match attr { "a" | "b" => ..}`) (ir.rs 164-206). *)
Definition word_in (w : str) (l : list string) : bool := existsb (fun x => str_eqb w (lit x)) l.

(** ir.rs 164-205 [attribute]. *)
Definition attribute : parser unit :=
  fun i =>
    let? (j, attr) := take_while1 (fun c => is_alpha c || Ascii.eqb c "_") i in
    if word_in attr ["dereferenceable"; "dereferenceable_or_null"; "alignstack"]%string then
      let? (j, _a) := char "(" j in
      let? (j, _b) := digit1 j in
      char ")" j
    else if word_in attr ["sret"; "preallocated"; "inalloca"; "elementtype"; "byval"; "byref"]%string then
      let? (j, _a) := char "(" j in
      let? (j, _b) := type_ j in
      char ")" j
    else if word_in attr ["align"]%string then
      let? (j, _a) := space1 j in
      let? (j, _b) := digit1 j in
      Done j tt
    else if word_in attr ["double"; "float"; "void"; "ptr"]%string then Error j
    else if word_in attr ["bitcast"; "getelementptr"]%string then Error j
    else if word_in attr ["alias"; "global"; "constant"]%string then Error j
    else Done j tt.

(** The closures `attribute` then `space1` (before a type) and `space1` then `attribute` (after a type). *)
Definition attr_sp : parser str := fun i => let? (i, _u) := attribute i in space1 i.
Definition sp_attr : parser unit := fun i => let? (i, _u) := space1 i in attribute i.

(** ir.rs 239-269 [getelementptr]. *)
Definition gep_index : parser str :=
  fun i => let? (i, _a) := char "," i in
           let? (i, _b) := space1 i in
           let? (i, _c) := type_ i in
           let? (i, _d) := space1 i in
           digit1 i.
Definition gep_body : parser (option str) :=
  fun i => let? (i, _a) := type_ i in
           let? (i, _b) := char "," i in
           let? (i, _c) := space1 i in
           let? (i, _d) := type_ i in
           let? (i, _e) := space1 i in
           let? (i, nm) := global i in
           let? (i, _f) := many1 gep_index i in
           Done i nm.
Definition getelementptr : parser (option str) :=
  fun i => let? (i, _a) := tag "getelementptr" i in
           let? (i, _b) := space1 i in
           let? (i, _c) := popt (fun i => let? (i, _u) := tag "inbounds" i in space1 i) i in
           delimited (char "(") gep_body (char ")") i.

(** ir.rs 211-233 [bitcast]. *)
Definition bitcast_body : parser (option str) :=
  fun i => let? (i, _a) := type_ i in
           let? (i, _b) := space1 i in
           let? (i, nm) := palt global getelementptr i in
           let? (i, _c) := space1 i in
           let? (i, _d) := tag "to" i in
           let? (i, _e) := space1 i in
           let? (i, _f) := type_ i in
           Done i nm.
Definition bitcast : parser (option str) :=
  fun i => let? (i, _a) := tag "bitcast" i in
           let? (i, _b) := space1 i in
           delimited (char "(") bitcast_body (char ")") i.

(** ** Statements (ir/define.rs) *)

(** ir/define.rs 20-37 [Stmt]. *)
Inductive stmt :=
| Asm (s : str)
| BitcastCall (n : option str)
| DirectCall (n : str)
| IndirectCall (s : fnsig)
| SComment
| Label
| Other.

(** The closure `tail` then `space1`. *)
Definition tail_sp : parser str := fun i => let? (i, _u) := tag "tail" i in space1 i.
(** A return type: a type or `void` (ir/define.rs 62-104, ir/item.rs 128-175). *)
Definition ret_ty : parser (option ty) := palt (pmap type_ Some) (pmap (tag "void") (fun _ => None)).

(** ir/define.rs 105-119 [label]. *)
Definition label : parser stmt :=
  fun i => let? (i, _a) := palt (drop ident) (palt (drop string_) (drop digit1)) i in
           let? (i, _b) := char ":" i in
           let? (i, _c) := popt (fun i => let? (i, _u) := space1 i in comment i) i in
           Done i Label.
(** ir/define.rs 121-124 [comment]. *)
Definition stmt_comment : parser stmt := fun i => let? (i, _u) := comment i in Done i SComment.
(** ir/define.rs 126-147 [asm]. *)
Definition asm : parser stmt :=
  fun i => let? (i, _a) := popt tail_sp i in
           let? (i, _b) := tag "call" i in
           let? (i, _c) := space1 i in
           let? (i, _d) := ret_ty i in
           let? (i, _e) := space1 i in
           let? (i, _f) := tag "asm" i in
           let? (i, _g) := space1 i in
           let? (i, _h) := many0 (fun i => let? (i, _u) := ident i in space1 i) i in
           let? (i, s) := string_ i in
           let? (i, _j) := not_line_ending i in
           Done i (Asm s).

(** ir/define.rs 152-179 [argument]. *)
Definition int_const : parser str := fun i => let? (i, _u) := popt (char "-") i in digit1 i.
Definition value : parser unit :=
  palt (drop bitcast) (palt (drop getelementptr) (palt local (palt (drop function) (palt (tag "null")
    (palt (tag "undef") (palt (drop int_const) (palt (tag "true") (tag "false")))))))).
Definition argument : parser ty :=
  fun i => let? (i, t) := type_ i in
           let? (i, _a) := space1 i in
           let? (i, _b) := many0 attr_sp i in
           let? (i, _c) := value i in
           Done i t.

(** ir/define.rs 181-203 [bitcast_call]. *)
Definition bitcast_call : parser stmt :=
  fun i => let? (i, _a) := popt tail_sp i in
           let? (i, _b) := tag "call" i in
           let? (i, _c) := space1 i in
           let? (i, _d) := many0 attr_sp i in
           let? (i, _e) := ret_ty i in
           let? (i, _f) := space1 i in
           let? (i, nm) := bitcast i in
           let? (i, _g) := not_line_ending i in
           Done i (BitcastCall nm).
(** ir/define.rs 205-226 [direct_call]. *)
Definition direct_call : parser stmt :=
  fun i => let? (i, _a) := popt tail_sp i in
           let? (i, _b) := palt (tag "call") (tag "invoke") i in
           let? (i, _c) := space1 i in
           let? (i, _d) := many0 attr_sp i in
           let? (i, _e) := ret_ty i in
           let? (i, _f) := space1 i in
           let? (i, nm) := function i in
           let? (i, _g) := char "(" i in
           let? (i, _h) := not_line_ending i in
           Done i (DirectCall nm).
(** ir/define.rs 228-263 [indirect_call] (the word `call` is read as one of the attributes). *)
Definition indirect_call : parser stmt :=
  fun i => let? (i, _a) := popt tail_sp i in
           let? (i, _b) := many0 attr_sp i in
           let? (i, out) := ret_ty i in
           let? (i, _c) := space1 i in
           let? (i, _d) := local i in
           let? (i, ins) := delimited (char "(") (separated_list0 comma argument) (char ")") i in
           let? (i, _e) := not_line_ending i in
           Done i (IndirectCall {| inputs := ins; output := out |}).
(** ir/define.rs 265-278 [other]. *)
Definition is_blank (c : ascii) : bool := is_space c || is_eol c.
Definition other : parser stmt :=
  fun i => let? (i, _a) := separated_list1 space1
                             (pmap_res (take_while1 (fun c => negb (is_blank c)))
                                (fun w => if str_eqb w (lit "call") then None else Some tt)) i in
           Done i Other.
(** ir/define.rs 281-287 [assign]. *)
Definition assign : parser stmt :=
  fun i => let? (i, _a) := local i in
           let? (i, _b) := space1 i in
           let? (i, _c) := char "=" i in
           let? (i, _d) := space1 i in
           palt asm (palt bitcast_call (palt direct_call (palt indirect_call other))) i.
(** ir/define.rs 289-294 [stmt]. *)
Definition stmt_ : parser stmt :=
  palt label (palt stmt_comment
    (fun i => let? (i, _u) := space1 i in
              palt assign (palt asm (palt bitcast_call (palt direct_call (palt indirect_call other)))) i)).

(** ir/define.rs 13-18 [Define]. *)
Record define := { d_name : str; d_sig : fnsig; d_stmts : list stmt }.

(** ir/define.rs 42-60 [parameter]. *)
Definition parameter : parser ty :=
  fun i => let? (i, t) := type_ i in
           let? (i, _a) := many0 sp_attr i in
           let? (i, _b) := popt (fun i => let? (i, _u) := space1 i in alias i) i in
           let? (i, _c) := popt (fun i => let? (i, _u) := space1 i in local i) i in
           Done i t.
(** ir/define.rs 62-103 [parse]. *)
Definition define_ : parser define :=
  fun i => let? (i, _a) := tag "define" i in
           let? (i, _b) := space1 i in
           let? (i, _c) := many0 attr_sp i in
           let? (i, out) := ret_ty i in
           let? (i, _d) := space1 i in
           let? (i, nm) := function i in
           let? (i, _e) := char "(" i in
           let? (i, ins) := separated_list0 comma parameter i in
           let? (i, _f) := char ")" i in
           let? (i, _g) := not_line_ending i in
           let? (i, _h) := line_ending i in
           let? (i, stmts) := separated_list1 (many1 line_ending) stmt_ i in
           let? (i, _j) := popt line_ending i in
           let? (i, _k) := tag "}" i in
           Done i {| d_name := nm; d_sig := {| inputs := ins; output := out |}; d_stmts := stmts |}.

(** ** Items (ir/item.rs) *)

(** ir/item.rs 13-47 [Item], 49-53 [Declare]. *)
Inductive item :=
| IAlias (name target : str)
| IComment
| ISourceFilename
| ITarget
| IGlobal
| IType
| IDefine (d : define)
| IDeclare (name : str) (sig : option fnsig)
| IAttributes
| IMetadata
| IModuleAsm.

(** `let i = not_line_ending(i)?.0; Ok((i, x))` ("shortcut"). *)
Definition line_rest {A} (x : A) : parser A := fun i => let? (i, _u) := not_line_ending i in Done i x.

(** ir/item.rs 55-58 [comment]. *)
Definition item_comment : parser item := fun i => let? (i, _u) := comment i in Done i IComment.
(** ir/item.rs 60-67 [source_filename]. *)
Definition source_filename : parser item :=
  fun i => let? (i, _a) := tag "source_filename" i in
           let? (i, _b) := space1 i in
           let? (i, _c) := char "=" i in
           line_rest ISourceFilename i.
(** ir/item.rs 69-78 [target]. *)
Definition target : parser item :=
  fun i => let? (i, _a) := tag "target" i in
           let? (i, _b) := space1 i in
           let? (i, _c) := palt (tag "datalayout") (tag "triple") i in
           let? (i, _d) := space1 i in
           let? (i, _e) := char "=" i in
           line_rest ITarget i.
(** ir/item.rs 80-100 [alias]. *)
Definition item_alias : parser item :=
  fun i => let? (i, nm) := function i in
           let? (i, _a) := space1 i in
           let? (i, _b) := char "=" i in
           let? (i, _c) := space1 i in
           let? (i, _d) := many0 attr_sp i in
           let? (i, _e) := tag "alias" i in
           let? (i, _f) := space1 i in
           let? (i, _g) := type_ i in
           let? (i, _h) := space0 i in
           let? (i, _j) := char "," i in
           let? (i, _k) := space1 i in
           let? (i, _l) := type_ i in
           let? (i, _m) := space1 i in
           let? (i, al) := function i in
           Done i (IAlias nm al).
(** ir/item.rs 102-117 [global]. *)
Definition item_global : parser item :=
  fun i => let? (i, _a) := global i in
           let? (i, _b) := space1 i in
           let? (i, _c) := char "=" i in
           let? (i, _d) := space1 i in
           let? (i, _e) := many0 attr_sp i in
           let? (i, _f) := palt (tag "global") (tag "constant") i in
           let? (i, _g) := space1 i in
           line_rest IGlobal i.
(** ir/item.rs 119-126 [type_]. *)
Definition item_type : parser item :=
  fun i => let? (i, _a) := alias i in
           let? (i, _b) := space1 i in
           let? (i, _c) := char "=" i in
           line_rest IType i.
(** ir/item.rs 128-175 [declare]. *)
Definition decl_param : parser ty :=
  fun i => let? (i, t) := type_ i in
           let? (i, _a) := many0 sp_attr i in
           Done i t.
Definition declare : parser item :=
  fun i => let? (i, _a) := tag "declare" i in
           let? (i, _b) := space1 i in
           let? (i, _c) := many0 attr_sp i in
           let? (i, out) := ret_ty i in
           let? (i, _d) := space1 i in
           let? (i, nm) := function i in
           let? (i, _e) := char "(" i in
           if starts_with (lit "llvm.") nm then line_rest (IDeclare nm None) i
           else
             let? (i, ins) := separated_list0 comma decl_param i in
             let? (i, _f) := char ")" i in
             line_rest (IDeclare nm (Some {| inputs := ins; output := out |})) i.
(** ir/item.rs 177-184 [attributes]. *)
Definition attributes : parser item :=
  fun i => let? (i, _a) := tag "attributes" i in
           let? (i, _b) := space1 i in
           let? (i, _c) := char "#" i in
           line_rest IAttributes i.
(** ir/item.rs 186-191 [metadata]. *)
Definition metadata : parser item := fun i => let? (i, _a) := tag "!" i in line_rest IMetadata i.
(** ir/item.rs 193-200 [module_asm]. *)
Definition module_asm : parser item :=
  fun i => let? (i, _a) := tag "module" i in
           let? (i, _b) := space1 i in
           let? (i, _c) := tag "asm" i in
           let? (i, _d) := space1 i in
           let? (i, _e) := string_ i in
           Done i IModuleAsm.
(** ir/item.rs 202-216 [item]. *)
Definition item_ : parser item :=
  palt item_comment (palt source_filename (palt target (palt item_type (palt item_global (palt item_alias
    (palt (pmap define_ IDefine) (palt declare (palt attributes (palt metadata module_asm))))))))).

(** ** Modules (ir.rs) *)

(** ir.rs 89-97 [items]. *)
Definition items : parser (list item) :=
  fun i => let? (i, its) := separated_list0 (many1 line_ending) item_ i in
           let? (i, _a) := many0 line_ending i in
           match i with [] => Done [] its | _ => Failure i end.

(** [str::split_inclusive('\n')] (ir.rs 73). *)
Fixpoint split_inclusive (s : str) : list str :=
  match s with
  | [] => []
  | c :: s =>
      if Ascii.eqb c LF then [c] :: split_inclusive s
      else match split_inclusive s with
           | [] => [[c]]
           | l :: ls => (c :: l) :: ls
           end
  end.
(** The loop of ir.rs 70-78: [cur] is decremented by the length of each line until that would be negative; the
    result is `n + 1`. *)
Fixpoint find_line (n : nat) (cur : nat) (lines : list str) : option nat :=
  match lines with
  | [] => None
  | l :: ls => if (length l <=? cur)%nat then find_line (S n) (cur - length l) ls else Some (n + 1)%nat
  end.
(** ir.rs 68-87 [parse].  [Failed n]: the error message is "... in line n"; [Unreachable]: the `unreachable!` panic. *)
Inductive parsed := Parsed (l : list item) | Failed (line : nat) | Unreachable | OutOfFuel.
Definition parse (ll : str) : parsed :=
  match items ll with
  | Done _ its => Parsed its
  | Error e | Failure e =>
      match find_line 0 (length ll - length e) (split_inclusive ll) with
      | Some n => Failed n
      | None => Unreachable
      end
  | NoFuel => OutOfFuel
  end.
