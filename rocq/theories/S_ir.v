(** Specification vocabulary for LLVM IR text (https://llvm.org/docs/LangRef.html, as printed by rustc / llvm-dis).
    Only the data types of the model ([ty], [fnsig], [stmt], [define], [item]) are shared with the code. *)
From Verif Require Import M_base M_nom M_ty M_parse.
From Verif Require Export S_sig.

(** ** Characters *)
Definition one_of (s : string) (c : ascii) : bool := existsb (Ascii.eqb c) (list_ascii_of_string s).
Definition s_digit (c : ascii) : bool := one_of "0123456789" c.
Definition s_letter (c : ascii) : bool := one_of "abcdefghijklmnopqrstuvwxyzABCDEFGHIJKLMNOPQRSTUVWXYZ" c.
Definition s_ident (c : ascii) : bool := s_letter c || s_digit c || one_of "-$._" c.
Definition s_space (c : ascii) : bool := Ascii.eqb c " " || Ascii.eqb c "009".
Definition s_eol (c : ascii) : bool := Ascii.eqb c "010" || Ascii.eqb c "013".

Definition all (p : ascii -> bool) (s : str) : Prop := forallb p s = true.
(** [s] does not begin with a character of class [p]. *)
Definition not_head (p : ascii -> bool) (s : str) : bool := match s with [] => true | c :: _ => negb (p c) end.

(** Decimal numerals. *)
Definition value_of (s : str) : N := fold_left (fun a c => (a * 10 + (N_of_ascii c - 48))%N) s 0%N.
Definition digits_text (s : str) : Prop := s <> [] /\ all s_digit s.
Definition number (n : N) (s : str) : Prop := digits_text s /\ value_of s = n /\ (n < 2 ^ 64)%N.

(** Identifiers: `[-a-zA-Z$._][-a-zA-Z$._0-9]*`; names are identifiers, numbers or quoted strings. *)
Definition ident_text (s : str) : Prop := s <> [] /\ all s_ident s /\ not_head s_digit s = true.
Inductive name_text (n : str) : str -> Prop :=
| nt_quoted : ~ In dquote n -> name_text n (dquote :: n ++ [dquote])
| nt_plain : ident_text n -> name_text n n
| nt_number : digits_text n -> name_text n n.

(** Elements separated by `, `. *)
Fixpoint comma_list (l : list str) : str :=
  match l with
  | [] => []
  | [x] => x
  | x :: l => x ++ lit ", " ++ comma_list l
  end.

(** ** Types *)
(** [ty_text t s]: [s] is a way to write type [t].  Both the spelling of LLVM (`{ i8, i16 }`) and that of the labels of
    the graph (`{i8, i16 }`) are allowed for structures. *)
Inductive ty_text : ty -> str -> Prop :=
| tx_alias n s : name_text n s -> ty_text (TAlias n) (lit "%" ++ s)
| tx_array n d t s : number n d -> ty_text t s -> ty_text (TArray n t) (lit "[" ++ d ++ lit " x " ++ s ++ lit "]")
| tx_vec n d t s : number n d -> ty_text t s -> ty_text (TVec n t) (lit "<" ++ d ++ lit " x " ++ s ++ lit ">")
| tx_double : ty_text TDouble (lit "double")
| tx_float : ty_text TFloat (lit "float")
| tx_opaque : ty_text TOpaque (lit "ptr")
| tx_varargs : ty_text TVarargs (lit "...")
| tx_int n d : number n d -> ty_text (TInt n) (lit "i" ++ d)
| tx_struct l ss a b : Forall2 ty_text l ss -> all s_space a -> all s_space b ->
    ty_text (TStruct l) (lit "{" ++ a ++ comma_list ss ++ b ++ lit "}")
| tx_packed l ss a b : Forall2 ty_text l ss -> all s_space a -> all s_space b ->
    ty_text (TPacked l) (lit "<{" ++ a ++ comma_list ss ++ b ++ lit "}>")
| tx_ptr t s : ty_text t s -> ty_text (TPtr t) (s ++ lit "*")
| tx_fn l ss t s : Forall2 ty_text l ss -> ty_text t s ->
    ty_text (TFn l (Some t)) (s ++ lit " (" ++ comma_list ss ++ lit ")")
| tx_fn_void l ss : Forall2 ty_text l ss -> ty_text (TFn l None) (lit "void (" ++ comma_list ss ++ lit ")").

(** The type is written `void ...`. *)
Fixpoint starts_void (t : ty) : bool :=
  match t with
  | TPtr t => starts_void t
  | TFn _ None => true
  | TFn _ (Some t) => starts_void t
  | _ => false
  end.
(** No function returns a (pointer to a) function that returns void, e.g. `void ()* (i8)`. *)
Fixpoint void_ok (t : ty) : bool :=
  match t with
  | TArray _ t => void_ok t
  | TVec _ t => void_ok t
  | TPtr t => void_ok t
  | TStruct l => forallb void_ok l
  | TPacked l => forallb void_ok l
  | TFn l None => forallb void_ok l
  | TFn l (Some t) => forallb void_ok l && void_ok t && negb (starts_void t)
  | _ => true
  end.
Definition sig_void_ok (s : fnsig) : bool :=
  forallb void_ok (inputs s) && match output s with Some t => void_ok t | None => true end.

(** Names without quotes, numbers of 64 bits: the types that can be written at all. *)
Fixpoint writable (t : ty) : bool :=
  match t with
  | TAlias n => negb (existsb (Ascii.eqb dquote) n)
  | TArray n t => (n <? 2 ^ 64)%N && writable t
  | TVec n t => (n <? 2 ^ 64)%N && writable t
  | TInt n => (n <? 2 ^ 64)%N
  | TPtr t => writable t
  | TStruct l => forallb writable l
  | TPacked l => forallb writable l
  | TFn l None => forallb writable l
  | TFn l (Some t) => forallb writable l && writable t
  | _ => true
  end.
Definition sig_writable (s : fnsig) : bool :=
  forallb writable (inputs s) && match output s with Some t => writable t | None => true end.

(** What may follow a type: not a character that would continue a name or number, not `*`, not ` (`. *)
Fixpoint skip_spaces (s : str) : str :=
  match s with c :: r => if s_space c then skip_spaces r else s | [] => [] end.
Definition type_ends (r : str) : bool :=
  not_head (fun c => s_ident c || Ascii.eqb c "*") r &&
  (not_head s_space r || not_head (Ascii.eqb "(") (skip_spaces r)).

(** A return type. *)
Inductive ret_text : option ty -> str -> Prop :=
| rt_void : ret_text None (lit "void")
| rt_ty t s : ty_text t s -> void_ok t = true -> ret_text (Some t) s.

(** ** Attributes *)
Definition word_char (c : ascii) : bool := s_letter c || Ascii.eqb c "_".
Definition sized_attrs : list str := map lit ["dereferenceable"; "dereferenceable_or_null"; "alignstack"]%string.
Definition typed_attrs : list str :=
  map lit ["sret"; "preallocated"; "inalloca"; "elementtype"; "byval"; "byref"]%string.
(** Words that are not attributes (types, operations, keywords). *)
Definition reserved : list str :=
  map lit ["align"; "double"; "float"; "void"; "ptr"; "bitcast"; "getelementptr"; "alias"; "global"; "constant"]%string.
Inductive attr_text : str -> Prop :=
| at_word w : w <> [] -> all word_char w -> ~ In w (sized_attrs ++ typed_attrs ++ reserved) -> attr_text w
| at_sized w d : In w sized_attrs -> digits_text d -> attr_text (w ++ lit "(" ++ d ++ lit ")")
| at_typed w t s : In w typed_attrs -> ty_text t s -> void_ok t = true -> attr_text (w ++ lit "(" ++ s ++ lit ")")
| at_align d : digits_text d -> attr_text (lit "align " ++ d).
(** Attributes before a type (each followed by a space) and after one (each preceded by a space). *)
Fixpoint attrs_before (l : list str) : str := match l with [] => [] | a :: l => a ++ lit " " ++ attrs_before l end.
Fixpoint attrs_after (l : list str) : str := match l with [] => [] | a :: l => lit " " ++ a ++ attrs_after l end.

(** ** Values *)
Inductive local_text : str -> Prop :=
| lo_ident s : ident_text s -> local_text (lit "%" ++ s)
| lo_number s : digits_text s -> local_text (lit "%" ++ s).
Inductive global_text : str -> Prop :=
| gl_name n s : name_text n s -> global_text (lit "@" ++ s).
(** `, i32 0` *)
Inductive index_text : str -> Prop :=
| ix t s d : ty_text t s -> void_ok t = true -> digits_text d -> index_text (lit ", " ++ s ++ lit " " ++ d).
Inductive gep_text : str -> Prop :=
| ge_intro inb t s t' s' g ix : inb = [] \/ inb = lit "inbounds " ->
    ty_text t s -> void_ok t = true -> ty_text t' s' -> void_ok t' = true -> global_text g ->
    ix <> [] -> Forall index_text ix ->
    gep_text (lit "getelementptr " ++ inb ++ lit "(" ++ s ++ lit ", " ++ s' ++ lit " " ++ g ++ concat ix ++ lit ")").
Inductive value_text : str -> Prop :=
| va_local s : local_text s -> value_text s
| va_global s : global_text s -> value_text s
| va_null : value_text (lit "null")
| va_undef : value_text (lit "undef")
| va_true : value_text (lit "true")
| va_false : value_text (lit "false")
| va_int d : digits_text d -> value_text d
| va_neg d : digits_text d -> value_text (lit "-" ++ d)
| va_gep s : gep_text s -> value_text s
| va_bitcast t s x t' s' : ty_text t s -> void_ok t = true -> global_text x \/ gep_text x -> ty_text t' s' -> void_ok t' = true ->
    value_text (lit "bitcast (" ++ s ++ lit " " ++ x ++ lit " to " ++ s' ++ lit ")").

(** An argument: type, attributes, value. *)
Inductive arg_text : ty -> str -> Prop :=
| arg t s l v : ty_text t s -> void_ok t = true -> Forall attr_text l -> value_text v ->
    arg_text t (s ++ lit " " ++ attrs_before l ++ v).

(** ** Words of a line: maximal runs of characters other than blanks and line ends. *)
Definition s_blank (c : ascii) : bool := s_space c || s_eol c.
Fixpoint words_from (cur : str) (s : str) : list str :=
  match s with
  | [] => match cur with [] => [] | _ => [rev cur] end
  | c :: s =>
      if s_blank c then match cur with [] => words_from [] s | _ => rev cur :: words_from [] s end
      else words_from (c :: cur) s
  end.
Definition words (s : str) : list str := words_from [] s.

(** ** Statements *)
(** The end of a line: end of text, LF or CR LF. *)
Definition at_eol (r : str) : bool :=
  match r with
  | [] => true
  | c :: r => Ascii.eqb c "010" || (Ascii.eqb c "013" && match r with d :: _ => Ascii.eqb d "010" | [] => false end)
  end.
(** The part of a line that is not looked at. *)
Definition line_tail (s : str) : Prop := all (fun c => negb (s_eol c)) s.

(** `%x = ` or nothing; `tail ` or nothing; `call` or `invoke`. *)
Inductive assign_text : str -> Prop :=
| as_none : assign_text []
| as_local s : local_text s -> assign_text (s ++ lit " = ").
Definition tail_text (s : str) : Prop := s = [] \/ s = lit "tail ".
Definition call_text (s : str) : Prop := s = lit "call" \/ s = lit "invoke".

(** `  %x = tail call attrs ret @callee(...` *)
Inductive direct_text (callee : str) : str -> Prop :=
| dc sp a tl c l r rs nm z : sp <> [] -> all s_space sp -> assign_text a -> tail_text tl -> call_text c -> Forall attr_text l ->
    ret_text r rs -> name_text callee nm -> line_tail z ->
    direct_text callee (sp ++ a ++ tl ++ c ++ lit " " ++ attrs_before l ++ rs ++ lit " @" ++ nm ++ lit "(" ++ z).
(** `  %x = tail call attrs ret %f(args) ...` *)
Inductive indirect_text (s : fnsig) : str -> Prop :=
| ic sp a tl c l rs f args z : sp <> [] -> all s_space sp -> assign_text a -> tail_text tl -> call_text c -> Forall attr_text l ->
    ret_text (output s) rs -> local_text f -> Forall2 arg_text (inputs s) args -> line_tail z ->
    indirect_text s (sp ++ a ++ tl ++ c ++ lit " " ++ attrs_before l ++ rs ++ lit " " ++ f ++ lit "(" ++ comma_list args ++ lit ")" ++ z).
(** `  %x = tail call attrs ret bitcast (ty @callee to ty)(...` *)
Inductive bitcast_text (callee : str) : str -> Prop :=
| bc sp a tl l r rs t s nm t' s' z : sp <> [] -> all s_space sp -> assign_text a -> tail_text tl -> Forall attr_text l ->
    ret_text r rs -> ty_text t s -> void_ok t = true -> name_text callee nm -> ~ digits_text nm -> ty_text t' s' -> void_ok t' = true ->
    line_tail z ->
    bitcast_text callee (sp ++ a ++ tl ++ lit "call " ++ attrs_before l ++ rs ++ lit " bitcast (" ++ s ++ lit " @" ++ nm ++ lit " to "
                          ++ s' ++ lit ")" ++ z).
(** `  %x = tail call ret asm sideeffect "code" ...` *)
Inductive asm_text (code : str) : str -> Prop :=
| am sp a tl r rs ws z : sp <> [] -> all s_space sp -> assign_text a -> tail_text tl -> ret_text r rs -> Forall ident_text ws ->
    ~ In dquote code -> line_tail z ->
    asm_text code (sp ++ a ++ tl ++ lit "call " ++ rs ++ lit " asm " ++ attrs_before ws ++ [dquote] ++ code ++ [dquote] ++ z).

(** Labels: `name:` with an optional comment. *)
Inductive label_text : str -> Prop :=
| la n s : name_text n s -> label_text (s ++ lit ":")
| la_comment n s sp z : name_text n s -> sp <> [] -> all s_space sp -> line_tail z -> label_text (s ++ lit ":" ++ sp ++ lit ";" ++ z).
(** Text that contains `%name(`. *)
Definition calls_local (s : str) : Prop := exists a l b, local_text l /\ s = a ++ l ++ lit "(" ++ b.
(** Other statements: words separated by single spaces, none of which is `call`; the first one is not `tail`, `call` or
    `invoke`; nothing looks like the call of a local. *)
Fixpoint space_list (l : list str) : str := match l with [] => [] | [x] => x | x :: l => x ++ lit " " ++ space_list l end.
Definition word_text (w : str) : Prop := w <> [] /\ all (fun c => negb (s_blank c)) w.
(** Quotes come in pairs. *)
Inductive balanced : str -> Prop :=
| ba_nil : balanced []
| ba_char c s : c <> dquote -> balanced s -> balanced (c :: s)
| ba_string x s : ~ In dquote x -> balanced s -> balanced (dquote :: x ++ dquote :: s).
Inductive other_text : str -> Prop :=
| ot sp a w ws : sp <> [] -> all s_space sp -> assign_text a -> word_text w -> Forall word_text ws -> not_head (Ascii.eqb "%") w = true ->
    w <> lit "tail" -> w <> lit "call" -> w <> lit "invoke" -> ~ In (lit "call") ws ->
    balanced (space_list (w :: ws)) -> ~ calls_local (space_list (w :: ws)) -> other_text (sp ++ a ++ space_list (w :: ws)).
Inductive stmt_text : stmt -> str -> Prop :=
| st_direct n s : direct_text n s -> stmt_text (DirectCall n) s
| st_indirect f s : indirect_text f s -> stmt_text (IndirectCall f) s
| st_bitcast n s : bitcast_text n s -> stmt_text (BitcastCall (Some n)) s
| st_asm c s : asm_text c s -> stmt_text (Asm c) s
| st_comment z : line_tail z -> stmt_text SComment (lit ";" ++ z)
| st_label s : label_text s -> stmt_text Label s
| st_other s : other_text s -> stmt_text Other s.

(** ** Definitions *)
(** A parameter: type, attributes, optional name. *)
Inductive param_text : ty -> str -> Prop :=
| pa_noname t s l : ty_text t s -> void_ok t = true -> Forall attr_text l -> param_text t (s ++ attrs_after l)
| pa_name t s l n nm : ty_text t s -> void_ok t = true -> Forall attr_text l -> name_text n nm ->
    param_text t (s ++ attrs_after l ++ lit " %" ++ nm).
Inductive eol_text : str -> Prop :=
| eol_lf : eol_text ["010"%char]
| eol_crlf : eol_text ["013"; "010"]%char.
(** One or more line ends. *)
Inductive eols_text : str -> Prop :=
| eols_one s : eol_text s -> eols_text s
| eols_more s s' : eol_text s -> eols_text s' -> eols_text (s ++ s').
(** `define attrs ret @name(params) ... {` *)
Inductive header_text (n : str) (s : fnsig) : str -> Prop :=
| hd l rs nm ps z : Forall attr_text l -> ret_text (output s) rs -> name_text n nm -> Forall2 param_text (inputs s) ps -> line_tail z ->
    header_text n s (lit "define " ++ attrs_before l ++ rs ++ lit " @" ++ nm ++ lit "(" ++ comma_list ps ++ lit ")" ++ z).
(** One or more pieces of text, each of which means an element, separated by one or more line ends. *)
Inductive glued {A} (P : A -> str -> Prop) : list A -> str -> Prop :=
| gl_one x s : P x s -> glued P [x] s
| gl_cons x s e l r : P x s -> eols_text e -> glued P l r -> glued P (x :: l) (s ++ e ++ r).
(** A function definition: header, body, closing brace. *)
Inductive define_text (d : define) : str -> Prop :=
| df h e1 body e2 : header_text (d_name d) (d_sig d) h -> eol_text e1 -> glued stmt_text (d_stmts d) body -> eol_text e2 ->
    define_text d (h ++ e1 ++ body ++ e2 ++ lit "}").

(** ** Other items *)
Inductive dparam_text : ty -> str -> Prop :=
| dp t s l : ty_text t s -> void_ok t = true -> Forall attr_text l -> dparam_text t (s ++ attrs_after l).
Inductive item_text : item -> str -> Prop :=
| it_comment z : line_tail z -> item_text IComment (lit ";" ++ z)
| it_source z : line_tail z -> item_text ISourceFilename (lit "source_filename =" ++ z)
| it_layout z : line_tail z -> item_text ITarget (lit "target datalayout =" ++ z)
| it_triple z : line_tail z -> item_text ITarget (lit "target triple =" ++ z)
| it_type n s z : name_text n s -> line_tail z -> item_text IType (lit "%" ++ s ++ lit " =" ++ z)
| it_global n s l k z : name_text n s -> Forall attr_text l -> k = lit "global" \/ k = lit "constant" -> line_tail z -> not_head s_space z = true ->
    item_text IGlobal (lit "@" ++ s ++ lit " = " ++ attrs_before l ++ k ++ lit " " ++ z)
| it_alias n s l t ts t' ts' m ms : name_text n s -> Forall attr_text l -> ty_text t ts -> void_ok t = true -> ty_text t' ts' -> void_ok t' = true -> name_text m ms ->
    item_text (IAlias n m) (lit "@" ++ s ++ lit " = " ++ attrs_before l ++ lit "alias " ++ ts ++ lit ", " ++ ts' ++ lit " @" ++ ms)
| it_define d s : define_text d s -> item_text (IDefine d) s
| it_intrinsic l o rs n nm z : Forall attr_text l -> ret_text o rs -> name_text n nm -> starts_with (lit "llvm.") n = true -> line_tail z ->
    item_text (IDeclare n None) (lit "declare " ++ attrs_before l ++ rs ++ lit " @" ++ nm ++ lit "(" ++ z)
| it_declare l sg rs n nm ps z : Forall attr_text l -> ret_text (output sg) rs -> name_text n nm -> starts_with (lit "llvm.") n = false ->
    Forall2 dparam_text (inputs sg) ps -> line_tail z ->
    item_text (IDeclare n (Some sg)) (lit "declare " ++ attrs_before l ++ rs ++ lit " @" ++ nm ++ lit "(" ++ comma_list ps ++ lit ")" ++ z)
| it_attributes z : line_tail z -> item_text IAttributes (lit "attributes #" ++ z)
| it_metadata z : line_tail z -> item_text IMetadata (lit "!" ++ z)
| it_asm c : ~ In dquote c -> item_text IModuleAsm (lit "module asm " ++ [dquote] ++ c ++ [dquote]).

(** A module: pieces separated by line ends, then line ends; or only line ends. *)
Inductive module_text {A} (P : A -> str -> Prop) : list A -> str -> Prop :=
| mo_none e : e = [] \/ eols_text e -> module_text P [] e
| mo_some l s e : glued P l s -> e = [] \/ eols_text e -> module_text P l (s ++ e).

Definition is_call (st : stmt) : bool :=
  match st with Asm _ | BitcastCall _ | DirectCall _ | IndirectCall _ => true | SComment | Label | Other => false end.

(** Number of line feeds. *)
Definition line_feeds (s : str) : nat := length (filter (Ascii.eqb "010") s).

(** A statement of the body of a function as it is recorded: if the line is a statement (not a label or a comment) and has
    the word `call`, a call is recorded.  Statements are lines: they have no line feed, except within quotes. *)
Definition statement_ok (st : stmt) (line : str) : Prop :=
  (not_head s_space line = false -> In (lit "call") (words line) -> is_call st = true) /\
  (In "010"%char line -> In dquote line).
(** A piece of a module as it is recorded: a definition begins with `define`, and its body consists of recorded
    statements up to `}`; nothing else begins with `define`. *)
Definition item_ok (it : item) (s : str) : Prop :=
  match it with
  | IDefine d => exists h e1 body e2, s = lit "define" ++ h ++ e1 ++ body ++ e2 ++ lit "}" /\ eol_text e1 /\ (e2 = [] \/ eol_text e2) /\
                   glued statement_ok (d_stmts d) body
  | _ => starts_with (lit "define") s = false
  end.

(** The signatures that an item mentions (labels are made from them). *)
Definition sigs_of (it : item) : list fnsig :=
  match it with
  | IDefine d => d_sig d :: flat_map (fun st => match st with IndirectCall s => [s] | _ => [] end) (d_stmts d)
  | IDeclare _ (Some s) => [s]
  | _ => []
  end.
