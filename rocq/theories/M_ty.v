(** Model of src/ir/ty.rs (types: comparison, printing, parsing), of [FnSig] and of the small lexical parsers of
    src/ir.rs they use. *)
From Verif Require Import M_base M_nom.

(** ir/ty.rs 15-52 [Type] and ir.rs 23-27 [FnSig]; [TFn] holds the two fields of the [FnSig]. *)
Inductive ty : Type :=
| TAlias (name : str)
| TArray (n : N) (t : ty)
| TDouble
| TFloat
| TInt (n : N)
| TPacked (l : list ty)
| TStruct (l : list ty)
| TFn (inputs : list ty) (output : option ty)
| TPtr (t : ty)
| TOpaque
| TVarargs
| TVec (n : N) (t : ty).

(** ir.rs 23-27. *)
Record fnsig := { inputs : list ty; output : option ty }.

(** [derive(PartialEq)] of [Type], on lists and options of types (ir/ty.rs 15). *)
Fixpoint ty_eqb (a b : ty) : bool :=
  let fix list_eqb (l m : list ty) : bool :=
    match l, m with
    | [], [] => true
    | x :: l, y :: m => ty_eqb x y && list_eqb l m
    | _, _ => false
    end in
  match a, b with
  | TAlias x, TAlias y => str_eqb x y
  | TArray n t, TArray m u => (n =? m)%N && ty_eqb t u
  | TDouble, TDouble => true
  | TFloat, TFloat => true
  | TInt n, TInt m => (n =? m)%N
  | TPacked l, TPacked m => list_eqb l m
  | TStruct l, TStruct m => list_eqb l m
  | TFn i o, TFn j p =>
      list_eqb i j && match o, p with Some t, Some u => ty_eqb t u | None, None => true | _, _ => false end
  | TPtr t, TPtr u => ty_eqb t u
  | TOpaque, TOpaque => true
  | TVarargs, TVarargs => true
  | TVec n t, TVec m u => (n =? m)%N && ty_eqb t u
  | _, _ => false
  end.
(** ir/ty.rs 15, ir.rs 23. *)
Fixpoint tys_eqb (l m : list ty) : bool :=
  match l, m with
  | [], [] => true
  | x :: l, y :: m => ty_eqb x y && tys_eqb l m
  | _, _ => false
  end.
(** ir.rs 23. *)
Definition oty_eqb (o p : option ty) : bool :=
  match o, p with Some t, Some u => ty_eqb t u | None, None => true | _, _ => false end.
(** [derive(PartialEq)] of [FnSig] (the keys of the map of signatures, main.rs 400, 754). *)
Definition sig_eqb (a b : fnsig) : bool := tys_eqb (inputs a) (inputs b) && oty_eqb (output a) (output b).

(** [core::mem::discriminant] (ir/ty.rs 70). *)
Definition discriminant (t : ty) : nat :=
  match t with
  | TAlias _ => 0 | TArray _ _ => 1 | TDouble => 2 | TFloat => 3 | TInt _ => 4 | TPacked _ => 5 | TStruct _ => 6
  | TFn _ _ => 7 | TPtr _ => 8 | TOpaque => 9 | TVarargs => 10 | TVec _ _ => 11
  end.

(** ir/ty.rs 54-73 [Type::loosely_equal]. *)
Definition ty_loose (a b : ty) : bool :=
  match a, b with
  | TOpaque, TOpaque => true
  | TOpaque, TPtr _ => true
  | TPtr _, TOpaque => true
  | TAlias l, TAlias r => str_eqb l r
  | TArray l0 l1, TArray r0 r1 => (l0 =? r0)%N && ty_eqb l1 r1
  | TInt l, TInt r => (l =? r)%N
  | TPacked l, TPacked r => tys_eqb l r
  | TStruct l, TStruct r => tys_eqb l r
  | TFn i o, TFn j p => sig_eqb {| inputs := i; output := o |} {| inputs := j; output := p |}
  | TPtr l, TPtr r => ty_eqb l r
  | TVec l0 l1, TVec r0 r1 => (l0 =? r0)%N && ty_eqb l1 r1
  | _, _ => (discriminant a =? discriminant b)%nat
  end.

(** ir.rs 29-43 [FnSig::loosely_equal]. *)
Definition sig_loose (a b : fnsig) : bool :=
  (length (inputs a) =? length (inputs b))%nat
  && forallb (fun p => ty_loose (fst p) (snd p)) (combine (inputs a) (inputs b))
  && match output a, output b with
     | None, None => true
     | Some l, Some r => ty_loose l r
     | _, _ => false
     end.

(** Fields separated by ", " (ir.rs 54-62, ir/ty.rs 75-94). *)
Fixpoint commas (l : list str) : str :=
  match l with
  | [] => []
  | [x] => x
  | x :: l => x ++ lit ", " ++ commas l
  end.

(** ir/ty.rs 75-94 [fmt_struct]. *)
Definition show_struct (fields : list str) : str :=
  lit "{" ++ commas fields ++ (match fields with [] => [] | _ => lit " " end) ++ lit "}".
(** ir.rs 45-66 [Display for FnSig]. *)
Definition show_fn (ins : list str) (out : option str) : str :=
  (match out with Some o => o | None => lit "void" end) ++ lit " (" ++ commas ins ++ lit ")".
(** ir/ty.rs 96-162 [Display for Type]. *)
Fixpoint show_ty (t : ty) : str :=
  match t with
  | TAlias name => lit "%" ++ [dquote] ++ name ++ [dquote]
  | TArray n t => lit "[" ++ show_N n ++ lit " x " ++ show_ty t ++ lit "]"
  | TDouble => lit "double"
  | TFloat => lit "float"
  | TOpaque => lit "ptr"
  | TInt n => lit "i" ++ show_N n
  | TPacked l => lit "<" ++ show_struct (map show_ty l) ++ lit ">"
  | TStruct l => show_struct (map show_ty l)
  | TFn i o => show_fn (map show_ty i) (option_map show_ty o)
  | TPtr t => show_ty t ++ lit "*"
  | TVarargs => lit "..."
  | TVec n t => lit "<" ++ show_N n ++ lit " x " ++ show_ty t ++ lit ">"
  end.
Definition show_sig (s : fnsig) : str := show_fn (map show_ty (inputs s)) (option_map show_ty (output s)).

(** ** Lexical parsers (ir.rs) *)

(** ir.rs 111-123 [ident]. *)
Definition is_ident (c : ascii) : bool :=
  is_alnum c || existsb (Ascii.eqb c) (lit "-$._").
Definition ident : parser str :=
  pmap_res (take_while1 is_ident)
    (fun s => if match s with c :: _ => is_digit c | [] => false end then None else Some s).
(** ir.rs 298-303 [string]. *)
Definition string_ : parser str :=
  fun i => let? (i, _u) := char dquote i in
           let? (i, x) := take_until dquote i in
           let? (i, _v) := char dquote i in
           Done i x.
(** ir.rs 271-273 [name]. *)
Definition name : parser str := palt string_ (palt ident digit1).
(** ir.rs 278-282 [function]. *)
Definition function : parser str := fun i => let? (i, _u) := char "@" i in name i.
(** ir.rs 287-291 [alias]. *)
Definition alias : parser str := fun i => let? (i, _u) := char "%" i in name i.
(** ir.rs 128-136 [global]. *)
Definition global : parser (option str) :=
  fun i => let? (i, _u) := char "@" i in
           palt (pmap string_ Some) (palt (pmap digit1 (fun _ => None)) (pmap ident Some)) i.
(** ir.rs 141-145 [local]. *)
Definition local : parser unit :=
  fun i => let? (i, _u) := char "%" i in
           palt (pmap digit1 (fun _ => tt)) (pmap ident (fun _ => tt)) i.
(** ir.rs 102-106 [comment]. *)
Definition comment : parser unit :=
  fun i => let? (i, _u) := char ";" i in let? (i, _v) := not_line_ending i in Done i tt.

(** ** Types (ir/ty.rs).  [rec] is [type_]. *)

(** [usize::from_str] on a non-empty string of digits: fails on overflow (64-bit host). *)
Definition usize_from_str (s : str) : option N :=
  if (digits_val s <? two64)%N then Some (digits_val s) else None.
Definition count : parser N := pmap_res digit1 usize_from_str.

(** ir/ty.rs 164-177 [array], 179-192 [mvt_vector]. *)
Definition counted (rec : parser ty) (f : N -> ty -> ty) : parser ty :=
  fun i => let? (i, n) := count i in
           let? (i, _a) := space1 i in
           let? (i, _b) := char "x" i in
           let? (i, _c) := space1 i in
           let? (i, t) := rec i in
           Done i (f n t).
Definition array (rec : parser ty) : parser ty := delimited (char "[") (counted rec TArray) (char "]").
Definition mvt_vector (rec : parser ty) : parser ty := delimited (char "<") (counted rec TVec) (char ">").
(** ir/ty.rs 194-218 [double], [float], [opaque_pointer], [integer], [alias], [varargs]. *)
Definition integer : parser ty :=
  fun i => let? (i, _u) := char "i" i in let? (i, n) := count i in Done i (TInt n).
Definition type_alias : parser ty := pmap alias TAlias.
(** The separator of lists of types, parameters and arguments: `,` and spaces (ir/define.rs 76-80, 244-248, ir/ty.rs 223-227, 334-338). *)
Definition comma : parser str := fun i => let? (i, _u) := char "," i in space1 i.
(** ir/ty.rs 220-233 [_struct]. *)
Definition struct_body (rec : parser ty) : parser (list ty) :=
  fun i => let? (i, _a) := char "{" i in
           let? (i, _b) := space0 i in
           let? (i, fields) := separated_list0 comma rec i in
           let? (i, _c) := space0 i in
           let? (i, _d) := char "}" i in
           Done i fields.
(** ir/ty.rs 235-240 [packed_struct], 242-244 [struct_]. *)
Definition packed_struct (rec : parser ty) : parser ty :=
  fun i => let? (i, _a) := char "<" i in
           let? (i, fields) := struct_body rec i in
           let? (i, _b) := char ">" i in
           Done i (TPacked fields).
Definition struct_ (rec : parser ty) : parser ty := pmap (struct_body rec) TStruct.
(** ir/ty.rs 331-343 [fn_inputs]. *)
Definition fn_inputs (rec : parser ty) : parser (list ty) :=
  fun i => let? (i, _a) := char "(" i in
           let? (i, _b) := space0 i in
           let? (i, ins) := separated_list0 comma rec i in
           let? (i, _c) := char ")" i in
           Done i ins.

(** The loops `is this a pointer?` (ir/ty.rs 258-268, 285-295, 311-321). *)
Fixpoint stars (i : str) (t : ty) : str * ty :=
  match i with
  | c :: i1 => if Ascii.eqb c "*" then stars i1 (TPtr t) else (i, t)
  | [] => (i, t)
  end.
(** The loop `is this a function?` (ir/ty.rs 297-326). *)
Definition fn_suffix (rec : parser ty) : parser (list ty) :=
  fun i => let? (i, _u) := space1 i in fn_inputs rec i.
Fixpoint fn_loop (n : nat) (rec : parser ty) (i : str) (t : ty) : ires ty :=
  match n with
  | O => NoFuel
  | S n =>
      let? (i1, ins) := popt (fn_suffix rec) i in
      match ins with
      | Some ins => let '(i2, t2) := stars i1 (TFn ins (Some t)) in fn_loop n rec i2 t2
      | None => Done i t
      end
  end.

(** The alternatives of [type_] (ir/ty.rs 272-283). *)
Definition base (rec : parser ty) : parser ty :=
  palt (array rec) (palt (packed_struct rec) (palt (struct_ rec) (palt type_alias
    (palt (pmap (tag "double") (fun _ => TDouble)) (palt (pmap (tag "float") (fun _ => TFloat))
      (palt (pmap (tag "ptr") (fun _ => TOpaque)) (palt integer
        (palt (pmap (tag "...") (fun _ => TVarargs)) (mvt_vector rec))))))))).

(** ir/ty.rs 246-329 [type_]. *)
Definition type_body (rec : parser ty) : parser ty :=
  fun i =>
    let? (i, void) := popt (tag "void") i in
    match void with
    | Some _ =>
        let? (i, _u) := space1 i in
        let? (i, ins) := fn_inputs rec i in
        let '(i, t) := stars i (TFn ins None) in
        Done i t
    | None =>
        let? (i, t) := base rec i in
        let '(i, t) := stars i t in
        fn_loop (S (length i)) rec i t
    end.
Fixpoint type_f (n : nat) : parser ty :=
  match n with
  | O => fun _ => NoFuel
  | S n => type_body (type_f n)
  end.
(** Every recursive call is on a shorter input (ir/ty.rs 246-329). *)
Definition type_ : parser ty := fun i => type_f (S (length i)) i.
