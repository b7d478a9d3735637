(** Model of the parts of nom 7.1.3 (complete/streaming-free parsers on [&str]) used by src/ir.rs and src/ir/*.rs.
    nom is not in /repo; these are transcriptions of the version in Cargo.lock.

    Simplifications: an [Err::Error] keeps its position (`e.input`) but not its [ErrorKind] (the only one that is ever shown is `Eof`, C33_only_one_kind_of_error); [Err::Incomplete] cannot
    arise with the `complete` parsers.  Strings are bytes, so a multi-byte character counts as several
    non-alphanumeric bytes (see DESIGN.md). *)
From Verif Require Import M_base.

(** [IResult<&str, A>].  [NoFuel] is not a value of the program: it marks a loop of the model that ran out of steps (ir.rs 13). *)
Inductive ires (A : Type) : Type :=
| Done (i : str) (a : A)
| Error (at_ : str)
| Failure (at_ : str)
| NoFuel.
Arguments Done {A} _ _.
Arguments Error {A} _.
Arguments Failure {A} _.
Arguments NoFuel {A}.
(** e.g. ir.rs 102. *)
Definition parser (A : Type) := str -> ires A.

(** The `?` operator (e.g. ir.rs 103). *)
Definition pbind {A B} (x : ires A) (f : str -> A -> ires B) : ires B :=
  match x with
  | Done i a => f i a
  | Error e => Error e
  | Failure e => Failure e
  | NoFuel => NoFuel
  end.
Notation "'let?' ( i , x ) ':=' e1 'in' e2" := (pbind e1 (fun i x => e2))
  (at level 200, i name, x name, e1 at level 200, e2 at level 200, right associativity).

(** nom::combinator::map (ir/ty.rs 213, 243). *)
Definition pmap {A B} (p : parser A) (f : A -> B) : parser B :=
  fun i => pbind (p i) (fun i a => Done i (f a)).

(** nom::combinator::map_res: the position of a failed conversion is the start of the input (ir.rs 113, ir/define.rs 268, ir/ty.rs 168). *)
Definition pmap_res {A B} (p : parser A) (f : A -> option B) : parser B :=
  fun i => pbind (p i) (fun i1 a => match f a with Some b => Done i1 b | None => Error i end).

(** nom::combinator::opt (e.g. ir.rs 242, ir/define.rs 49, ir/ty.rs 247). *)
Definition popt {A} (p : parser A) : parser (option A) :=
  fun i => match p i with
           | Done i1 a => Done i1 (Some a)
           | Error _ => Done i None
           | Failure e => Failure e
           | NoFuel => NoFuel
           end.

(** nom::branch::alt on two alternatives; longer tuples are nested.  The error of the last alternative is returned
    ([ParseError::or] and [append] of [nom::error::Error] keep the later error). *)
(** e.g. ir/define.rs 289-299, ir/item.rs 202-216. *)
Definition palt {A} (p q : parser A) : parser A :=
  fun i => match p i with
           | Error _ => q i
           | r => r
           end.

(** nom::bytes::complete::tag (e.g. ir/ty.rs 195, 199, 203). *)
Definition tag (t : string) : parser unit :=
  fun i => match strip_prefix (lit t) i with Some i1 => Done i1 tt | None => Error i end.

(** nom::character::complete::char (e.g. ir.rs 103). *)
Definition char (c : ascii) : parser unit :=
  fun i => match i with
           | x :: i1 => if Ascii.eqb x c then Done i1 tt else Error i
           | [] => Error i
           end.

(** Longest prefix of characters satisfying [p] (ir.rs 114). *)
Fixpoint span (p : ascii -> bool) (i : str) : str * str :=
  match i with
  | [] => ([], [])
  | c :: i1 => if p c then let '(a, b) := span p i1 in (c :: a, b) else ([], i)
  end.
(** [split_at_position1_complete]: nom::bytes::complete::{take_while1, is_not}, digit1, space1. *)
Definition take_while1 (p : ascii -> bool) : parser str :=
  fun i => match span p i with ([], _) => Error i | (a, b) => Done b a end.
Definition take_while0 (p : ascii -> bool) : parser str :=
  fun i => let '(a, b) := span p i in Done b a.

(** nom::character::complete::{space0, space1, digit1}. *)
Definition is_space (c : ascii) : bool := (Ascii.eqb c " " || Ascii.eqb c "009")%char.
Definition space1 : parser str := take_while1 is_space.
Definition space0 : parser str := take_while0 is_space.
Definition digit1 : parser str := take_while1 is_digit.

(** ir.rs 90, 91, 104. *)
Definition CR : ascii := "013".
(** ir.rs 90, 91, 104. *)
Definition LF : ascii := "010".

(** nom::character::complete::line_ending: "\n" or "\r\n" (ir.rs 90, 91, ir/define.rs 90). *)
Definition line_ending : parser unit :=
  fun i => match i with
           | c :: i1 =>
               if Ascii.eqb c LF then Done i1 tt
               else if Ascii.eqb c CR then
                      match i1 with d :: i2 => if Ascii.eqb d LF then Done i2 tt else Error i | [] => Error i end
                    else Error i
           | [] => Error i
           end.

(** nom::character::complete::not_line_ending: up to "\n" or "\r\n"; a "\r" not followed by "\n" is an error (ir.rs 104). *)
Definition is_eol (c : ascii) : bool := Ascii.eqb c CR || Ascii.eqb c LF.
(** ir.rs 104. *)
Definition not_line_ending : parser str :=
  fun i => let '(a, b) := span (fun c => negb (is_eol c)) i in
           match b with
           | [] => Done b a
           | c :: b1 =>
               if Ascii.eqb c CR then
                 match b1 with d :: _ => if Ascii.eqb d LF then Done b a else Error i | [] => Error i end
               else Done b a
           end.

(** nom::bytes::complete::take_until with a one-character pattern (ir.rs 300). *)
Definition take_until (c : ascii) : parser str :=
  fun i => let '(a, b) := span (fun x => negb (Ascii.eqb x c)) i in
           match b with [] => Error i | _ => Done b a end.

(** nom::multi::many0.  Every round consumes input or the parser stops, so the number of rounds is at most the length of
    the input, plus one. *)
Fixpoint many0_loop {A} (n : nat) (p : parser A) (i : str) : ires (list A) :=
  match n with
  | O => NoFuel
  | S n =>
      match p i with
      | Error _ => Done i []
      | Failure e => Failure e
      | NoFuel => NoFuel
      | Done i1 a =>
          if (length i1 =? length i)%nat then Error i
          else pbind (many0_loop n p i1) (fun i2 l => Done i2 (a :: l))
      end
  end.
Definition many0 {A} (p : parser A) : parser (list A) := fun i => many0_loop (S (length i)) p i.

(** nom::multi::many1: the first round reports the error, the others are those of [many0]. *)
Definition many1 {A} (p : parser A) : parser (list A) :=
  fun i => let? (i1, a) := p i in
           let? (i2, l) := many0_loop (S (length i1)) p i1 in
           Done i2 (a :: l).

(** nom::multi::separated_list0 / separated_list1.  If an element does not follow a separator, the separator is
    not consumed. *)
Fixpoint sep_loop {S A} (n : nat) (sep : parser S) (p : parser A) (i : str) : ires (list A) :=
  match n with
  | O => NoFuel
  | Datatypes.S n =>
      match sep i with
      | Error _ => Done i []
      | Failure e => Failure e
      | NoFuel => NoFuel
      | Done i1 _ =>
          if (length i1 =? length i)%nat then Error i1
          else match p i1 with
               | Error _ => Done i []
               | Failure e => Failure e
               | NoFuel => NoFuel
               | Done i2 a => pbind (sep_loop n sep p i2) (fun i3 l => Done i3 (a :: l))
               end
      end
  end.
Definition separated_list1 {S A} (sep : parser S) (p : parser A) : parser (list A) :=
  fun i => let? (i1, a) := p i in
           let? (i2, l) := sep_loop (Datatypes.S (length i1)) sep p i1 in
           Done i2 (a :: l).
Definition separated_list0 {S A} (sep : parser S) (p : parser A) : parser (list A) :=
  fun i => match p i with
           | Error _ => Done i []
           | Failure e => Failure e
           | NoFuel => NoFuel
           | Done i1 a =>
               let? (i2, l) := sep_loop (Datatypes.S (length i1)) sep p i1 in
               Done i2 (a :: l)
           end.

(** nom::sequence::delimited (ir.rs 214, 247, ir/define.rs 242, ir/ty.rs 165, 180). *)
Definition delimited {A B C} (p : parser A) (q : parser B) (r : parser C) : parser B :=
  fun i => let? (i, _a) := p i in let? (i, b) := q i in let? (i, _c) := r i in Done i b.
