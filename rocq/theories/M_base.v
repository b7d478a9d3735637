(** Shared vocabulary of the model: byte strings, outcomes, decimal numbers.

    Rust [&str], [String] and [&[u8]] are all modelled as lists of bytes. *)
From Coq Require Export Arith NArith ZArith Bool Ascii String Lia.
From Coq Require Export List.
From Coq Require Decimal DecimalN.
Export ListNotations.
Open Scope list_scope.

(** Every `&str`, `String` and `Cow<str>` of the sources, and the bytes of files. *)
Definition str := list ascii.

(** String literals of the Rust source (e.g. main.rs 97-100). *)
Definition lit (s : string) : str := list_ascii_of_string s.

(** How a piece of the Rust program can end.  [Fail] is an [anyhow::Error] that `main` prints before
    exiting with status 1 (main.rs 84-92); [Panic] is a Rust panic ([expect], [assert!], [panic!],
    slice out of range ...); [Fuel] never happens: it is the value of a loop of the model that ran out
    of its explicit step budget, and theorems about loops exclude it. *)
(** e.g. main.rs 84-92: what becomes of an error of [run]. *)
Inductive outcome (A : Type) : Type :=
| Ret (a : A)
| Fail (msg : str)
| Panic (msg : string)
| Fuel.
Arguments Ret {A} _.
Arguments Fail {A} _.
Arguments Panic {A} _.
Arguments Fuel {A}.

(** The operator `?`, e.g. main.rs 111. *)
Definition bind {A B} (x : outcome A) (f : A -> outcome B) : outcome B :=
  match x with
  | Ret a => f a
  | Fail m => Fail m
  | Panic m => Panic m
  | Fuel => Fuel
  end.
Notation "'let*' x ':=' e1 'in' e2" := (bind e1 (fun x => e2))
  (at level 200, x pattern, e1 at level 200, e2 at level 200, right associativity).

(** [==] on strings (e.g. main.rs 222, wrapper.rs 42). *)
Fixpoint str_eqb (a b : str) : bool :=
  match a, b with
  | [], [] => true
  | x :: a', y :: b' => Ascii.eqb x y && str_eqb a' b'
  | _, _ => false
  end.

(** [str::starts_with] with a string pattern (e.g. main.rs 240, 611-716). *)
Fixpoint starts_with (p s : str) : bool :=
  match p, s with
  | [], _ => true
  | x :: p', y :: s' => Ascii.eqb x y && starts_with p' s'
  | _ :: _, [] => false
  end.

(** [str::strip_prefix] (main.rs 151, 1535). *)
Fixpoint strip_prefix (p s : str) : option str :=
  match p, s with
  | [], _ => Some s
  | x :: p', y :: s' => if Ascii.eqb x y then strip_prefix p' s' else None
  | _ :: _, [] => None
  end.

(** [str::ends_with] with a string pattern (main.rs 381). *)
Definition ends_with (p s : str) : bool := starts_with (rev p) (rev s).

(** Membership test on node indices / strings ([HashSet::contains], [FixedBitSet::is_visited]) (main.rs 618, 925, 1165). *)
Definition mem (v : nat) (l : list nat) : bool := existsb (Nat.eqb v) l.
(** main.rs 699, 722, 844. *)
Definition smem (v : str) (l : list str) : bool := existsb (str_eqb v) l.

(** Byte classes (for main.rs 1535-1540, ir.rs 114-116). *)
Definition code (c : ascii) : N := N_of_ascii c.
(** main.rs 1536, ir.rs 116. *)
Definition is_digit (c : ascii) : bool := ((48 <=? code c) && (code c <=? 57))%N.
(** ir/ty.rs 168, 183, 208 [usize::from_str]. *)
Definition digit_val (c : ascii) : N := (code c - 48)%N.
(** ir.rs 114. *)
Definition is_alpha (c : ascii) : bool :=
  ((65 <=? code c) && (code c <=? 90) || (97 <=? code c) && (code c <=? 122))%N.
(** ir.rs 114. *)
Definition is_alnum (c : ascii) : bool := is_alpha c || is_digit c.

(** Decimal output of an unsigned integer (`{}` on [u64] / [usize]). *)
Fixpoint uint_str (d : Decimal.uint) : str :=
  match d with
  | Decimal.Nil => []
  | Decimal.D0 d => "0"%char :: uint_str d
  | Decimal.D1 d => "1"%char :: uint_str d
  | Decimal.D2 d => "2"%char :: uint_str d
  | Decimal.D3 d => "3"%char :: uint_str d
  | Decimal.D4 d => "4"%char :: uint_str d
  | Decimal.D5 d => "5"%char :: uint_str d
  | Decimal.D6 d => "6"%char :: uint_str d
  | Decimal.D7 d => "7"%char :: uint_str d
  | Decimal.D8 d => "8"%char :: uint_str d
  | Decimal.D9 d => "9"%char :: uint_str d
  end.
Definition show_N (n : N) : str := uint_str (N.to_uint n).
Definition show_nat (n : nat) : str := show_N (N.of_nat n).

(** Value of a string of decimal digits.  ir/ty.rs 168, 183, 208 [usize::from_str]. *)
Definition digits_val (s : str) : N := fold_left (fun acc c => acc * 10 + digit_val c)%N s 0%N.

(** The range of `u64`, main.rs 1412, 1436. *)
Definition two64 : N := 2 ^ 64.

(** The end of a line, e.g. main.rs 1240. *)
Definition nl : str := ["010"%char].
(** main.rs 1372. *)
Definition dquote : ascii := "034"%char.
(** main.rs 1372. *)
Definition backslash : ascii := "092"%char.
