(** Vocabulary for the comparison of debug and release builds. *)
From Coq Require Import Sorted.
From Verif Require Import M_base M_thumb M_build S_build.

(** The messages of the arithmetic checks of Rust. *)
Definition overflow (m : string) : Prop :=
  m = "attempt to add with overflow"%string \/ m = "attempt to subtract with overflow"%string \/ m = "attempt to multiply with overflow"%string.
(** [same_or_overflow d r]: the debug build ends as the release build does, or an arithmetic check stops it. *)
Definition same_or_overflow {A} (d r : outcome A) : Prop := d = r \/ exists m, d = Panic m /\ overflow m.

(** The addresses of the tags are 32-bit numbers, in ascending order. *)
Record proper_tags (tags : list (N * tag)) : Prop := {
  tags_sorted : StronglySorted N.le (map fst tags);
  tags_u32 : forall a x, In (a, x) tags -> (a < 2 ^ 32)%N
}.
(** The machine code ends 32 MiB, or more, below the middle of the address space. *)
Definition low_text (p : prog) : Prop := forall stext text, pg_text p = Some (stext, text) ->
  (stext mod 2 ^ 32 + N.of_nat (length text) + 2 ^ 25 <= 2 ^ 31)%N.
(** The machine code ends below 2^32 and is 32 MiB, or more, smaller than half the address space; it may be anywhere. *)
Definition text_fits (p : prog) : Prop := forall stext text, pg_text p = Some (stext, text) ->
  (stext mod 2 ^ 32 + N.of_nat (length text) < 2 ^ 32)%N /\ (N.of_nat (length text) + 2 ^ 25 <= 2 ^ 31)%N.
(** The distance does not lead from one half of the address space to the other, except backwards past zero or forwards past the end. *)
Definition same_half (addr : N) (off : Z) : Prop :=
  ((addr < 2 ^ 31)%N -> (Z.of_N addr + off < 2 ^ 31)%Z) /\ ((2 ^ 31 <= addr)%N -> (2 ^ 31 <= Z.of_N addr + off)%Z).
(** No branch of an analysed function leads across the middle of the address space. *)
Definition no_crossing (p : prog) : Prop := forall i addr size a off, analysed p i addr size a -> In off (bs a) -> same_half addr off.
