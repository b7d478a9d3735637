(** Programs that differ in the names of their functions: the log. *)
From Coq Require Import Sorted Permutation.
From Verif Require Import M_base M_parse M_build M_log S_build S_log S_rename.

(** [renamed_message p r start start' m m']: [m'] says about the renamed functions what [m] says about the functions.  Messages about the program
    as a whole, and about types, are the same. *)
Inductive renamed_message (p : prog) (r : str -> str) (start start' : option str) : message -> message -> Prop :=
| rm_usage n : looked_at p n -> renamed_message p r start start' (no_usage n) (no_usage (r n))
| rm_type n : looked_at p n -> renamed_message p r start start' (no_type n) (no_type (r n))
| rm_asm code n : looked_at p n -> renamed_message p r start start' (asm_note code n) (asm_note code (r n))
| rm_information n : looked_at p n -> renamed_message p r start start' (no_information n) (no_information (r n))
| rm_lowering n : looked_at p n -> r n = n -> renamed_message p r start start' (lowering_note n) (lowering_note n)
| rm_override n a b why : looked_at p n -> renamed_message p r start start' (override_note n a b why) (override_note (r n) a b why)
| rm_blind n : looked_at p n -> renamed_message p r start start' (blind_note n) (blind_note (r n))
| rm_text : renamed_message p r start start' no_text no_text
| rm_untyped : renamed_message p r start start' untyped_note untyped_note
| rm_callee l : renamed_message p r start start' (no_callee l) (no_callee l)
| rm_missing : renamed_message p r start start' start_missing start_missing
| rm_multiple s s' hits hits' text text' : start = Some s -> start' = Some s' -> Sorted str_le hits -> Sorted str_le hits' -> Permutation hits' (map r hits) ->
    (forall n, In n hits -> looked_at p n) -> literals hits text -> literals hits' text' ->
    renamed_message p r start start' (start_multiple s text) (start_multiple s' text')
| rm_figures : renamed_message p r start start' no_figures no_figures.
