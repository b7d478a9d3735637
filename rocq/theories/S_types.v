(** Functions that use none of the overlooked constructs, with one exception. *)
From Verif Require Import M_base M_stack M_graph M_names M_thumb M_ty M_parse M_build S_names S_graph S_sig S_build S_run.

(** [covered_fn] without its last four clauses. *)
Record covered_but (p : prog) (i : nat) : Prop := {
  cb_memcmp : body p i (DirectCall memcmp) -> forall j, live p memcmp j -> chosen p j memcmp;
  cb_cast : forall f j, body p i (BitcastCall (Some f)) -> live p f j -> chosen p j f;
  cb_mem : is_thumb (pg_target p) = false -> forall f n j, body p i (DirectCall f) -> implements f n -> live p n j -> lowers f n /\ chosen p j n;
  cb_fmt : forall s' j s r, body p i (IndirectCall s') -> typed_by_decl p j s -> sig_matches s s' -> s <> fmt_sig (TAlias r);
  cb_pointer : untyped p -> forall s', body p i (IndirectCall s') -> exists s, calls_sig p i s
}.
(** The clauses left out, by name. *)
Inductive clause := OneType | CodeRead | HasText | AsmQuiet.
Definition obeys (p : prog) (i : nat) (c : clause) : Prop :=
  match c with
  | OneType => forall s' j s, body p i (IndirectCall s') -> bears p j s -> sig_matches s s' -> exists t, typed p j t /\ sig_matches t s'
  | CodeRead => ~ unread p i
  | HasText => is_thumb (pg_target p) = true -> pg_text p = None -> forall f n j, body p i (DirectCall f) -> implements f n -> ~ live p n j
  | AsmQuiet => ~ asm_calls p i
  end.
(** [covered_except p c]: the clause [c] is the only one that functions of [p] violate. *)
Definition covered_except (p : prog) (c : clause) : Prop := (forall i, covered_but p i) /\ (forall i c', c' <> c -> obeys p i c') /\ ~ (forall i, obeys p i c).
