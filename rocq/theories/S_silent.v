(** What a run that logs nothing can still overlook. *)
From Verif Require Import M_base M_stack M_graph M_names M_thumb M_ty M_parse M_build M_run M_log S_names S_graph S_sig S_build S_run.

(** The ways in which calls are overlooked without a message: of `memcmp` by another name than the one shown; by memory intrinsics,
    where machine code is not read; of formatting functions that are only declared; of functions by another of their types;
    by functions whose code is not read. *)
Inductive loss := OfMemcmp | ByIntrinsic | OfFormatting | OfSecondType | ByUnread.
(** [avoids p i c]: function [i] does not lose calls in the way [c]. *)
Definition avoids (p : prog) (i : nat) (c : loss) : Prop :=
  match c with
  | OfMemcmp => body p i (DirectCall memcmp) -> forall j, live p memcmp j -> chosen p j memcmp
  | ByIntrinsic => is_thumb (pg_target p) = false -> forall f n j, body p i (DirectCall f) -> implements f n -> live p n j -> lowers f n /\ chosen p j n
  | OfFormatting => forall s' j s r, body p i (IndirectCall s') -> typed_by_decl p j s -> sig_matches s s' -> s <> fmt_sig (TAlias r)
  | OfSecondType => forall s' j s, body p i (IndirectCall s') -> bears p j s -> sig_matches s s' -> exists t, typed p j t /\ sig_matches t s'
  | ByUnread => is_thumb (pg_target p) = false -> ~ unread p i
  end.
(** [overlooks demangle o p c]: nothing is logged, the maximum of the first function is exact but less than an execution uses, and [c] is the only way in which calls are lost. *)
Definition overlooks (demangle : str -> str) (o : orders) (p : prog) (c : loss) : Prop :=
  wf_prog p /\ fits p /\ (exists g cs n l d, report_log demangle o None p = ([], Ret (g, cs)) /\ reported g 0 (MExact n) /\ runs p 0 l /\ depth p l d /\ (n < d)%N) /\
  forall i c', c' <> c -> avoids p i c'.
