(** The nodes of a program that a printed dot file shows. *)
From Verif Require Import M_base M_stack M_graph M_parse M_build M_render S_names S_render S_build S_run.

(** What is read back of the nodes [nds] from a dot file, and that the file [out] shows the nodes [ks] of the program [p] by [nds]. *)
Definition drawn (demangle : str -> str) (nds : list node) : list (option N * option (str * option maxv * M_stack.local) * bool) :=
  map (fun x => (Some (N.of_nat (fst x)), Some (demangle (nname (snd x)), nmax (snd x), nlocal (snd x)), ndashed (snd x))) (combine (seq 0 (length nds)) nds).
Definition prints (demangle : str -> str) (p : prog) (out : str) (ks : list key) (nds : list node) : Prop :=
  exists st, read_dot out = Some st /\ file_nodes st = drawn demangle nds /\ length ks = length nds /\ forall k key nd, nth_error ks k = Some key -> nth_error nds k = Some nd -> shows demangle p key nd.
