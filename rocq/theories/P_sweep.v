(** Property C81: the machine code analysis of any byte string. *)
From Verif Require Import M_base M_thumb S_thumb X_thumb L_thumb4 L_thumb6.
Local Open Scope N_scope.

(** C81: whatever the bytes and whatever the mapping symbols, the analysis reads them from one end to the other as instructions and
    pools in the one way that [sweep] describes, and reports what the instructions amount to; or it panics, for one of two reasons. *)
Theorem C81_any_bytes : forall bytes address v7 tags, N.of_nat (length bytes) < 2 ^ 30 ->
  (forall s, analyze bytes address v7 tags = Ret s <->
             exists l, sweep v7 address tags 0 bytes l /\ amounts v7 (N.of_nat (length bytes)) l s) /\
  (forall msg, analyze bytes address v7 tags = Panic msg <-> stuck v7 address tags 0 bytes msg) /\
  ((exists s, analyze bytes address v7 tags = Ret s) \/ (exists msg, analyze bytes address v7 tags = Panic msg)) /\
  (forall l l', sweep v7 address tags 0 bytes l -> sweep v7 address tags 0 bytes l' -> l = l').
Proof. exact analyze_exact. Qed.
Print Assumptions C81_any_bytes.
(** The search for mapping symbols finds what is there, if their addresses increase. *)
Theorem C81_symbols_found : forall tags a, increasing tags ->
  (marked tags a MCode <-> ~ In (a, TData) tags) /\
  (forall e, marked tags a (MPool e) <-> exists k, nth_error tags k = Some (a, TData) /\ nth_error tags (S k) = Some (e, TThumb)) /\
  (marked tags a MLast <-> exists k, nth_error tags k = Some (a, TData) /\ nth_error tags (S k) = None).
Proof. exact marked_increasing. Qed.
Print Assumptions C81_symbols_found.
(** The functions of C23 to C28 are read as they are meant. *)
Theorem C81_functions_read : forall v7 address tags, increasing tags -> forall l pos,
  (forall x, In x l -> item_ok v7 x) -> tagged tags (address + pos) l -> address + pos + size l <= 2 ^ 32 ->
  sweep v7 address tags pos (encode l) (placed pos l).
Proof. exact function_sweep. Qed.
Print Assumptions C81_functions_read.
(** A function that ends with `bkpt`, or with data symbols in a row, stops the tool; a `bkpt` elsewhere swallows half of the next
    instruction. *)
Example C81_example :
  stuck true 0 [] 0 (hw_bytes 0xb500 ++ hw_bytes 0xbe00) "BUG: unknown instruction" /\
  stuck true 0 [(2, TData); (4, TData); (6, TThumb)] 0 (hw_bytes 0xb500 ++ hw_bytes 1 ++ hw_bytes 2 ++ hw_bytes 0x4770)
    "BUG: expected a thumb tag but found another data tag" /\
  sweep true 0 [(8, TData)] 0 (hw_bytes 0xb500 ++ hw_bytes 0xbe00 ++ hw_bytes 0xf000 ++ hw_bytes 0xfa2a ++ hw_bytes 0xffff)
    [(0, I16 0xb500); (2, I32 0xbe00 0xf000); (6, I32 0xfa2a 0xffff)] /\
  increasing ex_tags /\ marked ex_tags 272 (MPool 276) /\ tagged ex_tags 256 ex_fn.
Proof.
  split; [exact ends_with_bkpt|]. split; [exact data_in_a_row|]. split; [exact reads_bkpt|]. split; [exact ex_increasing|]. split; [|exact (proj1 (proj2 (proj2 ex_ok)))].
  apply (proj1 (proj2 (marked_increasing ex_tags 272 ex_increasing))). exists 1%nat. split; reflexivity.
Qed.
