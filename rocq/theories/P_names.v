(** Properties C19-C22 and C53: symbol names. *)
From Verif Require Import M_base M_stack M_graph M_names S_names S_filter L_names.

(** C19: hash removal strips exactly a trailing [::h] and 16 bytes and never panics. *)
Theorem C19_dehash_strips_exactly_the_suffix :
  forall d, exists r, dehash d = Ret r /\ forall b, r = Some b <-> has_hash d b.
Proof. exact dehash_spec. Qed.
Print Assumptions C19_dehash_strips_exactly_the_suffix.

Example C19_example :
  has_hash (lit "core::fmt::write::h0123456789abcdef") (lit "core::fmt::write") /\
  (forall b, ~ has_hash (lit "memcpy") b).
Proof.
  split.
  - split; [discriminate|]. exists (lit "0123456789abcdef"). split; reflexivity.
  - intros b [_ [h [Lh E]]]. apply (f_equal (@length _)) in E. rewrite !app_length, Lh in E. simpl in E. lia.
Qed.

(** The methods of trait implementations are collected, in this way, from the names of the definitions (the set is not used for anything). *)
Theorem C19_trait_methods_are_collected :
  forall demangle names, exists l, default_methods demangle names = Ret l /\
    forall m, In m l <-> exists n, In n names /\ trait_method (demangle n) m.
Proof. exact default_methods_spec. Qed.
Print Assumptions C19_trait_methods_are_collected.
Example C19_methods_example : trait_method (lit "<core::cell::Cell<T> as core::fmt::Debug>::fmt::h0123456789abcdef") (lit "core::fmt::Debug::fmt").
Proof. exact trait_method_example. Qed.

(** What is removed need not be a rustc hash: any [::h] followed by 16 bytes is. *)
Theorem C19_only_hashes_are_removed_refuted :
  exists d b suffix, dehash d = Ret (Some b) /\ d = b ++ suffix /\ suffix = lit "::handler_functions".
Proof. exact dehash_not_only_hashes. Qed.
Print Assumptions C19_only_hashes_are_removed_refuted.

(** C20: a function gets the short name iff no other function of the program has that short form. *)
Theorem C20_shortened_iff_unshared :
  forall demangle g rest m g',
    note_names demangle [] (map nname (gnodes g)) = Ret m ->
    shorten demangle m (mkG (gnodes g ++ rest) (gedges g)) = Ret g' ->
    forall i nd, nth_error (gnodes g) i = Some nd ->
    exists nd', nth_error (gnodes g') i = Some nd' /\
      ((exists b, has_hash (demangle (nname nd)) b /\
          (forall j ndj, nth_error (gnodes g) j = Some ndj -> has_hash (demangle (nname ndj)) b -> j = i) /\
          nd' = set_name nd b) \/
       ((forall b, has_hash (demangle (nname nd)) b ->
           exists j ndj, nth_error (gnodes g) j = Some ndj /\ j <> i /\ has_hash (demangle (nname ndj)) b) /\
        nd' = nd)).
Proof. exact shorten_rule. Qed.
Print Assumptions C20_shortened_iff_unshared.

(** C20, partial: labels of two functions with different hashed names stay different, provided short forms are
    not mangled names and do not themselves end in something like a hash.  Missing: names without a hash can
    coincide with a short form, see the refutations. *)
Theorem C20_hashed_labels_stay_different_partial :
  forall demangle g m g',
    note_names demangle [] (map nname (gnodes g)) = Ret m ->
    shorten demangle m g = Ret g' ->
    (forall nd b, In nd (gnodes g) -> has_hash (demangle (nname nd)) b ->
       demangle b = b /\ forall b', ~ has_hash b b') ->
    forall i j ndi ndj bi bj ndi' ndj',
      i <> j ->
      nth_error (gnodes g) i = Some ndi -> nth_error (gnodes g) j = Some ndj ->
      has_hash (demangle (nname ndi)) bi -> has_hash (demangle (nname ndj)) bj ->
      demangle (nname ndi) <> demangle (nname ndj) ->
      nth_error (gnodes g') i = Some ndi' -> nth_error (gnodes g') j = Some ndj' ->
      demangle (nname ndi') <> demangle (nname ndj').
Proof. exact shorten_labels_differ. Qed.
Print Assumptions C20_hashed_labels_stay_different_partial.

(** Three functions: two versions of [foo], one [bar]. *)
Definition ex_names : graph node :=
  mkG [new_node (lit "foo::h0000000000000000") (Some 8%N) false;
       new_node (lit "bar::h1111111111111111") None false;
       new_node (lit "foo::h2222222222222222") (Some 0%N) false] [(0, 1)].

Example C20_example :
  let d := fun s : str => s in
  note_names d [] (map nname (gnodes ex_names)) = Ret [(lit "foo", 2); (lit "bar", 1)] /\
  exists g', shorten d [(lit "foo", 2); (lit "bar", 1)] ex_names = Ret g' /\
    map nname (gnodes g') = [lit "foo::h0000000000000000"; lit "bar"; lit "foo::h2222222222222222"] /\
    has_hash (lit "foo::h0000000000000000") (lit "foo") /\ has_hash (lit "foo::h2222222222222222") (lit "foo") /\
    (forall nd b, In nd (gnodes ex_names) -> has_hash (d (nname nd)) b -> d b = b /\ forall b', ~ has_hash b b').
Proof.
  split; [reflexivity|]. eexists. split; [reflexivity|]. split; [reflexivity|].
  split; [split; [discriminate | exists (lit "0000000000000000"); split; reflexivity]|].
  split; [split; [discriminate | exists (lit "2222222222222222"); split; reflexivity]|].
  intros nd b Hin Hb. split; [reflexivity|]. intros b' [_ [h [Lh E]]].
  destruct Hb as [_ [h2 [Lh2 E2]]]. rewrite E in E2. apply (f_equal (@length _)) in E2.
  rewrite !app_length, Lh, Lh2 in E2. simpl in E2.
  destruct Hin as [<-|[<-|[<-|[]]]]; simpl in E2; lia.
Qed.

(** A short name can coincide with the name of a function without hash. *)
Theorem C20_label_of_hashless_function_refuted :
  exists g m g',
    note_names (fun s => s) [] (map nname (gnodes g)) = Ret m /\ shorten (fun s => s) m g = Ret g' /\
    map nname (gnodes g) = [lit "reset"; lit "reset::h0123456789abcdef"] /\
    map nname (gnodes g') = [lit "reset"; lit "reset"].
Proof.
  exists (mkG [new_node (lit "reset") None false; new_node (lit "reset::h0123456789abcdef") None false] []).
  eexists. eexists. repeat split; reflexivity.
Qed.
Print Assumptions C20_label_of_hashless_function_refuted.

(** Even two hashed functions can get the same label if a path element looks like a hash. *)
Theorem C20_label_of_hashed_functions_refuted :
  exists g m g',
    note_names (fun s => s) [] (map nname (gnodes g)) = Ret m /\ shorten (fun s => s) m g = Ret g' /\
    map nname (gnodes g) =
      [lit "a::h0123456789abcdef"; lit "a::hfedcba9876543210"; lit "a::h0123456789abcdef::h0000000000000000"] /\
    nth_error (map nname (gnodes g')) 0 = Some (lit "a::h0123456789abcdef") /\
    nth_error (map nname (gnodes g')) 2 = Some (lit "a::h0123456789abcdef").
Proof.
  exists (mkG [new_node (lit "a::h0123456789abcdef") None false; new_node (lit "a::hfedcba9876543210") None false;
               new_node (lit "a::h0123456789abcdef::h0000000000000000") None false] []).
  eexists. eexists. repeat split; reflexivity.
Qed.
Print Assumptions C20_label_of_hashed_functions_refuted.

(** C21, partial: the pass finishes if every node whose name carries a hash shares its short form with one of
    the names the table was built from.  Missing: that is not so for every call graph the tool builds, see below. *)
Theorem C21_shortening_finishes_partial :
  forall demangle g m names,
    note_names demangle [] names = Ret m ->
    (forall nd b, In nd (gnodes g) -> has_hash (demangle (nname nd)) b ->
       exists c, In c names /\ has_hash (demangle c) b) ->
    exists g', shorten demangle m g = Ret g' /\ gedges g' = gedges g /\
      length (gnodes g') = length (gnodes g).
Proof. exact shorten_total. Qed.
Print Assumptions C21_shortening_finishes_partial.

Example C21_example :
  let d := fun s : str => s in
  note_names d [] (map nname (gnodes ex_names)) = Ret [(lit "foo", 2); (lit "bar", 1)] /\
  (forall nd b, In nd (gnodes ex_names) -> has_hash (d (nname nd)) b ->
     exists c, In c (map nname (gnodes ex_names)) /\ has_hash (d c) b).
Proof.
  split; [reflexivity|]. intros nd b Hin Hb. exists (nname nd). split; [apply in_map; exact Hin | exact Hb].
Qed.

(** The proviso is needed: any other node panics the pass. *)
Theorem C21_shortening_panics_on_other_nodes :
  forall demangle g m names nd b,
    note_names demangle [] names = Ret m ->
    In nd (gnodes g) -> has_hash (demangle (nname nd)) b ->
    (forall c, In c names -> ~ has_hash (demangle c) b) ->
    exists msg, shorten demangle m g = Panic msg.
Proof. exact shorten_panics. Qed.
Print Assumptions C21_shortening_panics_on_other_nodes.
(** The node of a symbol that is called but not in the executable, under a mangled name. *)
Example C21_example_panic :
  let d := fun s : str => s in let nd := new_node (lit "ext::h0123456789abcdef") None false in
  note_names d [] [lit "foo::h0123456789abcdef"] = Ret [(lit "foo", 1)] /\ has_hash (d (nname nd)) (lit "ext") /\
  (forall c, In c [lit "foo::h0123456789abcdef"] -> ~ has_hash (d c) (lit "ext")).
Proof.
  split; [reflexivity|]. split; [split; [discriminate|]; exists (lit "0123456789abcdef"); split; reflexivity|].
  intros c [<- | []] [_ [h [_ E]]]. discriminate E.
Qed.

(** C22: recognition of outlined functions. *)
Theorem C22_outlined_function_recognition :
  forall name, is_outlined_function name = true <-> outlined_name name.
Proof. exact outlined_spec. Qed.
Print Assumptions C22_outlined_function_recognition.

Example C22_example :
  outlined_name (lit "OUTLINED_FUNCTION_42") /\ is_outlined_function (lit "OUTLINED_FUNCTION_") = false /\
  is_outlined_function (lit "OUTLINED_FUNCTION_18446744073709551616") = false.
Proof.
  split; [|split; reflexivity]. exists [], (lit "42"). split; [reflexivity|]. split; [left; reflexivity|].
  split; [discriminate|]. split; [|reflexivity]. intros c [<-|[<-|[]]]; reflexivity.
Qed.

(** C53: version suffixes. *)
Theorem C53_version_suffix_removed :
  forall name version,
    no_double_at name -> no_double_at (lit "@" ++ version) ->
    strip_version (name ++ lit "@@" ++ version) = name.
Proof. exact strip_version_suffix. Qed.
Print Assumptions C53_version_suffix_removed.

Theorem C53_no_version_unchanged :
  forall name, no_double_at name -> strip_version name = name.
Proof. exact strip_version_none. Qed.
Print Assumptions C53_no_version_unchanged.

(** With two [@@] the middle part is what remains. *)
Theorem C53_two_suffixes_keep_the_middle :
  forall a b c, no_double_at (lit "@" ++ b) -> no_double_at (lit "@" ++ c) ->
    strip_version (a ++ lit "@@" ++ b ++ lit "@@" ++ c) = b.
Proof. exact strip_version_two_suffixes. Qed.
Print Assumptions C53_two_suffixes_keep_the_middle.

Example C53_example :
  no_double_at (lit "memcpy") /\ no_double_at (lit "@" ++ lit "GLIBC_2.14") /\
  strip_version (lit "memcpy@@GLIBC_2.14") = lit "memcpy".
Proof. repeat split; apply no_double_at_by; reflexivity. Qed.
