(** An independent reader of the dot language (https://graphviz.org/doc/info/lang.html), restricted to what
    call graphs need, and of node labels.  None of it refers to the model of the printer. *)
From Verif Require Import M_base M_stack.

Inductive token :=
| TId (s : str) | TStr (s : str) | TLBrace | TRBrace | TLBrack | TRBrack | TEq | TArrow.

Definition id_char (c : ascii) : bool := is_alnum c || Ascii.eqb c "_".
Definition white (c : ascii) : bool :=
  Ascii.eqb c " " || Ascii.eqb c "009" || Ascii.eqb c "010" || Ascii.eqb c "013".
Definition punct (c : ascii) : option token :=
  if Ascii.eqb c "{" then Some TLBrace else
  if Ascii.eqb c "}" then Some TRBrace else
  if Ascii.eqb c "[" then Some TLBrack else
  if Ascii.eqb c "]" then Some TRBrack else
  if Ascii.eqb c "=" then Some TEq else None.

(** Lexer states: outside (with the identifier read so far), after [-], in a quoted string, after a
    backslash in a quoted string. *)
Inductive lexmode := LPlain (acc : str) | LDash | LStr (acc : str) | LEsc (acc : str).

Definition flush (acc : str) : list token := match acc with [] => [] | _ => [TId acc] end.
Definition omap {A B} (f : A -> B) (o : option A) : option B :=
  match o with Some a => Some (f a) | None => None end.

(** Quoted strings: the dyad backslash quote is a quote; other dyads are kept as they are, so that a backslash
    followed by a backslash does not escape the quote behind it; backslash newline joins lines. *)
Fixpoint lex (m : lexmode) (s : str) : option (list token) :=
  match m, s with
  | LPlain acc, [] => Some (flush acc)
  | LPlain acc, c :: s' =>
    if id_char c then lex (LPlain (acc ++ [c])) s'
    else if white c then omap (app (flush acc)) (lex (LPlain []) s')
    else if Ascii.eqb c dquote then omap (app (flush acc)) (lex (LStr []) s')
    else if Ascii.eqb c "-" then omap (app (flush acc)) (lex LDash s')
    else match punct c with
         | Some t => omap (app (flush acc ++ [t])) (lex (LPlain []) s')
         | None => None
         end
  | LDash, c :: s' => if Ascii.eqb c ">" then omap (cons TArrow) (lex (LPlain []) s') else None
  | LStr acc, c :: s' =>
    if Ascii.eqb c dquote then omap (cons (TStr acc)) (lex (LPlain []) s')
    else if Ascii.eqb c backslash then lex (LEsc acc) s'
    else lex (LStr (acc ++ [c])) s'
  | LEsc acc, c :: s' =>
    if Ascii.eqb c dquote then lex (LStr (acc ++ [c])) s'
    else if Ascii.eqb c "010" then lex (LStr acc) s'
    else lex (LStr (acc ++ [backslash; c])) s'
  | _, [] => None
  end.

(** Statements; a subgraph is kept as an opening and a closing event. *)
Inductive stmt :=
| SNode (id : str) (attrs : list (str * str))
| SEdge (a b : str)
| SAttr (k v : str)
| SRef (id : str)
| SOpen (name : str)
| SClose.

Fixpoint stmts (cur : option (str * list (str * str))) (ts : list token) : option (list stmt) :=
  match cur with
  | Some (a, attrs) =>
    match ts with
    | TRBrack :: r => omap (cons (SNode a attrs)) (stmts None r)
    | TId k :: TEq :: TId v :: r => stmts (Some (a, attrs ++ [(k, v)])) r
    | TId k :: TEq :: TStr v :: r => stmts (Some (a, attrs ++ [(k, v)])) r
    | _ => None
    end
  | None =>
    match ts with
    | [] => Some []
    | TRBrace :: r => omap (cons SClose) (stmts None r)
    | TId a :: TArrow :: TId b :: r => omap (cons (SEdge a b)) (stmts None r)
    | TId k :: TEq :: TId v :: r => omap (cons (SAttr k v)) (stmts None r)
    | TId k :: TEq :: TStr v :: r => omap (cons (SAttr k v)) (stmts None r)
    | TId a :: TLBrack :: r => stmts (Some (a, [])) r
    | TId a :: TId b :: TLBrace :: r =>
      if str_eqb a (lit "subgraph") then omap (cons (SOpen b)) (stmts None r) else None
    | TId a :: r => omap (cons (SRef a)) (stmts None r)
    | _ => None
    end
  end.

(** A whole dot file. *)
Definition read_dot (text : str) : option (list stmt) :=
  match lex (LPlain []) text with
  | Some (TId d :: TLBrace :: ts) => if str_eqb d (lit "digraph") then stmts None ts else None
  | _ => None
  end.

(** Decimal numbers. *)
Definition as_num (s : str) : option N :=
  match s with
  | [] => None
  | _ => if forallb is_digit s then Some (digits_val s) else None
  end.

(** The lines of a label: the dyad backslash n (or l, r) ends a line; another escaped character stands for
    itself. *)
Fixpoint label_lines (acc : str) (esc : bool) (s : str) : list str :=
  match s with
  | [] => [acc]
  | c :: s' =>
    if esc then
      if Ascii.eqb c "n" || Ascii.eqb c "l" || Ascii.eqb c "r" then acc :: label_lines [] false s'
      else label_lines (acc ++ [c]) false s'
    else if Ascii.eqb c backslash then label_lines acc true s'
    else label_lines (acc ++ [c]) false s'
  end.

Definition read_max (s : str) : option maxv :=
  match strip_prefix (lit "max = ") s with
  | Some n => omap MExact (as_num n)
  | None => match strip_prefix (lit "max >= ") s with
            | Some n => omap MLower (as_num n)
            | None => None
            end
  end.
Definition read_local (s : str) : option local :=
  match strip_prefix (lit "local = ") s with
  | Some n => if str_eqb n (lit "?") then Some LUnknown else omap LExact (as_num n)
  | None => None
  end.

(** What a label says: name, maximum, local usage. *)
Definition read_label (s : str) : option (str * option maxv * local) :=
  match label_lines [] false s with
  | [n; l] => omap (fun l => (n, None, l)) (read_local l)
  | [n; m; l] =>
    match read_max m, read_local l with
    | Some m, Some l => Some (n, Some m, l)
    | _, _ => None
    end
  | _ => None
  end.

(** Nodes, edges and clusters of a file. *)
Fixpoint file_nodes (l : list stmt) : list (option N * option (str * option maxv * local) * bool) :=
  match l with
  | [] => []
  | SNode a ((k, v) :: rest) :: l' =>
    if str_eqb k (lit "label") then
      (as_num a, read_label v, existsb (fun kv => str_eqb (fst kv) (lit "style") && str_eqb (snd kv) (lit "dashed")) rest)
        :: file_nodes l'
    else file_nodes l'
  | _ :: l' => file_nodes l'
  end.
Fixpoint file_edges (l : list stmt) : list (option N * option N) :=
  match l with
  | [] => []
  | SEdge a b :: l' => (as_num a, as_num b) :: file_edges l'
  | _ :: l' => file_edges l'
  end.
Fixpoint file_clusters (cur : option (str * list (option N))) (l : list stmt) : list (str * list (option N)) :=
  match l with
  | [] => []
  | SOpen n :: l' => file_clusters (Some (n, [])) l'
  | SRef a :: l' => file_clusters (omap (fun c => (fst c, snd c ++ [as_num a])) cur) l'
  | SClose :: l' =>
    match cur with
    | Some c => c :: file_clusters None l'
    | None => file_clusters None l'
    end
  | _ :: l' => file_clusters cur l'
  end.

(** How the file is to be drawn: the attributes of all nodes; the attributes of each cluster. *)
Fixpoint file_defaults (l : list stmt) : list (str * str) :=
  match l with
  | [] => []
  | SNode n at_ :: l' => if str_eqb n (lit "node") then at_ ++ file_defaults l' else file_defaults l'
  | _ :: l' => file_defaults l'
  end.
Fixpoint file_styles (cur : option (str * list (str * str))) (l : list stmt) : list (str * list (str * str)) :=
  match l with
  | [] => []
  | SOpen n :: l' => file_styles (Some (n, [])) l'
  | SAttr a v :: l' => file_styles (omap (fun c => (fst c, snd c ++ [(a, v)])) cur) l'
  | SClose :: l' => match cur with Some c => c :: file_styles None l' | None => file_styles None l' end
  | _ :: l' => file_styles cur l'
  end.

Definition one_line (s : str) : Prop := ~ In "010"%char s.
Definition no_backslash (s : str) : Prop := ~ In backslash s.

(** ** The `top` format, read line by line *)
Fixpoint split_lines (acc : str) (s : str) : list str :=
  match s with
  | [] => match acc with [] => [] | _ => [acc] end
  | c :: s' => if Ascii.eqb c "010" then acc :: split_lines [] s' else split_lines (acc ++ [c]) s'
  end.

(** A quote is written with a backslash in front of it. *)
Fixpoint unquote (s : str) : str :=
  match s with
  | [] => []
  | c :: s' =>
    match s' with
    | d :: _ => if Ascii.eqb c backslash && Ascii.eqb d dquote then unquote s' else c :: unquote s'
    | [] => [c]
    end
  end.

(** The text up to the first blank and the text after it. *)
Fixpoint first_word (s : str) : option (str * str) :=
  match s with
  | [] => None
  | c :: s' => if Ascii.eqb c " " then Some ([], s') else omap (fun p => (c :: fst p, snd p)) (first_word s')
  end.

Definition read_row (line : str) : option (N * str) :=
  match first_word line with
  | Some (w, name) => omap (fun n => (n, unquote name)) (as_num w)
  | None => None
  end.

Fixpoint all_some {A} (l : list (option A)) : option (list A) :=
  match l with
  | [] => Some []
  | Some a :: l' => omap (cons a) (all_some l')
  | None :: _ => None
  end.

(** The number on the MAX line, if there is one, and the rows (usage, name). *)
Definition read_top (text : str) : option (option N * list (N * str)) :=
  match split_lines [] text with
  | first :: rest =>
    if str_eqb first (lit "Usage Function") then omap (fun rows => (None, rows)) (all_some (map read_row rest))
    else match rest with
         | header :: rest' =>
           match first_word first with
           | Some (n, w) =>
             if str_eqb w (lit "MAX") && str_eqb header (lit "Usage Function") then
               match as_num n, all_some (map read_row rest') with
               | Some n, Some rows => Some (Some n, rows)
               | _, _ => None
               end
             else None
           | None => None
           end
         | [] => None
         end
  | [] => None
  end.

(** Local usage as a number; unknown counts as 0. *)
Definition usage (nd : node) : N := match nlocal nd with LExact n => n | LUnknown => 0 end.
(** The number of a maximum; none counts as 0. *)
Definition max_number (nd : node) : N :=
  match nmax nd with Some (MExact n) | Some (MLower n) => n | None => 0 end.
