(* util/util_network_text.py:757-961 parse_network_text: reading a drawing back.
   Drawings with the ASCII glyphs; the UTF glyphs differ in the characters only. *)
From Verif Require Import Py NetModel.
From Coq Require Import Ascii.
Local Open Scope Z_scope.

(** ** Strings *)

(* Python: w in s *)
Fixpoint has (w s : string) : bool :=
  String.prefix w s || match s with EmptyString => false | String _ r => has w r end.

(* the first piece and the others; [skip] characters belong to a separator
   See Python: str.split *)
Fixpoint pieces (sep : string) (skip : nat) (s : string) : string * list string :=
  match s with
  | EmptyString => (""%string, [])
  | String c r =>
      match skip with
      | S k => pieces sep k r
      | O =>
          if String.prefix sep s
          then let '(p, l) := pieces sep (String.length sep - 1) r in (""%string, p :: l)
          else let '(p, l) := pieces sep 0 r in (String c p, l)
      end
  end.
(* Python: s.split(sep) *)
Definition split_at (sep s : string) : list string := let '(p, l) := pieces sep 0 s in p :: l.

(* Python: s.rsplit(' ', 1); None when there is no blank *)
Fixpoint rsplit_blank (s : string) : option (string * string) :=
  match s with
  | EmptyString => None
  | String c r =>
      match rsplit_blank r with
      | Some (a, b) => Some (String c a, b)
      | None => if Ascii.eqb c " " then Some (""%string, r) else None
      end
  end.
(* Python: s.strip() *)
Definition strip (s : string) : string := rstrip (lstrip s).

(** ** Guessing the kind of graph (782-858) *)

(* util_network_text.py:18-24 as_dict().values() *)
Definition glyph_items (gl : glyphs) : list string :=
  [gl_empty gl; gl_newtree_last gl; gl_newtree_mid gl; gl_endof_forest gl; gl_within_forest gl;
   gl_within_tree gl; gl_last gl; gl_mid gl; gl_backedge gl; gl_vertical gl].

(* util_network_text.py:825-839: glyphs that are not part of a glyph of the other kind *)
Definition unambiguous (mine other : list string) : list string :=
  filter (fun i => negb (existsb (has i) other)) mine.

(* util_network_text.py:841-852 *)
Fixpoint guess (undirected directed : list string) (lines : list string) : bool :=
  match lines with
  | [] => false
  | l :: r =>
      if existsb (fun i => has i l) undirected then false
      else if existsb (fun i => has i l) directed then true
      else guess undirected directed r
  end.

(** ** Parsing (866-961) *)

(* util_network_text.py:780-783 ParseStackFrame; None is the sentinel noparent *)
Record pframe := PF { pf_node : option string; pf_indent : Z; pf_vertical : bool }.

(* util_network_text.py:932-933: the while loop; popping an empty list raises IndexError *)
Fixpoint pop_to (i : Z) (prev : pframe) (stack : list pframe) : result (pframe * list pframe) :=
  if i <=? pf_indent prev then
    match stack with [] => Err IndexError | p :: s => pop_to i p s end
  else Ok (prev, stack).

(* util_network_text.py:887-901: what stands before the node, the node, and the
   nodes named on its right *)
Definition scan (gl : glyphs) (line : string) : result (string * string * list string) :=
  let symbol := (" " ++ gl_backedge gl ++ " ")%string in
  if has symbol line then
    match split_at symbol line with
    | [a; b] =>
        match rsplit_blank (rstrip a) with
        | Some (p, n) => Ok (p, strip n, map strip (split_at ", " b))
        | None => Err ValueError
        end
    | _ => Err ValueError
    end
  else match rsplit_blank line with
       | Some (p, n) => Ok (p, strip n, [])
       | None => Err ValueError
       end.

(* util_network_text.py:880-951: one line, giving the new stack (top first), the
   nodes and the edges it adds *)
Definition parse_line (gl : glyphs) (stack : list pframe) (line : string)
  : result (list pframe * list string * list (string * string)) :=
  if String.eqb line (gl_empty gl) then Ok (stack, [], [])
  else
    '(prefix, node, back) <- scan gl line ;;
    let edges := map (fun u => (u, node)) back in
    match stack with
    | [] => Err IndexError
    | prev :: stack =>
        if has node (gl_vertical gl) then
          Ok (PF (pf_node prev) (pf_indent prev) true :: stack, [], edges)
        else
          let indent := Z.of_nat (String.length prefix) in
          '(prev, stack) <- (if pf_vertical prev then Ok (prev, stack) else pop_to indent prev stack) ;;
          if String.eqb node "..." then Ok (prev :: stack, [], edges)
          else Ok (PF (Some node) indent false :: prev :: stack, [node],
                   (edges ++ match pf_node prev with Some p => [(p, node)] | None => [] end)%list)
    end.

(* util_network_text.py:880-951: all lines *)
Fixpoint parse_lines (gl : glyphs) (stack : list pframe) (lines : list string)
  : result (list string * list (string * string)) :=
  match lines with
  | [] => Ok ([], [])
  | l :: r =>
      '(stack, ns, es) <- parse_line gl stack l ;;
      '(ns', es') <- parse_lines gl stack r ;;
      Ok ((ns ++ ns')%list, (es ++ es')%list)
  end.

(* util_network_text.py:757-961 parse_network_text: whether the graph is directed,
   its nodes, and its edges.  networkx keeps the nodes and edges as sets and adds
   the ends of edges to the nodes. *)
Definition parse (lines : list string) : result (bool * list string * list (string * string)) :=
  match lines with
  | [] => Ok (false, [], [])
  | EmptyString :: _ => Err IndexError
  | (String c _ :: rest) as lines =>
      if negb (Ascii.eqb c "+") then Err AssertionError
      else
        let d := glyph_items ascii_directed in
        let u := glyph_items ascii_undirected in
        let directed := guess (unambiguous u d) (unambiguous d u) rest in
        let gl := if directed then ascii_directed else ascii_undirected in
        '(ns, es) <- parse_lines gl [PF None (-1) false] lines ;;
        if existsb (String.eqb (gl_empty gl)) lines && negb (match ns with [] => true | _ => false end)
        then Err AssertionError
        else Ok (directed, ns, es)
  end.

(* the text of a line; see util_network_text.py:401-405, yield *)
Definition line_text {N} (l : line N) : string := match l with Text s => s | Row _ _ _ s => s end.
