(* util/util_network_text.py: text drawings of graphs. *)
From Verif Require Import Py.
Local Open Scope Z_scope.

(* util_network_text.py:17-73; the glyphs of one drawing style *)
Record glyphs := mkGlyphs {
  gl_empty : string; gl_newtree_last : string; gl_newtree_mid : string;
  gl_endof_forest : string; gl_within_forest : string; gl_within_tree : string;
  gl_last : string; gl_mid : string; gl_backedge : string; gl_vertical : string
}.
(* util_network_text.py:27-47; the utf glyphs (50-73) only differ in the characters *)
Definition ascii_directed : glyphs :=
  (mkGlyphs "+" "+-- " "+-- " "    " ":   " "|   " "L-> " "|-> " "<-" "!")%string.
(* util_network_text.py:27-47 *)
Definition ascii_undirected : glyphs :=
  (mkGlyphs "+" "+-- " "+-- " "    " ":   " "|   " "L-- " "|-- " "-" "|")%string.

Section Net.
Context {N : Type} (eqb : N -> N -> bool).

(* a networkx graph: nodes in order, adjacency (succ and pred coincide for an
   undirected graph), the label shown for a node (its label attribute or str) and
   whether its collapse attribute is set; see networkx.Graph / DiGraph *)
Record net := mkNet {
  nt_nodes : list N; nt_directed : bool;
  nt_succ : N -> list N; nt_pred : N -> list N;
  nt_label : N -> string; nt_collapse : N -> bool
}.
(* what a frame shows; see util_network_text.py:219-224 *)
Inductive item := Node (n : N) | Ell.
(* util_network_text.py:219-224 *)
Record frame := mkFr { fr_parent : option N; fr_item : item; fr_indents : list string; fr_last : bool; fr_vertical : bool }.
(* an output line: text only (a vertical edge or an empty drawing), or the row of
   an item with its parent in the drawing and the other parents on its right
   See util_network_text.py:401-426 *)
Inductive line := Text (s : string) | Row (i : item) (parent : option N) (others : list N) (s : string).

(* Python: in *)
Definition memb (n : N) (l : list N) : bool := existsb (fun m => eqb n m) l.
(* Python: == *)
Definition oeqb (a b : option N) : bool :=
  match a, b with Some x, Some y => eqb x y | None, None => true | _, _ => false end.
(* Python: in *)
Definition omemb (a : option N) (l : list (option N)) : bool := existsb (oeqb a) l.

(* Python: == *)
Definition item_eqb (a b : item) : bool :=
  match a, b with Node x, Node y => eqb x y | Ell, Ell => true | _, _ => false end.
(* len(set(items)); see Python: len(set(l)) *)
Fixpoint set_size (l : list item) : Z :=
  match l with
  | [] => 0
  | i :: l' => (if existsb (item_eqb i) l' then 0 else 1) + set_size l'
  end.

Section Draw.
Context (g : net) (gl : glyphs) (max_depth : option Z) (vertical_chains : bool).

(* util_network_text.py:303-325: prefix of the line, prefix of the lines below, vertical *)
Definition prefixes (f : frame) : list string * list string * bool :=
  match fr_indents f with
  | [] =>
      if fr_last f then ([gl_newtree_last gl], [gl_endof_forest gl], false)
      else ([gl_newtree_mid gl], [gl_within_forest gl], fr_vertical f)
  | ind =>
      if fr_vertical f then (ind, ind, true)
      else if fr_last f then ((ind ++ [gl_last gl])%list, (ind ++ [gl_endof_forest gl])%list, false)
      else ((ind ++ [gl_mid gl])%list, (ind ++ [gl_within_tree gl])%list, false)
  end.

(* util_network_text.py:366 *)
Definition at_depth (f : frame) : bool :=
  match max_depth with None => false | Some d => Z.of_nat (List.length (fr_indents f)) =? d - 1 end.
(* util_network_text.py:340-382: children to draw and other parents of a node *)
Definition expand (f : frame) (n : N) (seen : list N) : list item * list N :=
  let children := if nt_directed g then nt_succ g n
                  else filter (fun c => negb (memb c seen)) (nt_succ g n) in
  let handled := if nt_directed g then [] else children in
  let cut := at_depth f || nt_collapse g n in
  let items := if cut then match children with [] => [] | _ => [Ell] end else map Node children in
  let handled := if cut then [] else handled in
  (items, filter (fun p => negb (memb p handled) && negb (oeqb (Some p) (fr_parent f))) (nt_pred g n)).
(* util_network_text.py:383-399 *)
Definition suffix (others : list N) : string :=
  match others with
  | [] => ""%string
  | _ => (" " ++ gl_backedge gl ++ " " ++ String.concat ", " (map (nt_label g) others))%string
  end.

(* util_network_text.py:327-330, 401-426: the lines of a frame and its children; [seen] includes the node *)
Definition draw (f : frame) (seen : list N) : list line * list frame :=
  let '(this, next, vert) := prefixes f in
  let '(children, others, text) :=
    match fr_item f with
    | Ell => ([], [], " ..."%string)
    | Node n => let '(children, others) := expand f n seen in
                (children, others, (nt_label g n ++ suffix others)%string)
    end in
  let rest := match nt_directed g, fr_parent f with
              | false, Some p => filter (fun i => negb (item_eqb i (Node p))) children
              | _, _ => children
              end in
  let nextv := vertical_chains && (set_size rest =? 1) in
  let n_children := List.length children in
  (((if vert then [Text (String.concat "" this ++ gl_vertical gl)%string] else [])
     ++ [Row (fr_item f) (fr_parent f) others (String.concat "" this ++ text)%string])%list,
   map (fun ic => mkFr (match fr_item f with Node n => Some n | Ell => None end) (snd ic) next
                       (Nat.eqb (S (fst ic)) n_children) nextv)
       (combine (seq 0 n_children) children)).

(* util_network_text.py:270-426: the loop; the top of the stack is the head of the list.
   [skipped] lists the parents with a skipped child. *)
Fixpoint loop (fuel : nat) (stack : list frame) (skipped : list (option N)) (seen : list N) : result (list line) :=
  match stack with
  | [] => Ok []
  | f :: stack' =>
      match fuel with
      | O => Err OutOfFuel
      | S fuel' =>
          match fr_item f with
          | Ell =>
              let '(ls, fs) := draw f seen in
              r <- loop fuel' (fs ++ stack') skipped seen ;; Ok (ls ++ r)%list
          | Node n =>
              let skip := memb n seen in
              let skipped := if skip then fr_parent f :: skipped else skipped in
              if fr_last f && omemb (fr_parent f) skipped && match fr_parent f with None => false | _ => true end then
                loop fuel' (mkFr (fr_parent f) (Node n) (fr_indents f) false (fr_vertical f)
                            :: mkFr (Some n) Ell (fr_indents f) true false :: stack') skipped seen
              else if skip then loop fuel' stack' skipped seen
              else
                let '(ls, fs) := draw f (n :: seen) in
                r <- loop fuel' (fs ++ stack') skipped (n :: seen) ;; Ok (ls ++ r)%list
          end
      end
  end.
End Draw.

(* steps the loop may need; see fuel of util_network_text.py:270-426 *)
Definition budget (g : net) (sources : list N) : nat :=
  4 * list_sum (map (fun n => List.length (nt_succ g n)) (nt_nodes g)) + 4 * List.length sources.

(* util_network_text.py:262-266 *)
Definition roots (sources : list N) : list frame :=
  map (fun ic => mkFr None (Node (snd ic)) [] (Nat.eqb (S (fst ic)) (List.length sources)) false)
      (combine (seq 0 (List.length sources)) sources).

(* util_network_text.py:76-426 generate_network_text, with explicit sources *)
Definition generate (g : net) (gl : glyphs) (max_depth : option Z) (vertical_chains : bool) (sources : list N) : result (list line) :=
  match max_depth with
  | Some 0 => Ok [Text (gl_empty gl ++ " ...")%string]
  | _ =>
      match nt_nodes g with
      | [] => Ok [Text (gl_empty gl)]
      | _ => loop g gl max_depth vertical_chains (budget g sources) (roots sources) [] []
      end
  end.

(** ** _find_sources (617-651) *)

(* the first of the smallest: min(l, key=k)
   See Python: min(l, key=k), util_network_text.py:623-643 *)
Fixpoint min_by (k : N -> Z) (best : N) (l : list N) : N :=
  match l with
  | [] => best
  | n :: l' => if k n <? k best then min_by k n l' else min_by k best l'
  end.

(* directed (623-643): [comps] are the strongly connected components numbered by
   networkx.condensation and [comp] its mapping of nodes to numbers; a component
   has in-degree 0 in the condensation when no edge enters it from another one
   See util_network_text.py:623-643 *)
Definition entered (g : net) (comp : N -> nat) (c : nat) : bool :=
  existsb (fun u => existsb (fun v => Nat.eqb (comp v) c && negb (Nat.eqb (comp u) c)) (nt_succ g u)) (nt_nodes g).
(* util_network_text.py:600-643 _find_sources *)
Definition find_sources (g : net) (comp : N -> nat) (comps : nat) : list N :=
  flat_map (fun c =>
    if entered g comp c then []
    else match filter (fun n => Nat.eqb (comp n) c) (nt_nodes g) with
         | [] => []
         | n :: l => [min_by (fun n => Z.of_nat (List.length (nt_pred g n))) n l]
         end) (seq 0 comps).

(* sorted(l, key=k): insertion sort is stable, as Python's sort
   See Python: sorted, util_network_text.py:645-650 *)
Fixpoint insert_by (k : N -> Z) (n : N) (l : list N) : list N :=
  match l with
  | [] => [n]
  | m :: l' => if k n <=? k m then n :: l else m :: insert_by k n l'
  end.
(* Python: sorted, util_network_text.py:645-650 *)
Definition sort_by (k : N -> Z) (l : list N) : list N := fold_right (insert_by k) [] l.
(* undirected (645-650): [ccs] are networkx.connected_components; a self loop
   counts twice in a degree; see networkx degree, util_network_text.py:645-650 *)
Definition degree (g : net) (n : N) : Z :=
  Z.of_nat (List.length (nt_succ g n)) + (if memb n (nt_succ g n) then 1 else 0).
(* util_network_text.py:645-650 _find_sources *)
Definition find_sources_undirected (g : net) (ccs : list (list N)) : list N :=
  sort_by (degree g)
    (flat_map (fun cc => match cc with [] => [] | n :: l => [min_by (degree g) n l] end) ccs).
End Net.
Arguments net : clear implicits.
Arguments item : clear implicits.
Arguments frame : clear implicits.
Arguments line : clear implicits.
Arguments Ell {N}.
