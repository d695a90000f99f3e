(* delayed_base.py: the description of an image by nesting() and the labels of
   as_graph().  Definitions only. *)
From Verif Require Export Py ChanModel TreeModel.
Local Open Scope Z_scope.

Section Nest.
Context {T C A : Type}.
Context (tconcise : T -> C).              (* kwimage transform.concise(), never raises *)
Context (basename : string -> string).    (* ubelt.Path(...).name *)

(* delayed_base.py:102-113: values of a meta dictionary.  A transform, a channel spec,
   text, a dictionary (a concise transform), None or something without the methods used. *)
Inductive mval := MNone | MTransform (t : T) | MChannels (f : fused) | MText (s : string) | MDict (c : C) | MOther (a : A).
(* delayed_base.py:102 self.meta *)
Definition mdict := list (string * mval).

(* delayed_base.py:104-107: the try block of the transform *)
Definition show_transform (m : mdict) : mdict :=
  match dict_get "transform" m with
  | Some (MTransform t) => dict_set "transform" (MDict (tconcise t)) m
  | _ => m                                       (* KeyError or AttributeError *)
  end.
(* delayed_base.py:108-111: the try block of the channels; only the two exceptions are
   caught *)
Definition show_channels (m : mdict) : result mdict :=
  match dict_get "channels" m with
  | Some (MChannels f) =>
      match concise f with
      | Ok g => Ok (dict_set "channels" (MText (fspec g)) m)
      | Err AttributeError | Err KeyError => Ok m
      | Err e => Err e
      end
  | _ => Ok m
  end.

(* delayed_base.py:112-120; the key children is present unless the list is empty *)
Inductive item := Item (type : string) (meta : mdict) (kids : list item).

(* delayed_base.py:87-121 nesting *)
Fixpoint nesting (st : nat -> mdict) (t : tree) : result item :=
  let l := label_of t in
  meta <- show_channels (show_transform (st (n_meta l))) ;;
  kids <- match t with
          | TUnary _ None => Ok []
          | TUnary _ (Some c) => i <- nesting st c ;; Ok [i]
          | TNary _ ps =>
              (fix all ps := match ps with
                             | [] => Ok []
                             | c :: cs => i <- nesting st c ;; is <- all cs ;; Ok (i :: is)
                             end) ps
          end ;;
  Ok (Item (n_class l) meta kids).

(* delayed_base.py:296: settings that are None are not shown *)
Definition settings (m : mdict) : mdict :=
  filter (fun kv => match snd kv with MNone => false | _ => true end) m.
(* delayed_base.py:146, 148-152, 154: dict.pop(key, None) *)
Definition drop (k : string) (m : mdict) : mdict := filter (fun kv => negb (String.eqb (fst kv) k)) m.

(* delayed_base.py:140-154: what as_graph shows of the settings of a node; [auto] is
   fields == 'auto'.  C also stands for a concise transform without its type. *)
Definition graph_meta (auto : bool) (m : mdict) : result mdict :=
  let m := settings m in
  m <- match dict_get "transform" m with
       | None => Ok m
       | Some (MTransform t) => Ok (dict_set "transform" (MDict (tconcise t)) m)
       | Some _ => Err AttributeError
       end ;;
  m <- match dict_get "channels" m with
       | None => Ok m
       | Some (MChannels f) => Ok (drop "num_channels" (dict_set "channels" (MText (fspec f)) m))
       | Some _ => Err AttributeError
       end ;;
  let m := if auto then drop "noop_eps" (drop "interpolation" (drop "antialias" (drop "border_value" (drop "jagged" m)))) else m in
  match dict_get "fpath" m with
  | None => Ok m
  | Some (MText s) => Ok (dict_set "fname" (MText (basename s)) (drop "fpath" m))
  | Some _ => Err TypeError
  end.

(* delayed_base.py:123-160 as_graph: the name of the class without Delayed, and the
   settings, of every node of the graph; formatting the settings is not modelled *)
Definition as_graph (auto : bool) (short : string -> string) (st : nat -> mdict) (t : tree)
  : result (list (string * (string * mdict)) * list (string * string)) :=
  g <- traversed_graph t ;;
  ns <- mapR (fun kn => m <- graph_meta auto (st (n_meta (label_of (snd kn)))) ;;
                        Ok (fst kn, (short (n_class (label_of (snd kn))), m))) (gr_nodes g) ;;
  Ok (ns, gr_edges g).
End Nest.
Arguments mval : clear implicits.
Arguments mdict : clear implicits.
Arguments item : clear implicits.
