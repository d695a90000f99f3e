(* take_channels with a list that may hold None (delayed_nodes.py). *)
From Verif Require Import Py GeomModel GraphModel TakeModel.
Local Open Scope Z_scope.

(* delayed_nodes.py:3437-3460 get_subcomponent for a request without codes: the bands
   no part has become missing data without channels, whose number is not kept.  The
   concatenation has a known size (see TakeModel.run_component). *)
Definition list_component (parts : list (node * (list Z -> result node))) (d : option size)
  (r : band_run) : result node :=
  match fst r with
  | Some p => sub_component parts (p, map fst (snd r))
  | None =>
      match d with
      | None => Err TypeError
      | Some d => Ok (Leaf (MkLeaf 0 Nans d None None None))
      end
  end.

(* take_channels(list): delayed_nodes.py:915-1009 for a concatenation, 1403-1404 and
   1434 for an image, where int(None) raises.  The policy is not used by images.  A
   list has no codes; the empty string stands for them. *)
Definition take_list (t : node) (p : policy) (l : list (option Z)) : result node :=
  match t with
  | Concat ps d =>
      match names t with
      | None => Err AssertionError                                    (* delayed_nodes.py:920 *)
      | Some _ =>
          match p with
          | ErrorP => Err AssertionError                              (* delayed_nodes.py:944 *)
          | OtherP => Err KeyError
          | ReturnNan =>
              match known_all (map num_channels ps) with
              | None => Err TypeError
              | Some sizes =>
                  wh <- mapR (locate sizes) (map (fun o => (o, ""%string)) l) ;;
                  comps <- mapR (list_component (map (fun q => (q, take_idx q)) ps) d) (runs wh) ;;
                  match mkConcat comps with Some c => Ok c | None => Err ValueError end
              end
          end
      end
  | _ => match all_some l with
         | None => Err TypeError
         | Some idxs => mkCrop t None (Some idxs)
         end
  end.
