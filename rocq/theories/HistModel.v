(* The metadata of image objects over a history of API calls: constructors, assignments
   to .channels, prepare() (delayed_nodes.py:714-784, 1205-1302; delayed_leafs.py:137-303,
   385-387, 512-518).  Objects live in a heap and are shared; definitions only.
   Kept per object: names, number of channels and size.  Sizes of crops, warps and
   overviews are computed in GraphModel.v and are arguments here. *)
From Verif Require Export Py ChanModel ChanSpec LazyModel.
Local Open Scope Z_scope.

(* delayed_nodes.py:1205-1230, 714-743: what an object is made of.  KView stands for the
   warps, crops, dequantizations, overviews and xarray casts of one image. *)
Inductive okind :=
| KLoad (src : source) | KArray | KNans
| KView (sub : nat)
| KConcat (parts : list nat).

(* delayed_nodes.py:1205-1230 meta; of a concatenation, the attributes set by 729-743 *)
Record obj := mkO {
  o_kind : okind;
  o_names : option fused;
  o_num : option Z;
  o_size : option (option Z * option Z);
  o_overviews : option Z
}.

(* the objects created so far, newest first; object i is the i-th created *)
Definition heap := list obj.

(* delayed_nodes.py:1278-1288 and 755-769 channels *)
Fixpoint channels (h : heap) (i : nat) : option fused :=
  match h with
  | [] => None
  | o :: h' =>
      if Nat.eqb i (List.length h') then
        match o_kind o with
        | KConcat parts =>
            (fix go ps := match ps with
             | [] => Some (fconcat [])
             | p :: ps' => match channels h' p, go ps' with
                           | Some f, Some r => Some (fconcat [f; r])
                           | _, _ => None
                           end
             end) parts
        | KView s => match o_names o with Some f => Some f | None => channels h' s end
        | _ => o_names o
        end
      else channels h' i
  end.

(* delayed_nodes.py:1255-1264; the attribute of a concatenation is not recomputed *)
Fixpoint num_channels (h : heap) (i : nat) : option Z :=
  match h with
  | [] => None
  | o :: h' =>
      if Nat.eqb i (List.length h') then
        match o_kind o, o_num o with
        | KView s, None => num_channels h' s
        | _, n => n
        end
      else num_channels h' i
  end.

(* delayed_nodes.py:1266-1276 *)
Fixpoint size_of (h : heap) (i : nat) : option (option Z * option Z) :=
  match h with
  | [] => None
  | o :: h' =>
      if Nat.eqb i (List.length h') then
        match o_kind o, o_size o with
        | KView s, None => size_of h' s
        | _, d => d
        end
      else size_of h' i
  end.

(* delayed_nodes.py:1217-1228 and 1290-1302: names and count for a channels argument.  A
   bool is an int.  FusedChannelSpec.coerce is called with an empty cache. *)
Definition set_meta (d : option cdata) : result (option fused * option Z) :=
  match d with
  | None => Ok (None, None)
  | Some (DInt z) => Ok (None, Some z)
  | Some (DBool b) => Ok (None, Some (if b then 1 else 0))
  | Some d =>
      f <- coerce_fresh d ;;
      nf <- normalize f ;;
      n <- numel nf ;;
      Ok (Some f, Some n)
  end.

(* delayed_nodes.py:728-743: the parts' sizes must be equal, unless a size is given *)
Definition size_eqb (a b : option (option Z * option Z)) : bool :=
  let oeqb x y := match x, y with Some x, Some y => Z.eqb x y | None, None => true | _, _ => false end in
  match a, b with
  | None, None => true
  | Some (a1, a2), Some (b1, b2) => oeqb a1 b1 && oeqb a2 b2
  | _, _ => false
  end.
(* delayed_nodes.py:728-737 *)
Definition common_size (l : list (option (option Z * option Z))) : result (option (option Z * option Z)) :=
  match l with
  | [] => Ok None
  | d :: l' => if forallb (size_eqb d) l' then Ok d else Err ValueError
  end.
(* delayed_nodes.py:738-743 *)
Fixpoint sum_num (l : list (option Z)) : option Z :=
  match l with
  | [] => Some 0
  | n :: l' => match n, sum_num l' with Some n, Some s => Some (n + s) | _, _ => None end
  end.

(* the calls of a history *)
Inductive hop :=
| HLoad (src : source) (ch : option cdata) (d : option (option Z * option Z))
| HArray (height width bands : Z) (ch : option cdata)
| HNans (d : option (option Z * option Z)) (ch : option cdata)
| HWarp (i : nat) (auto : bool) (w h : Z)
| HCrop (i : nat) (ci : option (list Z)) (w h : Z)
| HOverview (i : nat) (w h : Z)
| HDequant (i : nat)
| HXarray (i : nat)
| HConcat (ps : list nat) (d : option (option Z * option Z))
| HSet (i : nat) (ch : option cdata)
| HPrepare (i : nat).

(* the objects below i, i included; see delayed_base.py:368-389 *)
Fixpoint below (h : heap) (i : nat) : list nat :=
  match h with
  | [] => []
  | o :: h' =>
      if Nat.eqb i (List.length h') then
        i :: match o_kind o with
             | KView s => below h' s
             | KConcat ps => List.concat (map (below h') ps)
             | _ => []
             end
      else below h' i
  end.

(* assignment to the fields of the objects selected by p *)
Fixpoint update (p : nat -> bool) (g : obj -> obj) (h : heap) : heap :=
  match h with
  | [] => []
  | o :: h' => (if p (List.length h') then g o else o) :: update p g h'
  end.

(* delayed_leafs.py:253-303: only loads have metadata to fetch *)
Definition prepare_obj (o : obj) : obj :=
  match o_kind o with
  | KLoad src =>
      let m := load_metadata src (mkM (o_size o) (o_num o) (o_overviews o)) in
      mkO (o_kind o) (o_names o) (m_channels m) (m_dsize m) (m_overviews m)
  | _ => o
  end.

(* an object of the heap *)
Definition get_obj (h : heap) (i : nat) : option obj := nth_error (rev h) i.

(* One call; an exception leaves the heap as it is.  An object id that does not exist is
   no possible call and is reported as OtherError. *)
Definition hstep (h : heap) (op : hop) : result heap :=
  let ok i := Nat.ltb i (List.length h) in
  let need (b : bool) (e : exn) (r : result heap) := if b then r else Err e in
  match op with
  | HLoad src ch d =>                                     (* delayed_leafs.py:137-167 *)
      '(f, n) <- set_meta ch ;; Ok (mkO (KLoad src) f n d None :: h)
  | HArray hh ww b ch =>                                  (* delayed_leafs.py:512-518 *)
      '(f, _) <- set_meta ch ;; Ok (mkO KArray f (Some b) (Some (Some ww, Some hh)) None :: h)
  | HNans d ch =>                                         (* delayed_leafs.py:385-387 *)
      '(f, n) <- set_meta ch ;; Ok (mkO KNans f n d None :: h)
  | HWarp i auto w hh =>                                  (* delayed_nodes.py:1700-1744 *)
      need (ok i) OtherError (need (negb auto || full_size (size_of h i)) TypeError
        (Ok (mkO (KView i) None None (Some (Some w, Some hh)) None :: h)))
  | HCrop i ci w hh =>                                    (* delayed_nodes.py:2668-2715 *)
      need (ok i) OtherError (need (full_size (size_of h i)) AssertionError
        (fn <- match ci with
               | None => Ok (None, None)
               | Some l =>
                   match channels h i with
                   | Some f => g <- ChanModel.getitem f (ChanModel.IList l) ;;
                               match g with GSpec g => set_meta (Some (DFused g)) | GCode _ => Err OtherError end
                   | None => set_meta (Some (DInt (Z.of_nat (List.length l))))
                   end
               end ;;
         Ok (mkO (KView i) (fst fn) (snd fn) (Some (Some w, Some hh)) None :: h)))
  | HOverview i w hh =>                                   (* delayed_nodes.py:3097-3120 *)
      need (ok i) OtherError (need (full_size (size_of h i)) AssertionError
        (Ok (mkO (KView i) None None (Some (Some w, Some hh)) None :: h)))
  | HDequant i =>                                         (* delayed_nodes.py:2545-2556 *)
      need (ok i) OtherError (Ok (mkO (KView i) None None (size_of h i) None :: h))
  | HXarray i =>                                          (* delayed_nodes.py:603-608 *)
      need (ok i) OtherError (Ok (mkO (KView i) None None None None :: h))
  | HConcat ps d =>                                       (* delayed_nodes.py:714-743 *)
      need (forallb ok ps) OtherError
        (d' <- match d with Some d => Ok (Some d) | None => common_size (map (size_of h) ps) end ;;
         Ok (mkO (KConcat ps) None (sum_num (map (num_channels h) ps)) d' None :: h))
  | HSet i ch =>                                          (* delayed_nodes.py:1290-1302 *)
      match get_obj h i with
      | None => Err OtherError
      | Some (mkO (KConcat _) _ _ _ _) => Err AttributeError   (* 755: a property without setter *)
      | Some _ =>
          '(f, n) <- set_meta ch ;;
          Ok (update (Nat.eqb i) (fun o => mkO (o_kind o) f n (o_size o) (o_overviews o)) h)
      end
  | HPrepare i =>                                         (* delayed_base.py:376-389, delayed_leafs.py:253-263 *)
      need (ok i) OtherError (Ok (update (fun j => existsb (Nat.eqb j) (below h i)) prepare_obj h))
  end.

(* the heap after a history; calls that raise change nothing *)
Definition hnext (h : heap) (op : hop) : heap := match hstep h op with Ok h' => h' | Err _ => h end.
Definition after (ops : list hop) : heap := fold_left hnext ops [].

(* delayed_nodes.py:1641-1656 DelayedAsXarray._finalize of an image whose array has the
   given number of bands (None: a two-dimensional array): the labels of the bands.  The
   labels are the codes as written; xarray rejects a wrong number of labels or axes. *)
Definition xarray_labels (h : heap) (i : nat) (bands : option Z) : result (option (list string)) :=
  match channels h i with
  | Some f =>
      let n := match bands with Some n => n | None => 1 end in
      if Z.of_nat (List.length (codes f)) =? n then Ok (Some (codes f)) else Err ValueError
  | None => match bands with Some _ => Ok None | None => Err ValueError end
  end.
