(* optimize() on objects (delayed_nodes.py, delayed_leafs.py, delayed_base.py).
   GraphModel.v treats a graph as a tree of values.  Here nodes are objects: they
   have an identity, two parents may hold the same child, copies made by
   copy.copy share their meta dict, one memo table per optimize() call is keyed
   by identity, and one rewrite writes into meta dicts. *)
From Verif Require Import Py GeomModel GraphModel.
Local Open Scope Q_scope.

(** ** Objects *)

(* delayed_base.py:47-60.  [i] is the identity of the object and [m] that of its
   meta dict.  Keys of a meta dict that are never written after construction are
   stored in the object; 'dsize' is the one key that is written later
   (delayed_nodes.py:2381, 2390, 2403), it is kept in the store under [m].  A
   concatenation keeps its size as an attribute (733).  Assignments to the
   attribute subdata (2101, 2132, 2322, 2326, 2378, 2387, 2598, 2622, 2766, 3053,
   3176, 3304) only concern objects made by the same call which nobody else
   holds yet; they are modelled by building the object with its final child. *)
Inductive obj :=
| OLeaf (i : nat) (l : leaf)
| OConcat (i : nat) (parts : list obj) (dsize : option size)
| OCrop (i m : nat) (sub : obj) (ys xs : ival) (ci : option (list Z))
        (names : option (list string)) (nc : option Z)
| OWarp (i m : nat) (sub : obj) (M : affine) (al : algo)
| ODequant (i m : nat) (sub : obj) (q : option Z)
| OOverview (i m : nat) (sub : obj) (k : Z).

(* Python: id(object) *)
Definition oid (x : obj) : nat :=
  match x with
  | OLeaf i _ | OConcat i _ _ | OCrop i _ _ _ _ _ _ _ | OWarp i _ _ _ _
  | ODequant i _ _ _ | OOverview i _ _ _ => i
  end.

(* meta['dsize'] of every dict; see delayed_base.py:58-60, the meta dicts *)
Definition dicts := nat -> option size.
(* delayed_base.py:58-60 *)
Definition known (d : option size) : size := match d with Some d => d | None => (0, 0)%Z end.

(* the tree an object stands for at a moment; see delayed_base.py:47-60 *)
Fixpoint view (D : dicts) (x : obj) : node :=
  match x with
  | OLeaf _ l => Leaf l
  | OConcat _ ps d => Concat (map (view D) ps) d
  | OCrop _ m s ys xs ci nm nc => Crop (view D s) ys xs ci (known (D m)) nm nc
  | OWarp _ m s M al => Warp (view D s) M (known (D m)) al
  | ODequant _ m s q => Dequant (view D s) q (D m)
  | OOverview _ m s k => Overview (view D s) k (known (D m))
  end.

(* the next unused identity, the meta dicts, and the memo table of the current
   OptimizeContext (delayed_base.py:31-42) *)
Record store := Store { next : nat; sizes : dicts; memo : list (nat * obj) }.

(** ** Programs over the store *)

(* programs that read and write objects *)
Definition act (A : Type) := store -> result (A * store).
(* programs that read and write objects *)
Definition ret {A} (a : A) : act A := fun s => Ok (a, s).
(* programs that read and write objects *)
Definition raise {A} (e : exn) : act A := fun _ => Err e.
(* programs that read and write objects *)
Definition lift {A} (r : result A) : act A := fun s => rmap (fun a => (a, s)) r.
(* programs that read and write objects *)
Definition andthen {A B} (c : act A) (k : A -> act B) : act B :=
  fun s => match c s with Ok (a, s') => k a s' | Err e => Err e end.
Notation "x <~ c ;; k" := (andthen c (fun x => k)) (at level 61, c at next level, right associativity).
(* programs that read and write objects *)
Fixpoint mapA {A B} (f : A -> act B) (l : list A) : act (list B) :=
  match l with
  | [] => ret []
  | a :: r => b <~ f a ;; bs <~ mapA f r ;; ret (b :: bs)
  end.

(* read something of the tree an object stands for *)
Definition look {A} (f : node -> A) (x : obj) : act A := fun s => Ok (f (view (sizes s) x), s).
(* programs that read and write objects *)
Definition tryf {A} (f : node -> result A) (x : obj) : act A :=
  fun s => rmap (fun a => (a, s)) (f (view (sizes s) x)).
(* programs that read and write objects *)
Definition looks (xs : list obj) : act (list node) := fun s => Ok (map (view (sizes s)) xs, s).
(* Python: meta['dsize'] *)
Definition dict (m : nat) : act (option size) := fun s => Ok (sizes s m, s).

(* Python: dict assignment *)
Definition upd (D : dicts) (m : nat) (d : option size) : dicts :=
  fun m' => if Nat.eqb m' m then d else D m'.

(* meta['dsize'] = d; see Python: meta['dsize'] = d *)
Definition write (m : nat) (d : option size) : act unit :=
  fun s => Ok (tt, Store (next s) (upd (sizes s) m d) (memo s)).

(* a new object with its own meta dict; a new object without one or with the dict
   of another object (copy.copy); see Python: object construction *)
Definition alloc (f : nat -> nat -> obj) (d : option size) : act obj :=
  fun s => Ok (f (next s) (S (next s)),
               Store (S (S (next s))) (upd (sizes s) (S (next s)) d) (memo s)).
(* Python: copy.copy *)
Definition clone (f : nat -> obj) : act obj :=
  fun s => Ok (f (next s), Store (S (next s)) (sizes s) (memo s)).

(* the memo table: `self in memo`, memo[self], memo[self] = new
   See delayed_base.py:31-45 OptimizeContext *)
Fixpoint memo_get (l : list (nat * obj)) (i : nat) : option obj :=
  match l with
  | [] => None
  | (j, y) :: r => if Nat.eqb j i then Some y else memo_get r i
  end.
(* delayed_base.py:31-45 OptimizeContext *)
Definition remember (x y : obj) : act unit :=
  fun s => Ok (tt, Store (next s) (sizes s) ((oid x, y) :: memo s)).

(* optimize() without a context: a fresh table (delayed_nodes.py:2505) *)
Definition fresh_context {A} (c : act A) : act A :=
  fun s => match c (Store (next s) (sizes s) []) with
           | Ok (a, s') => Ok (a, Store (next s') (sizes s') (memo s))
           | Err e => Err e
           end.

(** ** Constructors: attributes are computed as in GraphModel.v *)

(* delayed_nodes.py:2668-2715 *)
Definition h_crop (x : obj) (sl : option (pyslice * pyslice)) (ci : option (list Z)) : act obj :=
  n <~ tryf (fun t => mkCrop t sl ci) x ;;
  match n with
  | Crop _ ys xs ci d nm nc => alloc (fun i m => OCrop i m x ys xs ci nm nc) (Some d)
  | _ => raise OtherError
  end.

(* delayed_nodes.py:1700-1760 with a given size *)
Definition h_warp (x : obj) (M : affine) (d : size) (al : algo) : act obj :=
  alloc (fun i m => OWarp i m x M al) (Some d).

(* delayed_nodes.py:1700-1760 with dsize='auto' *)
Definition h_warp_auto (x : obj) (M : affine) (al : algo) : act obj :=
  n <~ tryf (fun t => mkWarp_auto t M al) x ;;
  match n with
  | Warp _ M d al => h_warp x M d al
  | _ => raise OtherError
  end.

(* delayed_nodes.py:2545-2556 *)
Definition h_dequant (x : obj) (q : option Z) : act obj :=
  d <~ look dsize x ;; alloc (fun i m => ODequant i m x q) d.

(* delayed_nodes.py:3097-3120 *)
Definition h_overview (x : obj) (k : Z) : act obj :=
  n <~ tryf (fun t => mkOverview t k) x ;;
  match n with
  | Overview _ k d => alloc (fun i m => OOverview i m x k) (Some d)
  | _ => raise OtherError
  end.

(* delayed_nodes.py:714-743; None is a CoordinateCompatibilityError *)
Definition h_concat (ps : list obj) : act (option obj) :=
  ts <~ looks ps ;;
  match mkConcat ts with
  | Some (Concat _ d) => c <~ clone (fun i => OConcat i ps d) ;; ret (Some c)
  | _ => ret None
  end.

(* delayed_leafs.py:401-443; optimize() of the new leaf (delayed_nodes.py:2127,
   2773) returns it *)
Definition h_leaf (t : node) : act obj :=
  match t with
  | Leaf l => clone (fun i => OLeaf i l)
  | _ => raise OtherError
  end.

(* delayed_nodes.py:421-450 *)
Definition h_padded_crop (x : obj) (ys xs : ival) : act obj :=
  d <~ look dsize x ;;
  match d with
  | None => raise TypeError
  | Some sz =>
      p <~ lift (padded_crop sz ys xs 0) ;;
      let '(dy, dx, tf) := p in
      c <~ h_crop x (Some (some_slice dy, some_slice dx)) None ;;
      match tf with
      | None => ret c
      | Some (T, d) => h_warp c T d default_algo
      end
  end.

(** ** Attributes *)

(* delayed_base.py:503-505, attribute subdata *)
Definition o_sub (x : obj) : result (option obj) :=
  match x with
  | OLeaf _ _ => Ok None
  | OConcat _ _ _ => Err AttributeError
  | OCrop _ _ s _ _ _ _ _ | OWarp _ _ s _ _ | ODequant _ _ s _ | OOverview _ _ s _ => Ok (Some s)
  end.

(* delayed_nodes.py:1489-1502, 1049-1055 *)
Definition h_push_under (x : obj) : act (option obj) :=
  match x with
  | OCrop _ _ (OConcat _ ps _) ys xs ci _ _ =>
      qs <~ mapA (fun p => h_crop p (Some (some_slice ys, some_slice xs)) ci) ps ;; h_concat qs
  | OWarp _ m (OConcat _ ps _) M al =>
      d <~ dict m ;;
      qs <~ mapA (fun p => h_warp p M (known d) al) ps ;; h_concat qs
  | ODequant _ _ (OConcat _ ps _) q =>
      qs <~ mapA (fun p => h_dequant p q) ps ;; h_concat qs
  | OOverview _ _ (OConcat _ ps _) k =>
      qs <~ mapA (fun p => h_overview p k) ps ;; h_concat qs
  | _ => ret None
  end.

(** ** take_channels with band indexes *)

(* delayed_nodes.py:992 `curr.comp is not comp`: positions that hold the same
   object count as one part; [first_of] is the first such position *)
Fixpoint first_of (ids : list nat) (i : nat) : nat :=
  match ids with
  | [] => O
  | j :: r => if Nat.eqb j i then O else S (first_of r i)
  end.
(* delayed_nodes.py:989-998 *)
Definition same_object (ids : list nat) (p : nat) : nat :=
  match nth_error ids p with Some i => first_of ids i | None => p end.

(* delayed_nodes.py:3415-3460 *)
Definition h_component (parts : list (obj * (list Z -> act obj))) (seg : nat * list Z) : act obj :=
  pt <~ lift (nth_result parts (fst seg)) ;;
  n <~ look num_channels (fst pt) ;;
  match n with
  | Some n => if list_Z_eqb (snd seg) (zseq (Z.to_nat n)) then ret (fst pt) else snd pt (snd seg)
  | None => raise TypeError
  end.

(* delayed_nodes.py:820-1009, 1327-1435 *)
Fixpoint h_take (x : obj) (idxs : list Z) : act obj :=
  match x with
  | OConcat _ ps _ =>
      nm <~ look names x ;;
      ts <~ looks ps ;;
      match nm, known_all (map num_channels ts) with
      | None, _ => raise AssertionError
      | _, None => raise TypeError
      | Some _, Some sizes =>
          wh <~ lift (mapR (fun i => unravel sizes i 0) idxs) ;;
          comps <~ mapA (h_component (map (fun p => (p, h_take p)) ps))
                        (segments (map (fun pi => (same_object (map oid ps) (fst pi), snd pi)) wh)) ;;
          c <~ h_concat comps ;;
          match c with Some c => ret c | None => raise ValueError end
      end
  | _ => h_crop x None (Some idxs)
  end.

(** ** The rewrite rules *)

(* delayed_nodes.py:2912-3046, the crop being one of Warp s M *)
Definition h_warp_after_crop (s : obj) (M : affine) (ys xs : ival) (ci : option (list Z))
  (cd : size) : act (option (obj * affine)) :=
  r <~ tryf (fun t => warp_after_crop t M ys xs ci cd) s ;;
  match r with
  | None => ret None
  | Some (Crop _ ys xs ci d nm nc, T) =>
      c <~ alloc (fun i m => OCrop i m s ys xs ci nm nc) (Some d) ;; ret (Some (c, T))
  | Some _ => raise OtherError
  end.

(* delayed_nodes.py:2826-2910 *)
Definition h_fuse_crops (s : obj) (ys1 xs1 : ival) (ci1 : option (list Z))
  (ys xs : ival) (ci : option (list Z)) : act obj :=
  nci <~ lift (fuse_idxs ci1 ci) ;;
  h_crop s (Some (fuse_axis ys1 ys, fuse_axis xs1 xs)) nci.

(* delayed_nodes.py:3219-3287 *)
Definition h_crop_after_overview (s : obj) (ys xs : ival) (ci : option (list Z)) (k : Z) : act obj :=
  o <~ h_overview s k ;;
  let '(qx, ox) := overview_crop_axis k xs in
  let '(qy, oy) := overview_crop_axis k ys in
  c <~ h_crop o (Some (some_slice qy, some_slice qx)) ci ;;
  let T := aff_translate ox oy in
  if is_identity T then ret c else h_warp_auto c T default_algo.

(* delayed_nodes.py:3310-3352 *)
Definition h_warp_after_overview (s : obj) (B : affine) (k : Z) : act obj :=
  C <~ lift (warp_after_overview k B) ;;
  o <~ h_overview s k ;;
  h_warp_auto o C default_algo.

(* delayed_nodes.py:2422-2516; None: returns self.  Line 2505 calls optimize()
   without the context. *)
Definition h_split (o : oracle) (opt : obj -> act obj) (s : obj) (M : affine) (d : size) (al : algo)
  : act (option obj) :=
  no <~ tryf num_overviews s ;;
  match no with
  | None => ret None
  | Some n =>
      if (n =? 0)%Z then ret None else
      lv <~ lift (split_levels o M) ;;
      match lv with
      | None => ret None
      | Some poss =>
          let k := Z.min n poss in
          if (k =? 0)%Z then ret None else
          R <~ lift (split_residual M k) ;;
          ov <~ h_overview s k ;;
          if is_identity R then
            od <~ look dsize ov ;;
            if opt_size_eqb od (Some d) then ret (Some ov)
            else c <~ h_padded_crop ov (0, snd d)%Z (0, fst d)%Z ;;
                 r <~ fresh_context (opt c) ;; ret (Some r)
          else w <~ h_warp ov R d (drop_backend al) ;; ret (Some w)
      end
  end.

(* delayed_nodes.py:2131-2132 *)
Definition h_opt_sub (opt : obj -> act obj) (x : obj) : act obj :=
  match x with
  | OLeaf _ _ | OConcat _ _ _ => raise AttributeError
  | OCrop _ m s ys xs ci nm nc => s' <~ opt s ;; clone (fun i => OCrop i m s' ys xs ci nm nc)
  | OWarp _ m s M al => s' <~ opt s ;; clone (fun i => OWarp i m s' M al)
  | ODequant _ m s q => s' <~ opt s ;; clone (fun i => ODequant i m s' q)
  | OOverview _ m s k => s' <~ opt s ;; clone (fun i => OOverview i m s' k)
  end.

(* a dequantization or a crop without its child; [m] is its meta dict
   See delayed_nodes.py:2251-2281 *)
Inductive olayer :=
| ODeq (m : nat) (q : option Z)
| OCr (m : nat) (ys xs : ival) (ci : option (list Z)) (nm : option (list string)) (nc : option Z).

(* delayed_nodes.py:2251-2281 *)
Definition layer_dict (l : olayer) : nat := match l with ODeq m _ => m | OCr m _ _ _ _ _ => m end.
(* delayed_nodes.py:2251-2281 *)
Definition is_ocr (l : olayer) : bool := match l with OCr _ _ _ _ _ _ => true | _ => false end.

(* delayed_nodes.py:2251-2281 *)
Fixpoint h_lookahead (n : nat) (x : obj) : option (list olayer * (obj * Z)) :=
  match n with
  | O => None
  | S n' =>
      match x with
      | OOverview _ _ s k => Some ([], (s, k))
      | ODequant _ m s q =>
          match h_lookahead n' s with Some (c, o) => Some (ODeq m q :: c, o) | None => None end
      | OCrop _ m s ys xs ci nm nc =>
          match h_lookahead n' s with
          | Some (c, o) => Some (OCr m ys xs ci nm nc :: c, o)
          | None => None
          end
      | _ => None
      end
  end.

(* delayed_nodes.py:2320-2322: a copy of a node of the chain over its new child *)
Definition h_relayer (l : olayer) (x : obj) : act obj :=
  match l with
  | ODeq m q => clone (fun i => ODequant i m x q)
  | OCr m ys xs ci nm nc => clone (fun i => OCrop i m x ys xs ci nm nc)
  end.
(* delayed_nodes.py:2320-2322 *)
Fixpoint h_rebuild (chain : list olayer) (x : obj) : act obj :=
  match chain with
  | [] => ret x
  | l :: r => y <~ h_rebuild r x ;; h_relayer l y
  end.

(* delayed_nodes.py:2380-2381, 2389-2390, 2402-2403: the copies share the meta
   dicts of the nodes they were made from, so this writes into those too.  A
   size of None is not written into a crop (see GraphModel.relayer). *)
Definition h_write_layer (nd : option size) (l : olayer) : act unit :=
  match l, nd with
  | OCr _ _ _ _ _ _, None => ret tt
  | _, _ => write (layer_dict l) nd
  end.

(* delayed_nodes.py:2174-2420 applied to the warp [w] = OWarp _ m s M al *)
Definition h_absorb (o : oracle) (w : obj) (m : nat) (s : obj) (M : affine) (al : algo) : act obj :=
  if negb (absorbs o M) then ret w else
  match h_lookahead 4 s with
  | None => ret w
  | Some (chain, (os, k)) =>
      if (1 <? List.length (filter is_ocr chain))%nat then ret w else
      r <~ match rev chain with
           | [] => ret (os, overview_tf k)
           | OCr cm ys xs ci _ _ :: above =>
               cd <~ dict cm ;;
               r <~ h_warp_after_crop os (overview_tf k) ys xs ci (known cd) ;;
               match r with
               | None => raise KeyError
               | Some (c, T) =>
                   nd <~ look dsize c ;;
                   u <~ mapA (h_write_layer nd) (rev above) ;;
                   h <~ h_rebuild (rev above) c ;; ret (h, T)
               end
           | ODeq _ _ :: _ =>
               nd <~ tryf meta_dsize os ;;
               u <~ mapA (h_write_layer nd) chain ;;
               h <~ h_rebuild chain os ;; ret (h, overview_tf k)
           end ;;
      d <~ dict m ;;
      h_warp (fst r) (aff_mul M (snd r)) (known d) (drop_backend al)
  end.

(** ** optimize() of every node class *)

(* delayed_nodes.py:1489-1502, 2608-2613, 2816-2820, 3191-3196 *)
Definition h_push_tail (opt : obj -> act obj) (x : obj) : act obj :=
  sd <~ lift (o_sub x) ;;
  match sd with
  | Some (OConcat _ _ _) =>
      p <~ h_push_under x ;;
      match p with Some p => opt p | None => ret x end
  | _ => ret x
  end.

(* delayed_nodes.py:2100-2139 DelayedWarp.optimize, [s1] is the optimized child *)
Definition h_opt_warp (o : oracle) (opt : obj -> act obj) (m : nat) (s1 : obj) (M : affine) (al : algo)
  : act obj :=
  d0 <~ dict m ;;
  new <~ match s1 with
         | OWarp _ _ s2 M1 _ => h_warp s2 (aff_mul M M1) (known d0) (drop_backend al)
         | _ => clone (fun i => OWarp i m s1 M al)
         end ;;
  match new with
  | OWarp _ m' s M' al' =>
      d <~ dict m' ;;
      sd <~ look dsize s ;;
      if opt_size_eqb (Some (known d)) sd && close_identity (al_eps al') M' then ret s
      else
        let other := fun _ : unit =>
          sp <~ h_split o opt s M' (known d) al' ;;
          match sp with
          | Some n => n' <~ h_opt_sub opt n ;; opt n'
          | None => h_absorb o new m' s M' al'
          end in
        match s with
        | OConcat _ _ _ => h_push_tail opt new
        | OLeaf _ l => if is_nans l then h_leaf (nans_warp l (known d)) else other tt
        | _ => other tt
        end
  | _ => raise OtherError
  end.

(* delayed_nodes.py:2597-2617 DelayedDequantize.optimize *)
Definition h_opt_dequant (opt : obj -> act obj) (m : nat) (s1 : obj) (q : option Z) : act obj :=
  match s1 with
  | ODequant _ _ _ _ => raise AssertionError
  | OWarp _ wm s M al =>
      s' <~ h_dequant s q ;;
      w <~ clone (fun i => OWarp i wm s' M al) ;;
      n <~ opt w ;; h_push_tail opt n
  | _ => new <~ clone (fun i => ODequant i m s1 q) ;; h_push_tail opt new
  end.

(* delayed_nodes.py:2790-2820 *)
Definition h_crop_tail (opt : obj -> act obj) (x : obj) : act obj :=
  match x with
  | OCrop _ _ (OConcat i ps cd) ys xs ci _ _ =>
      taken <~ match ci with
               | None => ret (OConcat i ps cd)
               | Some l => t' <~ h_take (OConcat i ps cd) l ;; opt t'
               end ;;
      c <~ h_crop taken (Some (some_slice ys, some_slice xs)) None ;;
      p <~ h_push_under c ;;
      opt (match p with Some p => p | None => c end)
  | _ => h_push_tail opt x
  end.

(* delayed_nodes.py:2765-2824 DelayedCrop.optimize *)
Definition h_opt_crop (opt : obj -> act obj) (m : nat) (s1 : obj) (ys xs : ival)
  (ci : option (list Z)) (nm : option (list string)) (nc : option Z) : act obj :=
  c1 <~ match s1 with
        | OCrop _ _ s2 ys1 xs1 ci1 _ _ => h_fuse_crops s2 ys1 xs1 ci1 ys xs ci
        | _ => clone (fun i => OCrop i m s1 ys xs ci nm nc)
        end ;;
  match c1 with
  | OCrop _ _ (OLeaf _ l) _ _ _ _ _ =>
      if is_nans l then t <~ lift (nans_crop l ys xs ci) ;; h_leaf t else ret c1
  | OCrop _ m' (OWarp _ _ s M al) ys' xs' ci' _ _ =>
      if al_nearest al then ret c1 else
      d' <~ dict m' ;;
      r <~ h_warp_after_crop s M ys' xs' ci' (known d') ;;
      match r with
      | None => ret c1
      | Some (c, T) =>
          w <~ h_warp c T (known d') (drop_backend al) ;;
          n <~ opt w ;; h_crop_tail opt n
      end
  | OCrop _ m' (ODequant _ _ s q) ys' xs' ci' nm' nc' =>
      c <~ clone (fun i => OCrop i m' s ys' xs' ci' nm' nc') ;;
      x <~ h_dequant c q ;;
      n <~ opt x ;; h_crop_tail opt n
  | _ => h_crop_tail opt c1
  end.

(* delayed_nodes.py:3175-3200 DelayedOverview.optimize *)
Definition h_opt_overview (opt : obj -> act obj) (m : nat) (s1 : obj) (k : Z) : act obj :=
  o1 <~ match s1 with
        | OOverview _ _ s2 k2 => h_overview s2 (k2 + k)
        | _ => clone (fun i => OOverview i m s1 k)
        end ;;
  match o1 with
  | OOverview _ m1 s k1 =>
      if (k1 =? 0)%Z then h_push_tail opt s
      else match s with
           | OCrop _ _ s2 ys xs ci _ _ =>
               n <~ h_crop_after_overview s2 ys xs ci k1 ;; n' <~ opt n ;; h_push_tail opt n'
           | OWarp _ _ s2 B _ =>
               n <~ h_warp_after_overview s2 B k1 ;; n' <~ opt n ;; h_push_tail opt n'
           | ODequant _ _ s2 q =>
               v <~ clone (fun i => OOverview i m1 s2 k1) ;;
               x <~ h_dequant v q ;;
               n' <~ opt x ;; h_push_tail opt n'
           | _ => h_push_tail opt o1
           end
  | _ => raise OtherError
  end.

(* delayed_nodes.py:801-818 *)
Definition all_same (xs ys : list obj) : bool :=
  forallb (fun p => Nat.eqb (oid (fst p)) (oid (snd p))) (combine xs ys).

(* optimize(ctx).  With [shared] the memo table is consulted as the code does
   (delayed_leafs.py:31-40, delayed_nodes.py:801-818, 2094-2139, 2591-2617,
   2759-2824, 3169-3200); without it every occurrence of an object is optimized
   again. *)
Fixpoint h_optimize (shared : bool) (o : oracle) (fuel : nat) (x : obj) : act obj :=
  match fuel with
  | O => raise OutOfFuel
  | S f => fun s =>
      match (if shared then memo_get (memo s) (oid x) else None) with
      | Some y => Ok (y, s)
      | None =>
          (let opt := h_optimize shared o f in
           y <~ match x with
                | OLeaf _ _ => ret x
                | OConcat _ ps _ =>
                    qs <~ mapA opt ps ;;
                    if all_same qs ps then ret x
                    else c <~ h_concat qs ;; ret (match c with Some c => c | None => x end)
                | OWarp _ m s M al => s1 <~ opt s ;; h_opt_warp o opt m s1 M al
                | ODequant _ m s q => s1 <~ opt s ;; h_opt_dequant opt m s1 q
                | OCrop _ m s ys xs ci nm nc => s1 <~ opt s ;; h_opt_crop opt m s1 ys xs ci nm nc
                | OOverview _ m s k => s1 <~ opt s ;; h_opt_overview opt m s1 k
                end ;;
           u <~ remember x y ;; ret y) s
      end
  end.
