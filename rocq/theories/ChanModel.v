(* Model of delayed_image/channel_spec.py: FusedChannelSpec, ChannelSpec, the
   coerce cache, path sanitizing and the ordered-set edits.  Definitions only. *)
From Verif Require Export Py.
Local Open Scope string_scope.
Local Open Scope Z_scope.

(** ** FusedChannelSpec *)

(* channel_spec.py:399-406  FusedChannelSpec.__init__ : the object state is the
   code list and the "already normalized" flag. *)
Record fused := mkF { codes : list string; isnorm : bool }.

(* channel_spec.py:387-392  FusedChannelSpec._alias_lut *)
Definition alias_lut (v : string) : option (list string) :=
  if String.eqb v "rgb" then Some ["r"; "g"; "b"]
  else if String.eqb v "rgba" then Some ["r"; "g"; "b"; "a"]
  else if String.eqb v "dxdy" then Some ["dx"; "dy"]
  else if String.eqb v "fxfy" then Some ["fx"; "fy"]
  else None.

(* [int(x) if x else None] of channel_spec.py:1845-1852 *)
Definition opt_int (s : string) : result (option Z) :=
  if String.eqb s "" then Ok None else rmap Some (py_int s).

(* the defaults of channel_spec.py:1845-1852 *)
Definition or_default (d : Z) (o : option Z) : Z :=
  match o with Some z => z | None => d end.

(* channel_spec.py:1788-1864  _parse_concise_slice_syntax.
   [v] is only passed when it contains ':' (lines 670, 718). *)
Definition parse_slice_syntax (v : string) : result (string * Z * Z * Z) :=
  '(root, suffix) <-
     (if contains "." v then
        match split_once "." v with
        | Some (root, suffix) =>
            if (Z.of_nat (List.length (split ":" suffix)) <=? 1)
            then Err ValueError                                (* channel_spec.py:1834-1835 *)
            else Ok (root, suffix)
        | None => Err ValueError
        end
      else
        match split_once ":" v with
        | Some (root, suffix) => Ok (root, suffix)
        | None => Err ValueError
        end) ;;
  '(start, stop, step) <-
     (match split ":" suffix with
      | [a] => stop <- py_int a ;; Ok (0, Some stop, 1)
      | [a; b] =>
          start <- opt_int a ;; stop <- opt_int b ;;
          Ok (or_default 0 start, stop, 1)
      | [a; b; c] =>
          start <- opt_int a ;; stop <- opt_int b ;; step <- opt_int c ;;
          Ok (or_default 0 start, stop, or_default 1 step)
      | _ => Err ValueError
      end) ;;
  match stop with
  | None => Err ValueError                                     (* channel_spec.py:1856-1857 *)
  | Some stop =>
      if contains "." root || contains ":" root then Err ValueError (* channel_spec.py:1861 *)
      else Ok (root, start, stop, step)
  end.

(* '{}.{}'.format(root, idx), channel_spec.py:673 *)
Definition indexed (root : string) (i : Z) : string :=
  (root ++ String "." (Z_str i))%string.

(* body of the loop in FusedChannelSpec.normalize, channel_spec.py:664-676 *)
Definition expand (v : string) : result (list string) :=
  match alias_lut v with
  | Some l => Ok l
  | None =>
      if contains ":" v then
        '(root, start, stop, step) <- parse_slice_syntax v ;;
        idxs <- py_range start stop step ;;
        Ok (map (indexed root) idxs)
      else Ok [v]
  end.

(* channel_spec.py:631-684  FusedChannelSpec.normalize.  When nothing needed
   normalization the code returns self after setting the flag; the value is the
   same object content with the flag set. *)
Definition normalize (f : fused) : result fused :=
  if isnorm f then Ok f
  else l <- mapR expand (codes f) ;; Ok (mkF (List.concat l) true).

(* loop body of FusedChannelSpec.sizes, channel_spec.py:714-723 *)
Definition code_size (v : string) : result Z :=
  match alias_lut v with
  | Some l => Ok (Z.of_nat (List.length l))
  | None =>
      if contains ":" v then
        '(root, start, stop, step) <- parse_slice_syntax v ;;
        if step =? 0 then Err ValueError else Ok (range_len start stop step)
      else Ok 1
  end.

(* channel_spec.py:695-724 *)
Definition sizes (f : fused) : result (list Z) :=
  if isnorm f then Ok (map (fun _ => 1) (codes f))
  else mapR code_size (codes f).

(* channel_spec.py:686-693 *)
Definition zsum (l : list Z) : Z := fold_right Z.add 0 l.
(* channel_spec.py:686-693 FusedChannelSpec.numel *)
Definition numel (f : fused) : result Z :=
  if isnorm f then Ok (Z.of_nat (List.length (codes f)))
  else l <- sizes f ;; Ok (zsum l).

(* format_ready, channel_spec.py:567-574 *)
Definition format_ready (r : string) (start stop : Z) : string :=
  if start + 1 =? stop then indexed r start
  else if start =? 0 then (r ++ String ":" (Z_str stop))%string
  else (indexed r start ++ String ":" (Z_str stop))%string.

(* loop state of concise: current run (accum_root, accum_start, accum_stop) and
   new_parts; channel_spec.py:561-565 *)
Definition run := option (string * Z * Z).

(* loop body of concise, channel_spec.py:576-621.  [ready] is consumed in the
   same iteration in which it is set, so it is not part of the state. *)
Definition concise_step (st : run * list string) (part : string)
  : result (run * list string) :=
  let '(acc, out) := st in
  if contains "." part then
    match split "." part with
    | [root; suffix] =>
        index <- py_int suffix ;;
        match acc with
        | Some (r, a, b) =>
            if String.eqb r root && (index =? b) then
              Ok (Some (r, a, index + 1), out)
            else
              Ok (Some (root, index, index + 1), out ++ [format_ready r a b])%list
        | None => Ok (Some (root, index, index + 1), out)
        end
    | _ => Err ValueError
    end
  else
    match acc with
    | Some (r, a, b) => Ok (None, out ++ [format_ready r a b; part])%list
    | None => Ok (None, out ++ [part])%list
    end.

(* the loop of channel_spec.py:576-621 *)
Fixpoint concise_loop (st : run * list string) (parts : list string)
  : result (run * list string) :=
  match parts with
  | [] => Ok st
  | p :: ps => st' <- concise_step st p ;; concise_loop st' ps
  end.

(* channel_spec.py:532-629  FusedChannelSpec.concise *)
Definition concise (f : fused) : result fused :=
  nf <- normalize f ;;
  '(acc, out) <- concise_loop (None, []) (codes nf) ;;
  match acc with
  | Some (r, a, b) => Ok (mkF (out ++ [format_ready r a b])%list false)
  | None => Ok (mkF out false)
  end.

(* channel_spec.py:439-441  spec *)
Definition fspec (f : fused) : string := join "|" (codes f).

(* channel_spec.py:447-453  FusedChannelSpec.parse *)
Definition fparse (s : string) : fused :=
  if String.eqb s "" then mkF [] false else mkF (split "|" s) false.

(* index argument of __getitem__; see channel_spec.py:424-431, argument of __getitem__ *)
Inductive index := IInt (i : Z) | ISlice (start stop step : option Z) | IList (l : list Z).
(* channel_spec.py:424-431, result of __getitem__ *)
Inductive getitem_out := GCode (c : string) | GSpec (f : fused).

(* the positions slice(start, stop, step) selects from a list of length n, for a
   given step; see Python: slice.indices *)
Definition slice_positions (n : Z) (start stop : option Z) (step : Z) : result (list Z) :=
  if 0 <? step then
    py_range (match start with None => 0 | Some i => slice_bound n i end)
             (match stop with None => n | Some i => slice_bound n i end) step
  else
    let bound i := if i <? 0 then Z.max (-1) (i + n) else Z.min i (n - 1) in
    py_range (match start with None => n - 1 | Some i => bound i end)
             (match stop with None => -1 | Some i => bound i end) step.

(* l[start:stop:step]; see Python: list slicing *)
Definition py_slice_step {A} (l : list A) (start stop step : option Z) : result (list A) :=
  match step with
  | None => Ok (py_slice l start stop)
  | Some st => ks <- slice_positions (Z.of_nat (List.length l)) start stop st ;; mapR (py_get l) ks
  end.

(* channel_spec.py:424-431  __getitem__ *)
Definition getitem (f : fused) (ix : index) : result getitem_out :=
  nf <- normalize f ;;
  match ix with
  | ISlice a b st => cs <- py_slice_step (codes nf) a b st ;; Ok (GSpec (mkF cs false))
  | IList l => cs <- mapR (py_get (codes nf)) l ;; Ok (GSpec (mkF cs false))
  | IInt i => c <- py_get (codes nf) i ;; Ok (GCode c)
  end.

(* channel_spec.py:433-437  concat *)
Definition fconcat (l : list fused) : fused :=
  mkF (List.concat (map codes l)) false.

(* other operand of the set operations: a FusedChannelSpec, or a plain
   collection of names for which other.normalize() raises AttributeError
   See channel_spec.py:786-864, argument of the set operations *)
Inductive operand := OpSpec (f : fused) | OpRaw (l : list string).

(* [try: oset(other.normalize().parsed) except Exception: other]; oset - spec and
   oset | spec are a TypeError, as the spec class has no __iter__.
   See channel_spec.py:802-806, 841-846 *)
Definition operand_codes (o : operand) : result (list string) :=
  match o with
  | OpSpec f => match normalize f with
                | Ok nf => Ok (codes nf)
                | Err _ => Err TypeError
                end
  | OpRaw l => Ok l
  end.

Definition difference (f : fused) (o : operand) : result fused := (* channel_spec.py:786-808 *)
  nf <- normalize f ;; oc <- operand_codes o ;;
  Ok (mkF (filter (fun c => negb (str_mem c (oset_of oc))) (oset_of (codes nf))) true).

(* channel_spec.py:818-825 set(_other_parsed): a spec that fails to normalize is
   iterated through __getitem__, which raises what normalize raises *)
Definition iterated (o : operand) : result (list string) :=
  match o with OpSpec f => nf <- normalize f ;; Ok (codes nf) | OpRaw l => Ok l end.

Definition intersection (f : fused) (o : operand) : result fused := (* channel_spec.py:810-830 *)
  nf <- normalize f ;; oc <- iterated o ;;
  Ok (mkF (filter (fun c => str_mem c oc) (codes nf)) true).

Definition union (f : fused) (o : operand) : result fused := (* channel_spec.py:832-848 *)
  nf <- normalize f ;; oc <- operand_codes o ;;
  Ok (mkF (oset_of (oset_of (codes nf) ++ oc)) true).

(* OrderedSet.issubset / issuperset: a length pre-check, then membership.
   For a spec operand the other side is an OrderedSet; for a raw collection, and
   for a spec that fails to normalize (len and membership of the codes as
   written), its own length is used; see channel_spec.py:850-864 *)
Definition other_set (o : operand) : list string :=
  match o with
  | OpSpec f => match normalize f with Ok nf => oset_of (codes nf) | Err _ => codes f end
  | OpRaw l => l
  end.

Definition issubset (f : fused) (o : operand) : result bool := (* channel_spec.py:850-856 *)
  nf <- normalize f ;;
  let a := oset_of (codes nf) in
  let b := other_set o in
  Ok (if Nat.ltb (List.length b) (List.length a) then false
      else forallb (fun x => str_mem x b) a).

(* the other side is iterated only after the length check *)
Definition issuperset (f : fused) (o : operand) : result bool := (* channel_spec.py:858-864 *)
  nf <- normalize f ;;
  let a := oset_of (codes nf) in
  let b := other_set o in
  if Nat.ltb (List.length a) (List.length b) then Ok false
  else _ <- iterated o ;; Ok (forallb (fun x => str_mem x a) b).

(* loop of FusedChannelSpec.component_indices, channel_spec.py:882-890; only the
   last slice of the index tuple is kept (the others are slice(None)).
   _size_lut = {alias: len} (line 397). *)
Definition size_lut (v : string) : Z :=
  match alias_lut v with Some l => Z.of_nat (List.length l) | None => 1 end.

(* the loop of channel_spec.py:882-890 *)
Fixpoint fused_component_indices_loop (idx1 : Z) (parts : list string)
         (d : list (string * (Z * Z))) : list (string * (Z * Z)) :=
  match parts with
  | [] => d
  | p :: ps =>
      let idx2 := idx1 + size_lut p in
      fused_component_indices_loop idx2 ps (dict_set p (idx1, idx2) d)
  end.
(* channel_spec.py:866-890 FusedChannelSpec.component_indices *)
Definition fused_component_indices (f : fused) : list (string * (Z * Z)) :=
  fused_component_indices_loop 0 (codes f) [].

(** ** ChannelSpec *)

(* channel_spec.py:1014-1020  ChannelSpec.__init__ : text and cached parse *)
Record cspec := mkC { ctext : string; cparsed : option (list (string * fused)) }.

(* channel_spec.py:1097-1122  parse (the cached value if there is one) *)
Definition parse_text (s : string) : list (string * fused) :=
  dict_of (map (fun ss => (ss, mkF (split "|" ss) false))
               (filter (fun ss => negb (String.eqb ss "")) (split "," s))).
(* channel_spec.py:1097-1122 ChannelSpec.parse *)
Definition cparse (c : cspec) : list (string * fused) :=
  match cparsed c with Some p => p | None => parse_text (ctext c) end.

(* channel_spec.py:1155-1162 and 1131-1138, shared body of ChannelSpec.normalize and concise *)
Definition restream (g : fused -> result fused) (c : cspec) : result cspec :=
  vals <- mapR (fun kv => g (snd kv)) (cparse c) ;;
  let new_parsed := dict_of (map (fun v => (fspec v, v)) vals) in
  Ok (mkC (join "," (map fst new_parsed)) (Some new_parsed)).

Definition cnormalize (c : cspec) : result cspec := restream normalize c. (* channel_spec.py:1140-1162 *)
Definition cconcise (c : cspec) : result cspec := restream concise c.     (* channel_spec.py:1124-1138 *)

(* channel_spec.py:1164-1168 keys, 1218-1229 streams *)
Definition ckeys (c : cspec) : list string := split "," (ctext c).
(* channel_spec.py:1218-1229 ChannelSpec.streams *)
Definition cstreams (c : cspec) : list fused := map fparse (ckeys c).

(* channel_spec.py:1176-1196 fuse *)
Definition cfuse (c : cspec) : fused :=
  match cstreams c with
  | [p] => p
  | parts => mkF (List.concat (map codes parts)) false
  end.

(* channel_spec.py:904-922 FusedChannelSpec.split ; 1198-1216 ChannelSpec.split *)
Definition fsplit (f : fused) : result cspec :=
  nf <- normalize f ;; Ok (mkC (join "," (codes nf)) None).
(* channel_spec.py:1198-1216 ChannelSpec.split *)
Definition csplit (c : cspec) : result cspec :=
  l <- mapR fsplit (cstreams c) ;; Ok (mkC (join "," (map ctext l)) None).

(* channel_spec.py:1380-1400 sizes, numel *)
Definition csizes (c : cspec) : result (list Z) := mapR (fun kv => numel (snd kv)) (cparse c).
(* channel_spec.py:1394-1400 ChannelSpec.numel *)
Definition cnumel (c : cspec) : result Z := l <- csizes c ;; Ok (zsum l).

(* Set operations with a ChannelSpec operand (channel_spec.py:1254-1368). A
   str operand is first turned into ChannelSpec(str).  If the operand fails to
   normalize, the raw operand is used and the inner operator raises as soon as
   there is a stream to process. *)
Definition per_stream (op : fused -> operand -> result fused) (c other : cspec) : result cspec :=
  sn <- cnormalize c ;;
  news <- mapR (fun kv =>
                  match normalize (cfuse other) with
                  | Ok o => op (snd kv) (OpSpec o)
                  | Err _ => Err TypeError
                  end) (cparse sn) ;;
  let kept := filter (fun f => negb (Nat.eqb (List.length (codes f)) 0)) news in
  Ok (mkC (join "," (map fspec kept)) None).

Definition cdifference := per_stream difference.     (* channel_spec.py:1254-1292 *)
Definition cintersection := per_stream intersection. (* channel_spec.py:1294-1334 *)

Definition cunion (c other : cspec) : result cspec := (* channel_spec.py:1336-1368 *)
  sn <- cnormalize c ;;
  let on := match cnormalize other with Ok o => o | Err _ => other end in
  Ok (mkC (join "," (map (fun kv => fspec (snd kv)) (cparse sn ++ cparse on))) None).

(* channel_spec.py:1638-1663 component_indices *)
Fixpoint comp_loop (key : string) (idx1 : Z) (l : list (string * Z))
         (d : list (string * (string * (Z * Z)))) : list (string * (string * (Z * Z))) :=
  match l with
  | [] => d
  | (part, size) :: l' =>
      let idx2 := idx1 + size in
      comp_loop key idx2 l' (dict_set part (key, (idx1, idx2)) d)
  end.
(* the outer loop of channel_spec.py:1638-1663 *)
Fixpoint comp_streams (p : list (string * fused)) (d : list (string * (string * (Z * Z))))
  : result (list (string * (string * (Z * Z)))) :=
  match p with
  | [] => Ok d
  | (key, parts) :: p' =>
      szs <- sizes parts ;;
      comp_streams p' (comp_loop key 0 (combine (codes parts) szs) d)
  end.
(* channel_spec.py:1638-1663 ChannelSpec.component_indices *)
Definition component_indices (c : cspec) := comp_streams (cparse c) [].

(** ** Operations common to both classes *)

(* channel_spec.py:121-336 BaseChannelSpec: an object of either class *)
Inductive bspec := BF (f : fused) | BC (c : cspec).

(* channel_spec.py:439-441, 1022-1024, property spec *)
Definition btext (b : bspec) : string :=
  match b with BF f => fspec f | BC c => ctext c end.
Definition bstreams (b : bspec) : list fused :=     (* channel_spec.py:892-896, 1218-1229 *)
  match b with BF f => [f] | BC c => cstreams c end.
(* channel_spec.py:686-693, 1394-1400, numel of either class *)
Definition bnumel (b : bspec) : result Z :=
  match b with BF f => numel f | BC c => cnumel c end.

(* channel_spec.py:254-287 late_fuse.  For a str operand the code assigns
   [other_spec = str] (the type), which is truthy and cannot be concatenated. *)
Inductive lf_arg := LStr (s : string) | LSpec (b : bspec).
(* channel_spec.py:254-287, result of late_fuse *)
Inductive lf_out := OStr (s : string) | OSpec (b : bspec).

(* channel_spec.py:254-287 BaseChannelSpec.late_fuse *)
Definition late_fuse_any (a : bspec) (o : lf_arg) : result lf_out :=
  match o with
  | LStr s => if String.eqb (btext a) "" then Ok (OStr s) else Err TypeError
  | LSpec b =>
      if String.eqb (btext a) "" then Ok (OSpec b)
      else if String.eqb (btext b) "" then Ok (OSpec a)
      else Ok (OSpec (BC (mkC (btext a ++ String "," (btext b))%string None)))
  end.

(* channel_spec.py:254-293 late_fuse and __add__ with a spec operand *)
Definition late_fuse (a b : bspec) : bspec :=
  if String.eqb (btext a) "" then b
  else if String.eqb (btext b) "" then a
  else BC (mkC (btext a ++ String "," (btext b))%string None).

(* sum(specs): 0 + s1 via __radd__ (channel_spec.py:295-301), then + *)
Definition spec_sum (l : list bspec) : option bspec :=
  match l with
  | [] => None
  | b :: l' => Some (fold_left late_fuse l' b)
  end.

(** ** FusedChannelSpec.coerce and its cache *)

(* channel_spec.py:485-530, argument of coerce *)
Inductive cdata :=
| DList (l : list string) | DStr (s : string) | DFused (f : fused) | DChan (c : cspec)
| DInt (z : Z) | DBool (b : bool)
| DFloat (z : Z)          (* a float whose value is the integer z *)
| DFloatFrac              (* any other float *)
| DNone.

(* dictionary keys: Python equality identifies 1, 1.0 and True
   See channel_spec.py:455-458, keys of the cache *)
Inductive mkey := KStr (s : string) | KNum (z : Z).
(* channel_spec.py:455-458, equality of keys *)
Definition mkey_eqb (a b : mkey) : bool :=
  match a, b with
  | KStr s, KStr t => String.eqb s t
  | KNum x, KNum y => Z.eqb x y
  | _, _ => false
  end.
(* channel_spec.py:455-458 FusedChannelSpec._memo *)
Definition memo := list (mkey * fused).
(* channel_spec.py:501-506, lookup in the cache *)
Fixpoint memo_get (k : mkey) (m : memo) : option fused :=
  match m with
  | [] => None
  | (k', f) :: m' => if mkey_eqb k k' then Some f else memo_get k m'
  end.

(* the key under which a value is looked up; None when the lookup raises
   TypeError (unhashable) or can never hit (identity-hashed objects, None)
   See channel_spec.py:501-506 *)
Definition key_of (d : cdata) : option mkey :=
  match d with
  | DStr s => Some (KStr s)
  | DInt z => Some (KNum z)
  | DBool b => Some (KNum (if b then 1 else 0))
  | DFloat z => Some (KNum z)
  | _ => None
  end.

Definition from_int_codes (n : Z) : list string :=           (* channel_spec.py:481 *)
  map (fun i => String "u" (Z_str i)) (zseq (Z.to_nat n)).

(* channel_spec.py:460-469 from_spec and 471-483 from_int *)
Definition from_spec (m : memo) (s : string) : fused * memo :=
  match memo_get (KStr s) m with
  | Some f => (f, m)
  | None => let f := fparse s in (f, (KStr s, f) :: m)
  end.
(* channel_spec.py:471-483 FusedChannelSpec.from_int *)
Definition from_int (m : memo) (n : Z) : fused * memo :=
  match memo_get (KNum n) m with
  | Some f => (f, m)
  | None => let f := mkF (from_int_codes n) false in (f, (KNum n, f) :: m)
  end.

(* channel_spec.py:485-530 coerce *)
Definition coerce (m : memo) (d : cdata) : result fused * memo :=
  match match key_of d with Some k => memo_get k m | None => None end with
  | Some f => (Ok f, m)
  | None =>
      match d with
      | DList l => (Ok (mkF l false), m)
      | DStr s => let '(f, m') := from_spec m s in (Ok f, m')
      | DFused f => (Ok f, m)
      | DChan c =>
          match cparse c with
          | [(_, f)] => (Ok (mkF (codes f) false), m)
          | _ => (Err ValueError, m)
          end
      | DInt z => let '(f, m') := from_int m z in (Ok f, m')
      | DBool b => let '(f, m') := from_int m (if b then 1 else 0) in (Ok f, m')
      | DFloat _ | DFloatFrac | DNone => (Err TypeError, m)
      end
  end.

(* channel_spec.py:460-530, calls that use the cache *)
Inductive memo_op := OpCoerce (d : cdata) | OpFromSpec (s : string) | OpFromInt (n : Z).
(* channel_spec.py:460-530, the cache after one call *)
Definition memo_step (m : memo) (o : memo_op) : memo :=
  match o with
  | OpCoerce d => snd (coerce m d)
  | OpFromSpec s => snd (from_spec m s)
  | OpFromInt n => snd (from_int m n)
  end.

(** ** Path sanitizing *)

(* str.replace(k, v) for a one-character k; see Python: str.replace, channel_spec.py:1903-1904 *)
Fixpoint replace_char (k : ascii) (v : string) (s : string) : string :=
  match s with
  | EmptyString => ""
  | String a s' =>
      if Ascii.eqb a k then (v ++ replace_char k v s')%string
      else String a (replace_char k v s')
  end.

(* illegal_character_mapping, channel_spec.py:1894-1901 *)
Definition illegal_map : list (ascii * string) :=
  [("|"%char, "_"); ("<"%char, "-LT-"); (">"%char, "-GT-"); (":"%char, "..");
   ("?"%char, "_Q_"); ("*"%char, "_S_")].

(* name[-1] of channel_spec.py:1905-1907 *)
Fixpoint last_char (s : string) : option ascii :=
  match s with
  | EmptyString => None
  | String a EmptyString => Some a
  | String _ s' => last_char s'
  end.

(* channel_spec.py:1905-1907 *)
Definition bad_ending (s : string) : bool :=
  match last_char s with
  | Some c => Ascii.eqb c "." || Ascii.eqb c " "
  | None => false
  end.

(* channel_spec.py:1867-1919 _path_sanitize_v2; [hash] stands for
   ub.hash_data(..., base='abc'); the suffix is always an int here (line 334). *)
Definition path_sanitize_v2 (hash : string -> string) (path : string)
           (maxlen : option Z) (hash_suffix : option Z) : string :=
  let new_name := fold_left (fun s kv => replace_char (fst kv) (snd kv) s) illegal_map path in
  let new_name := if bad_ending new_name then (new_name ++ "_")%string else new_name in
  match maxlen with
  | Some maxlen =>
      if Z.ltb maxlen (Z.of_nat (String.length new_name)) then
        let hashlen := Z.max 8 (maxlen - 2) in
        let hashstr := substring 0 (Z.to_nat hashlen) (hash new_name) in
        match hash_suffix with
        | Some n => (hashstr ++ String "_" (Z_str n))%string
        | None => hashstr
        end
      else new_name
  | None => new_name
  end.

(* channel_spec.py:303-336 BaseChannelSpec.path_sanitize *)
Definition path_sanitize (hash : string -> string) (b : bspec) (maxlen : option Z) : result string :=
  n <- bnumel b ;; Ok (path_sanitize_v2 hash (btext b) maxlen (Some n)).

(** ** Ordered-set helpers *)

(* channel_spec.py:1749-1785 subsequence_index on two ordered sets; the result
   is the slice (start, stop) *)
Fixpoint oindex (x : string) (l : list string) : option nat :=
  match l with
  | [] => None
  | y :: l' => if String.eqb x y then Some O else option_map S (oindex x l')
  end.
(* Python: list equality *)
Fixpoint strs_eqb (a b : list string) : bool :=
  match a, b with
  | [], [] => true
  | x :: a', y :: b' => String.eqb x y && strs_eqb a' b'
  | _, _ => false
  end.
(* channel_spec.py:1749-1785 subsequence_index *)
Definition subsequence_index (s1 s2 : list string) : option (nat * nat) :=
  let base := match s2 with [] => Some O | x :: _ => oindex x s1 end in
  match base with
  | Some b =>
      let n := List.length s2 in
      if strs_eqb (firstn n (skipn b s1)) s2 then Some (b, b + n)%nat else None
  | None => None
  end.

(* An OrderedSet object: the item list and the item -> position map
   See class OrderedSet of the ordered_set package, as edited by channel_spec.py:1922-1986 *)
Record oset := mkO { oitems : list string; omap : list (string * Z) }.

(* position of an in-range or out-of-range insertion index: list.insert clamps
   See Python: list.insert, channel_spec.py:1933 *)
Definition ins_pos (n : nat) (i : Z) : nat := Z.to_nat (slice_bound (Z.of_nat n) i).

(* channel_spec.py:1922-1938 oset_insert *)
Definition bump (keys : list string) (m : list (string * Z)) : list (string * Z) :=
  map (fun kv => if str_mem (fst kv) keys then (fst kv, snd kv + 1) else kv) m.
(* channel_spec.py:1922-1938 oset_insert *)
Definition oset_insert (s : oset) (i : Z) (obj : string) : oset :=
  match dict_get obj (omap s) with
  | Some _ => s
  | None =>
      let p := ins_pos (List.length (oitems s)) i in
      mkO (firstn p (oitems s) ++ obj :: skipn p (oitems s))
          (dict_set obj i (bump (skipn p (oitems s)) (omap s)))
  end.

(* sorted(..., reverse=True); see Python: sorted(reverse=True), channel_spec.py:1970-1972 *)
Fixpoint insert_desc (z : Z) (l : list Z) : list Z :=
  match l with
  | [] => [z]
  | y :: l' => if y <=? z then z :: l else y :: insert_desc z l'
  end.
(* Python: sorted(reverse=True), channel_spec.py:1970-1972 *)
Definition sort_desc (l : list Z) : list Z := fold_right insert_desc [] l.

(* Python: del list[i], channel_spec.py:1977-1978 *)
Definition del_at {A} (l : list A) (i : Z) : list A :=
  firstn (Z.to_nat i) l ++ skipn (S (Z.to_nat i)) l.

(* Python: del dict[k], channel_spec.py:1974-1975 *)
Fixpoint dict_del {V} (k : string) (d : list (string * V)) : option (list (string * V)) :=
  match d with
  | [] => None
  | (k', v) :: d' =>
      if String.eqb k k' then Some d'
      else option_map (cons (k', v)) (dict_del k d')
  end.
(* channel_spec.py:1974-1975 *)
Fixpoint dict_del_all {V} (ks : list string) (d : list (string * V)) : result (list (string * V)) :=
  match ks with
  | [] => Ok d
  | k :: ks' => match dict_del k d with
                | Some d' => dict_del_all ks' d'
                | None => Err KeyError
                end
  end.

(* list branch of channel_spec.py:1941-1986 oset_delitem with an iterable of
   positions (1958-1959, 1967-1984) *)
Definition count_ge (idxs : list Z) (v : Z) : Z :=
  Z.of_nat (List.length (filter (fun i => i <=? v) idxs)).
(* channel_spec.py:1941-1986 oset_delitem *)
Definition oset_delitems (s : oset) (index : list Z) : result oset :=
  to_remove <- mapR (py_get (oitems s)) index ;;
  idxs <- mapR (fun k => match dict_get k (omap s) with
                         | Some v => Ok v | None => Err KeyError end) to_remove ;;
  let remove_idxs := sort_desc idxs in
  m <- dict_del_all to_remove (omap s) ;;
  let items := fold_left del_at remove_idxs (oitems s) in
  Ok (mkO items (map (fun kv => (fst kv, snd kv - count_ge remove_idxs (snd kv))) m)).

(* the object built by OrderedSet(l) of the ordered_set package *)
Definition oset_new (l : list string) : oset :=
  let items := oset_of l in
  mkO items (combine items (zseq (List.length items))).
