(* Vocabulary for the lazy loaders, the cache, prepare and shape merging. *)
From Verif Require Import Py LazyModel.
Local Open Scope Z_scope.

(** ** What an index selects from an (H, W, C) array *)

(* positions along an axis of length D; None is a full slice, an int keeps the
   axis, list entries may count from the end *)
Definition selects (i : idx) (D : Z) : list Z :=
  match i with
  | ISlice a b None => py_slice (zseq (Z.to_nat D)) a b
  | IInt i => [i]
  | IList l => map (fun i => if i <? 0 then i + D else i) l
  | _ => zseq (Z.to_nat D)
  end.

(* the entries of an index per axis: missing ones are full, an Ellipsis stands
   for at least [least] full ones *)
Definition means (least : nat) (index : list idx) (iy ix ic : idx) : Prop :=
  (~ In IEllipsis index /\ exists k, [iy; ix; ic] = (index ++ repeat full k)%list) \/
  (exists pre post k, index = (pre ++ IEllipsis :: post)%list /\ ~ In IEllipsis (pre ++ post) /\
     (least <= k)%nat /\ [iy; ix; ic] = (pre ++ repeat full k ++ post)%list).

(* row and column entries the file can serve: non-negative starts *)
Definition window_entry (i : idx) (D : Z) : Prop :=
  match i with
  | INone => True
  | ISlice a b None => match a with None => True | Some a => 0 <= a end
  | IInt i => 0 <= i < D
  | _ => False
  end.
(* band entries: also lists; a slice may be empty but stops inside the axis *)
Definition band_entry (i : idx) (D : Z) : Prop :=
  match i with
  | IList l => Forall (fun i => - D <= i < D) l
  | ISlice _ (Some b) None => window_entry i D /\ - D <= b
  | _ => window_entry i D
  end.

(* the handle is at a level the file has *)
Definition level_ok {V} (s : lazy V) : Prop := 0 <= l_overview s <= g_count (l_file s).

(** ** nodata *)
Section Marks.
Context {V : Type} (veq : V -> V -> bool) (promote : V -> V).

(* a sample is nodata when it equals the nodata value of its band *)
Definition is_nodata (nd : option V) (v : V) : bool :=
  match nd with Some n => veq v n | None => false end.

Definition shown (m : option string) (nd : option V) (v : V) : sample V :=
  match m with
  | None => SVal v
  | Some m => if String.eqb m "ma" then (if is_nodata nd v then SMask v else SVal v)
              else if is_nodata nd v then SNan else SVal (promote v)
  end.
Definition methods : list (option string) :=
  [None; Some "ma"; Some "float"; Some "nan"; Some "auto"]%string.
End Marks.

(* the integer nearest to v with p significant bits (ties to even): what storing
   v in a float with a p-bit significand gives *)
Definition store (p v : Z) : Z :=
  let e := Z.max 0 (Z.log2 (Z.abs v) + 1 - p) in
  let q := v / 2 ^ e in
  let r := v - q * 2 ^ e in
  let up := (2 ^ e <? 2 * r) || ((2 ^ e =? 2 * r) && Z.odd q) in
  (if up then q + 1 else q) * 2 ^ e.

(* the integer types GDAL hands out (_GDAL_DTYPE_LUT, lazy_loaders.py:106-118),
   and the significand of np.result_type(dtype, np.float32) *)
Inductive gtype := U8 | U16 | I16 | U32 | I32.
Definition in_type (t : gtype) (v : Z) : Prop :=
  match t with
  | U8 => 0 <= v < 2 ^ 8
  | U16 => 0 <= v < 2 ^ 16
  | I16 => - 2 ^ 15 <= v < 2 ^ 15
  | U32 => 0 <= v < 2 ^ 32
  | I32 => - 2 ^ 31 <= v < 2 ^ 31
  end.
Definition float_bits (t : gtype) : Z := match t with U8 | U16 | I16 => 24 | U32 | I32 => 53 end.

(** ** Caches *)
Section CacheSpec.
Context {K V : Type} (keq : K -> K -> bool).

(* the keys used, in order; a miss is no use *)
Fixpoint uses (es : list (@event K V)) : list K :=
  match es with
  | [] => []
  | Wrote k _ :: es' | Read k _ :: es' => k :: uses es'
  | Missed _ :: es' => uses es'
  end.
(* first occurrences *)
Fixpoint distinct (l : list K) : list K :=
  match l with
  | [] => []
  | k :: l' => k :: filter (fun k' => negb (keq k' k)) (distinct l')
  end.
(* keys by time of last use, most recent first *)
Definition recent (es : list (@event K V)) : list K := distinct (rev (uses es)).

Fixpoint last_written (es : list (@event K V)) (k : K) : option V :=
  match es with
  | [] => None
  | e :: es' =>
      match last_written es' k with
      | Some v => Some v
      | None => match e with Wrote k' v => if keq k' k then Some v else None | _ => None end
      end
  end.

(* the event of an operation *)
Definition answers (o : @op K V) (e : @event K V) : Prop :=
  match o, e with
  | OSet k v, Wrote k' v' => k = k' /\ v = v'
  | OGet k, Read k' _ => k = k'
  | OGet k, Missed k' => k = k'
  | _, _ => False
  end.
End CacheSpec.

(** ** Shapes *)

(* the known extents along an axis *)
Definition extent (shapes : list (option (list (option Z)))) (i : nat) (z : Z) : Prop :=
  exists s, In (Some s) shapes /\ nth_error s i = Some (Some z).
Definition has_axis (shapes : list (option (list (option Z)))) (i : nat) : Prop :=
  exists s, In (Some s) shapes /\ (i < List.length s)%nat.

(* shapes without zero extents *)
Definition nonzero (shapes : list (option (list (option Z)))) : Prop := forall i z, extent shapes i z -> z <> 0.

(* r is the entry of the merged shape for axis i: the largest known extent, None
   when the axis is there but nowhere known, missing when no shape has it *)
Definition axis_ok (shapes : list (option (list (option Z)))) (i : nat) (r : option (option Z)) : Prop :=
  match r with
  | None => ~ has_axis shapes i
  | Some None => has_axis shapes i /\ forall z, ~ extent shapes i z
  | Some (Some m) => extent shapes i m /\ forall z, extent shapes i z -> z <= m
  end.

(** ** prepare *)

(* what the file says *)
Definition file_dsize (s : source) : Z * Z := match s with SGdal h w _ _ | SPlain h w _ => (w, h) end.
Definition file_channels (s : source) : Z := match s with SGdal _ _ c _ => c | SPlain _ _ (Some c) => c | SPlain _ _ None => 1 end.
Definition file_overviews (s : source) : Z := match s with SGdal _ _ _ n => n | SPlain _ _ _ => 0 end.

(* all of width, height, channels and overviews are known *)
Definition complete (m : lmeta) : Prop :=
  (exists w h, m_dsize m = Some (Some w, Some h)) /\ (exists c, m_channels m = Some c) /\ (exists n, m_overviews m = Some n).

(* m' is m with the unknown parts filled in from the file; the number of overviews
   is taken from the file unless nothing was unknown *)
Definition fills (s : source) (m m' : lmeta) : Prop :=
  (forall w h, m_dsize m = Some (Some w, Some h) -> m_dsize m' = Some (Some w, Some h)) /\
  ((forall w h, m_dsize m <> Some (Some w, Some h)) -> m_dsize m' = Some (Some (fst (file_dsize s)), Some (snd (file_dsize s)))) /\
  (forall c, m_channels m = Some c -> m_channels m' = Some c) /\
  (m_channels m = None -> m_channels m' = Some (file_channels s)) /\
  (complete m -> m_overviews m' = m_overviews m) /\
  (~ complete m -> m_overviews m' = Some (file_overviews s)).

(* the same tree with every load filled in and nothing else changed *)
Inductive prepared : ptree -> ptree -> Prop :=
| P_load s m m' : fills s m m' -> prepared (PLoad s m) (PLoad s m')
| P_node m cs cs' : Forall2 prepared cs cs' -> prepared (PNode m cs) (PNode m cs').
