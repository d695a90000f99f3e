(* Vocabulary for images whose leafs are files. *)
From Verif Require Import Py GeomModel LazyModel LazySpec GraphModel GraphSpec FinalModel FinalSpec LoadModel.
Local Open Scope Z_scope.

Section Spec.
Context {V : Type} (E : env V).

(* a sample of a file after nodata handling *)
Definition stored (f : gfile V) (m : option string) (level y x b : Z) : LazyModel.sample V :=
  LazySpec.shown (e_veq E) (e_promote E) m (g_nodata f level b) (g_pix f level y x b).

(* the same leafs held in memory as (H, W, C) arrays: every file is read as a
   whole beforehand *)
Definition in_memory : FinalModel.world (LazyModel.sample V) :=
  let W := e_world E in
  World (fun id y x b => match e_disk E id with Some (f, m) => stored f m 0 y x b | None => w_pix W id y x b end)
        (fun id => match e_disk E id with Some _ => false | None => w_flat W id end)
        (w_nan W) (w_fill W) (w_dq W).

(* a leaf that is a file describes that file, and the file has some data; its
   overviews have the size the metadata says *)
Definition describes (l : leaf) : Prop :=
  match e_disk E (l_id l) with
  | Some (f, m) =>
      l_dsize l = (g_w f 0, g_h f 0) /\ l_nc l = Some (g_c f) /\
      0 < g_w f 0 /\ 0 < g_h f 0 /\ 0 < g_c f /\ 0 <= g_count f /\ In m methods
  | None => True
  end.
Definition files_ok (t : node) : Prop := leafs_all describes t.

(* no node of the image has an empty canvas *)
Fixpoint nonempty (t : node) : Prop :=
  (exists w h, dsize t = Some (w, h) /\ 0 < w /\ 0 < h) /\
  match t with
  | Leaf _ => True
  | Concat ps _ => forall_parts nonempty ps
  | Crop s _ _ _ _ _ _ | Warp s _ _ _ | Dequant s _ _ | Overview s _ _ => nonempty s
  end.

(* no overview nodes *)
Definition no_overviews (t : node) : Prop := warps_all (fun _ _ => True) t.

(* masked samples do not occur: no file is read as a masked array and nothing in
   memory is masked *)
Definition no_masks : Prop :=
  (forall id f m, e_disk E id = Some (f, m) -> m <> Some "ma"%string) /\
  let W := e_world E in
  (forall id y x b, unmask (w_pix W id y x b) = w_pix W id y x b) /\
  unmask (w_nan W) = w_nan W /\ unmask (w_fill W) = w_fill W /\
  (forall q v, unmask v = v -> unmask (w_dq W q v) = w_dq W q v).

(* no concatenation of several parts *)
Fixpoint single_parts (t : node) : Prop :=
  match t with
  | Leaf _ => True
  | Concat ps _ => (List.length ps <= 1)%nat /\ forall_parts single_parts ps
  | Crop s _ _ _ _ _ _ | Warp s _ _ _ | Dequant s _ _ | Overview s _ _ => single_parts s
  end.

(* the sample (row y, column x, band b, level) of file id belongs to a read *)
Definition reads_sample (r : read) (id level y x b : Z) : Prop :=
  rd_id r = id /\ rd_level r = level /\ rd_y r <= y < rd_y r + rd_h r /\ rd_x r <= x < rd_x r + rd_w r /\ In b (rd_bands r).
(* the array shows a window of a level of a file: rows from y0, columns from x0
   and the listed bands *)
Definition shows_window (f : gfile V) (m : option string) (level y0 x0 h w : Z) (bands : list Z) (a : array (LazyModel.sample V)) : Prop :=
  a_h a = h /\ a_w a = w /\ a_c a = Some (Z.of_nat (List.length bands)) /\
  forall r c k b, 0 <= r < h -> 0 <= c < w -> nth_error bands k = Some b ->
    a_pix a r c (Z.of_nat k) = stored f m level (y0 + r) (x0 + c) b.

(* get_overview(k) once for every k *)
Fixpoint overviews (ks : list Z) (t : node) : result node :=
  match ks with
  | [] => Ok t
  | k :: ks => t' <- mkOverview t k ;; overviews ks t'
  end.

(* number of samples a read transfers *)
Definition read_size (r : read) : Z := rd_h r * rd_w r * Z.of_nat (List.length (rd_bands r)).
Definition total (rs : list read) : Z := fold_right (fun r n => read_size r + n) 0 rs.
End Spec.
