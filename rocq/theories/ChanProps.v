(* Property theorems for channel specs (properties C01-C14, C17-C21, C71).
   Vocabulary: ChanSpec.v.  Program: ChanModel.v.  Proofs: Chan*Proofs.v. *)
From Verif Require Import ChanModel ChanSpec ChanProofs ChanSetProofs ChanStreamProofs ChanConciseProofs.
Local Open Scope string_scope.

(** * C01 *)

(* Every object the constructors and operations build satisfies [good]; the
   theorems below that assume it therefore cover every spec a user can make
   without setting the private _is_normalized argument. *)
Theorem good_of_constructors :
  (forall l, good (mkF l false)) /\ (forall s, good (fparse s)) /\
  (forall f n, good f -> normalize f = Ok n -> good n) /\
  (forall f n, concise f = Ok n -> good n) /\
  (forall s, good (cfuse (mkC s None))) /\
  (forall s k f, In (k, f) (parse_text s) -> good f).
Proof. exact good_reachable. Qed.
Print Assumptions good_of_constructors.

Theorem C01_normalize_atomic_idempotent :
  (forall f n, good f -> normalize f = Ok n ->
     Forall atomic (codes n) /\ (forall b, normalize (mkF (codes n) b) = Ok n) /\ normalize n = Ok n) /\
  (forall l b, Forall atomic l -> normalize (mkF l b) = Ok (mkF l true)).
Proof. exact normalize_atomic_idempotent. Qed.
Example C01_case : normalize (mkF ["rgb"; "a:2"; "b"] false)
                   = Ok (mkF ["r"; "g"; "b"; "a.0"; "a.1"; "b"] true).
Proof. vm_compute. reflexivity. Qed.
Print Assumptions C01_normalize_atomic_idempotent.

(* what normalize computes, against the independent meaning of codes *)
Theorem C01_normalize_is_denotation :
  forall f names, good f -> (rmap codes (normalize f) = Ok names <-> denotes_all (codes f) names).
Proof. exact normalize_denotes. Qed.
Example C01_denotes_case : denotes_all ["dxdy"; "q"] ["dx"; "dy"; "q"].
Proof.
  apply (normalize_denotes (mkF ["dxdy"; "q"] false)); [intros H; discriminate|reflexivity].
Qed.
Print Assumptions C01_normalize_is_denotation.

(** * C02 *)

Theorem C02_numel_sizes :
  forall f, good f ->
    (numel f = rmap (fun n => Z.of_nat (List.length (codes n))) (normalize f)) /\
    (numel f = rmap zsum (sizes f)) /\
    (forall e, numel f = Err e <-> normalize f = Err e) /\
    (forall szs, sizes f = Ok szs ->
       Forall2 (fun c z => exists l, denotes c l /\ z = Z.of_nat (List.length l)) (codes f) szs).
Proof. exact numel_sizes_agree. Qed.
Example C02_case : numel (mkF ["rgba"; "a.3:9:2"; "b"] false) = Ok 8%Z /\
                   numel (mkF ["a:1:2:3:4"] false) = Err ValueError.
Proof. vm_compute. auto. Qed.
Print Assumptions C02_numel_sizes.

(** * C03 *)

Theorem C03_concise_lossless :
  forall f n, good f -> normalize f = Ok n -> Forall canonical (codes n) ->
    exists g, concise f = Ok g /\ normalize g = Ok n /\
              (List.length (codes g) <= List.length (codes n))%nat /\ chain_free (codes g).
Proof. exact concise_lossless. Qed.
Example C03_case :
  concise (mkF ["a.0"; "a.1"; "a.2"; "b"; "c.4"; "c.5"; "c.7"] false)
  = Ok (mkF ["a:3"; "b"; "c.4:6"; "c.7"] false) /\
  Forall canonical ["a.0"; "a.1"; "b"; "c.-4"].
Proof.
  split; [vm_compute; reflexivity|].
  apply Forall_cons; [right; exists "a", 0%Z; split; reflexivity|].
  apply Forall_cons; [right; exists "a", 1%Z; split; reflexivity|].
  apply Forall_cons; [left; reflexivity|].
  apply Forall_cons; [right; exists "c", (-4)%Z; split; reflexivity|].
  constructor.
Qed.
Print Assumptions C03_concise_lossless.

(** * C04 *)

(* The claim in full is false of the code. *)
Theorem C04_concise_total_refuted :
  ~ (forall f n, good f -> normalize f = Ok n ->
       exists g, concise f = Ok g /\ normalize g = Ok n).
Proof. exact concise_total_refuted. Qed.
(* two ways it fails: a raised error, and a silently different channel *)
Theorem C04_concise_failures_refuted :
  (exists f n, good f /\ normalize f = Ok n /\ concise f = Err ValueError) /\
  (exists f n g n', good f /\ normalize f = Ok n /\ concise f = Ok g /\ normalize g = Ok n' /\
                    codes n' <> codes n).
Proof. exact concise_failures. Qed.
Print Assumptions C04_concise_total_refuted.
Print Assumptions C04_concise_failures_refuted.
(* exactly when it succeeds, what it raises otherwise, and what the codes become:
   only the way indexes are written can change.  Missing: nothing but the claim's
   equality of the codes themselves, which is false. *)
Theorem C04_concise_partial :
  forall f n, good f -> normalize f = Ok n ->
    ((exists g, concise f = Ok g) <-> Forall (fun c => exists c', plainly c c') (codes n)) /\
    (forall g, concise f = Ok g -> exists n', normalize g = Ok n' /\ Forall2 plainly (codes n) (codes n')) /\
    (forall e, concise f = Err e -> e = ValueError).
Proof. exact concise_exactly. Qed.
Example C04_case : plainly "a.007" "a.7" /\ ~ (exists c, plainly "a.b" c) /\
  concise (mkF ["a.006"; "a.007"; "b"] false) = Ok (mkF ["a.6:8"; "b"] false).
Proof.
  split; [right; exists "a", "007", 7%Z; repeat split|]. split; [|vm_compute; reflexivity].
  intros (c & [[H _]|(r & l & i & Hr & Hl & E & Hi & _)]); [discriminate|].
  destruct r as [|x [|y r]]; cbn in E; [discriminate E| |].
  - inversion E; subst. discriminate Hi.
  - inversion E; subst. discriminate Hr.
Qed.
Print Assumptions C04_concise_partial.

(** * C05 *)

Theorem C05_slice_syntax :
  (forall c root start stop step idxs,
     slice_form c root start stop step -> step <> 0%Z -> lists_progression start stop step idxs ->
     rmap codes (normalize (mkF [c] false)) = Ok (map (fun i => root ++ String "." (Z_str i)) idxs)) /\
  (forall c, contains ":" c = true ->
     (forall root start stop step, slice_form c root start stop step -> step = 0%Z) ->
     exists e, normalize (mkF [c] false) = Err e) /\
  (forall start stop step, step <> 0%Z -> exists idxs, lists_progression start stop step idxs).
Proof. exact slice_syntax_meaning. Qed.
Example C05_case :
  slice_form "a.5:-4:-3" "a" 5 (-4) (-3) /\ lists_progression 5 (-4) (-3) [5; 2; -1]%Z /\
  normalize (mkF ["a.5:-4:-3"] false) = Ok (mkF ["a.5"; "a.2"; "a.-1"] true) /\
  normalize (mkF ["a:3:"] false) = Err ValueError.
Proof.
  split; [|split; [|split; vm_compute; reflexivity]].
  - apply (SF_start_stop_step "." "a" "5" "-4" "-3"); try (split; reflexivity); auto;
      try reflexivity; right; (split; [discriminate|reflexivity]).
  - apply py_range_lists. reflexivity.
Qed.
Print Assumptions C05_slice_syntax.

(** * C06 *)

Theorem C06_set_algebra :
  forall f g A B, good f -> good g -> denotes_all (codes f) A -> denotes_all (codes g) B ->
  (exists d, difference f (OpSpec g) = Ok d /\
     (forall c, In c (codes d) <-> In c A /\ ~ In c B) /\ NoDup (codes d) /\ subseq (codes d) A) /\
  (exists d, intersection f (OpSpec g) = Ok d /\
     (forall c, In c (codes d) <-> In c A /\ In c B) /\ subseq (codes d) A /\
     (forall c, In c B -> count_occ string_dec (codes d) c = count_occ string_dec A c)) /\
  (exists d, union f (OpSpec g) = Ok d /\
     (forall c, In c (codes d) <-> In c A \/ In c B) /\ NoDup (codes d) /\
     exists left rest, codes d = (left ++ rest)%list /\ (forall c, In c left <-> In c A) /\
                       subseq left A /\ subseq rest B) /\
  (exists r, issubset f (OpSpec g) = Ok r /\ (r = true <-> incl A B)) /\
  (exists r, issuperset f (OpSpec g) = Ok r /\ (r = true <-> incl B A)).
Proof. exact fused_set_algebra. Qed.
Example C06_case :
  difference (mkF ["rgb"; "z:3"] false) (OpSpec (mkF ["g"; "z.1"] false)) = Ok (mkF ["r"; "b"; "z.0"; "z.2"] true) /\
  issubset (mkF ["z.1:3"] false) (OpSpec (mkF ["z:3"] false)) = Ok true.
Proof. vm_compute. auto. Qed.
Print Assumptions C06_set_algebra.

(** * C07 *)

Theorem C07_stream_algebra :
  forall s t n B, cnormalize (mkC s None) = Ok n ->
    denotes_all (List.concat (read_streams t)) B ->
    Forall (fun l => ~ In "" l) (cvalues n) ->
    (exists d ds, cdifference (mkC s None) (mkC t None) = Ok d /\
       Forall2 (fun l dl => (forall c, In c dl <-> In c l /\ ~ In c B) /\ NoDup dl /\ subseq dl l) (cvalues n) ds /\
       read_streams (ctext d) = filter (fun l => negb (Nat.eqb (List.length l) 0)) ds) /\
    (exists d ds, cintersection (mkC s None) (mkC t None) = Ok d /\
       Forall2 (fun l dl => (forall c, In c dl <-> In c l /\ In c B) /\ subseq dl l) (cvalues n) ds /\
       read_streams (ctext d) = filter (fun l => negb (Nat.eqb (List.length l) 0)) ds).
Proof. exact stream_algebra. Qed.
Theorem C07_stream_union :
  forall s t n m, cnormalize (mkC s None) = Ok n -> cnormalize (mkC t None) = Ok m ->
    streams_writable n -> streams_writable m ->
    exists u, cunion (mkC s None) (mkC t None) = Ok u /\
      read_streams (ctext u) = (cvalues n ++ cvalues m)%list.
Proof. exact cunion_spec. Qed.
Example C07_case :
  rmap ctext (cdifference (mkC "rgb|nir,dxdy,z:3" None) (mkC "g|dx,dy,z.1" None)) = Ok "r|b|nir,z.0|z.2" /\
  rmap ctext (cunion (mkC "rgb,a" None) (mkC "a,b:2" None)) = Ok "r|g|b,a,a,b.0|b.1".
Proof. vm_compute. auto. Qed.
Print Assumptions C07_stream_algebra.
Print Assumptions C07_stream_union.

(** * C08 *)

Theorem C08_fuse_split :
  forall s names, denotes_all (List.concat (read_streams s)) names ->
    codes (cfuse (mkC s None)) = List.concat (read_streams s) /\
    normalize (cfuse (mkC s None)) = Ok (mkF names true) /\
    numel (cfuse (mkC s None)) = Ok (Z.of_nat (List.length names)) /\
    (NoDup (read_streams s) -> cnumel (mkC s None) = Ok (Z.of_nat (List.length names))) /\
    (~ In "" names -> exists c, csplit (mkC s None) = Ok c /\
        read_streams (ctext c) = map (fun x => [x]) names /\
        (NoDup names -> cnumel c = Ok (Z.of_nat (List.length names)))).
Proof. exact fuse_split. Qed.
Example C08_case :
  rmap ctext (csplit (mkC "rgb|z:2,q" None)) = Ok "r,g,b,z.0,z.1,q" /\
  cnumel (mkC "rgb|z:2,q" None) = Ok 6%Z /\ numel (cfuse (mkC "rgb|z:2,q" None)) = Ok 6%Z.
Proof. vm_compute. auto. Qed.
Print Assumptions C08_fuse_split.

(** * C71 *)

(* numel of a late-fused spec is meant to count the channels of all streams; a
   repeated stream is counted once, so fuse can change numel *)
Theorem C71_numel_repeated_refuted :
  ~ (forall s names, denotes_all (List.concat (read_streams s)) names ->
       cnumel (mkC s None) = numel (cfuse (mkC s None))).
Proof. exact numel_repeated_refuted. Qed.
Print Assumptions C71_numel_repeated_refuted.
(* what it counts: the channels of the distinct streams, each stream once; so the
   claim holds for specs without repeated streams *)
Theorem C71_numel_partial :
  (forall s U names, NoDup U -> (forall x, In x U <-> In x (read_streams s)) ->
     denotes_all (List.concat U) names -> cnumel (mkC s None) = Ok (Z.of_nat (List.length names))) /\
  (forall s names, NoDup (read_streams s) -> denotes_all (List.concat (read_streams s)) names ->
     cnumel (mkC s None) = numel (cfuse (mkC s None))).
Proof.
  split; [exact cnumel_distinct|]. intros s names Hn H. destruct (fuse_split s names H) as (_ & _ & -> & G & _). auto.
Qed.
Example C71_case : cnumel (mkC "rgb,z:2,rgb,q" None) = Ok 6%Z /\
  numel (cfuse (mkC "rgb,z:2,rgb,q" None)) = Ok 9%Z /\ NoDup (read_streams "rgb,z:2,q").
Proof. split; [reflexivity|]. split; [reflexivity|]. repeat constructor; cbn; intuition discriminate. Qed.
Print Assumptions C71_numel_partial.

(** * C09 *)

Theorem C09_late_fuse_monoid :
  (forall a b, read_streams (btext (late_fuse a b)) = (read_streams (btext a) ++ read_streams (btext b))%list) /\
  (forall a b, late_fuse_any a (LSpec b) = Ok (OSpec (late_fuse a b))) /\
  (forall a e, btext e = "" -> late_fuse e a = a /\ btext (late_fuse a e) = btext a) /\
  (forall a b c, btext (late_fuse a (late_fuse b c)) = btext (late_fuse (late_fuse a b) c)) /\
  (forall l b, spec_sum l = Some b ->
     read_streams (btext b) = List.concat (map (fun x => read_streams (btext x)) l)).
Proof. exact late_fuse_monoid. Qed.
Example C09_case :
  btext (late_fuse (BF (mkF ["a"; "b"] false)) (BC (mkC "c,d" None))) = "a|b,c,d" /\
  btext (BF (mkF [] false)) = "".
Proof. vm_compute. auto. Qed.
Print Assumptions C09_late_fuse_monoid.

(** * C10 *)

(* The claim in full: a str operand gives the late fusion.  It never does. *)
Theorem C10_late_fuse_str_refuted :
  ~ (forall a s, exists b, late_fuse_any a (LStr s) = Ok (OSpec b) /\
       read_streams (btext b) = (read_streams (btext a) ++ read_streams s)%list) /\
  (forall a s, btext a <> "" -> late_fuse_any a (LStr s) = Err TypeError).
Proof. exact late_fuse_str_refuted. Qed.
Print Assumptions C10_late_fuse_str_refuted.
(* what remains true: a str added to an empty spec is returned, as a str *)
Theorem C10_late_fuse_str_partial :
  forall a s o, late_fuse_any a (LStr s) = Ok o <->
    btext a = "" /\ o = OStr s /\ read_streams s = (read_streams (btext a) ++ read_streams s)%list.
Proof.
  intros a s o. unfold late_fuse_any. destruct (String.eqb_spec (btext a) "") as [->|E].
  - split; [intros [= <-]; auto|intros (_ & -> & _); reflexivity].
  - split; [discriminate|tauto].
Qed.
Example C10_case : late_fuse_any (BF (mkF [] false)) (LStr "a|b,c") = Ok (OStr "a|b,c") /\
  late_fuse_any (BF (mkF ["r"] false)) (LStr "a|b,c") = Err TypeError.
Proof. split; reflexivity. Qed.
Print Assumptions C10_late_fuse_str_partial.

(** * C11 *)

Theorem C11_coerce_history_independent_partial :
  forall history d, not_float d ->
    fst (coerce (fold_left memo_step history []) d) = coerce_fresh d.
Proof. exact coerce_history_independent. Qed.
Example C11_case :
  fst (coerce (fold_left memo_step [OpCoerce (DInt 3); OpFromSpec "a|b"; OpCoerce (DStr "3")] []) (DBool true))
  = Ok (mkF ["u0"] false).
Proof. vm_compute. reflexivity. Qed.
(* missing from the partial theorem: floats, for which the claim is false *)
Theorem C11_coerce_history_refuted :
  ~ (forall history d, fst (coerce (fold_left memo_step history []) d) = coerce_fresh d).
Proof. exact coerce_history_refuted. Qed.
Print Assumptions C11_coerce_history_independent_partial.
Print Assumptions C11_coerce_history_refuted.

(** * C12 *)

Theorem C12_normalize_text_agrees :
  forall s n, cnormalize (mkC s None) = Ok n ->
    cnormalize n = Ok n /\
    (streams_writable n ->
       read_streams (ctext n) = cvalues n /\ NoDup (cvalues n) /\
       (forall l, In l (cvalues n) <-> exists l0, In l0 (read_streams s) /\ denotes_all l0 l) /\
       exists n', cnormalize (mkC (ctext n) None) = Ok n' /\ ctext n' = ctext n /\ cvalues n' = cvalues n).
Proof. exact normalize_text_agrees. Qed.
Theorem C12_concise_text_agrees :
  forall s n, cnormalize (mkC s None) = Ok n -> streams_writable n ->
    Forall (Forall canonical) (cvalues n) ->
    exists k, cconcise (mkC s None) = Ok k /\ read_streams (ctext k) = cvalues k /\
      (forall names, (exists l, In l (cvalues k) /\ denotes_all l names) <-> In names (cvalues n)).
Proof. exact cconcise_text. Qed.
Example C12_case :
  rmap ctext (cnormalize (mkC "rgb,z:2|q,r|g|b" None)) = Ok "r|g|b,z.0|z.1|q" /\
  rmap ctext (cconcise (mkC "a.0|a.1|a.2,z:2|q" None)) = Ok "a:3,z:2|q" /\
  streams_writable (mkC "r|g|b,z.0|z.1|q" None).
Proof.
  split; [|split]; [vm_compute; reflexivity..|]. vm_compute. repeat constructor; discriminate.
Qed.
(* without the side condition the claim is false: a stream that normalizes to
   no channel at all is held by the object but lost in its text *)
Theorem C12_empty_stream_refuted :
  ~ (forall s n, cnormalize (mkC s None) = Ok n -> read_streams (ctext n) = cvalues n).
Proof. exact empty_stream_refuted. Qed.
Print Assumptions C12_normalize_text_agrees.
Print Assumptions C12_concise_text_agrees.
Print Assumptions C12_empty_stream_refuted.

(** * C13 *)

Theorem C13_component_indices_tile :
  forall s names, NoDup (List.concat (read_streams s)) -> NoDup (read_streams s) ->
    denotes_all (List.concat (read_streams s)) names ->
    exists d szss, component_indices (mkC s None) = Ok d /\
      Forall2 (fun l szs => Forall2 (fun c z => exists ns, denotes c ns /\ z = Z.of_nat (List.length ns)) l szs)
              (read_streams s) szss /\
      d = List.concat (map (fun ks => map (fun pr => (fst pr, (join "|" (fst ks), snd pr)))
                                          (combine (fst ks) (tile 0 (snd ks))))
                           (combine (read_streams s) szss)).
Proof. exact component_indices_spec. Qed.
Example C13_case : component_indices (mkC "rgb|z:2,q" None)
  = Ok [("rgb", ("rgb|z:2", (0, 3)%Z)); ("z:2", ("rgb|z:2", (3, 5)%Z)); ("q", ("q", (0, 1)%Z))].
Proof. vm_compute. reflexivity. Qed.
Print Assumptions C13_component_indices_tile.

(** * C14 *)

(* claim: the last stop of component_indices is numel *)
Theorem C14_fused_component_indices_refuted :
  ~ (forall l n, NoDup l -> numel (mkF l false) = Ok n ->
       exists szs, zsum szs = n /\ List.length szs = List.length l /\
                   fused_component_indices (mkF l false) = combine l (tile 0 szs)).
Proof. exact fused_component_indices_refuted. Qed.
Theorem C14_fused_component_indices_partial :
  forall l, NoDup l -> Forall (fun c => contains ":" c = false) l ->
  exists szs, Forall2 (fun c z => exists ns, denotes c ns /\ z = Z.of_nat (List.length ns)) l szs /\
    fused_component_indices (mkF l false) = combine l (tile 0 szs) /\
    numel (mkF l false) = Ok (zsum szs).
Proof. exact fci_spec. Qed.
Example C14_case : fused_component_indices (mkF ["x"; "rgb"; "dxdy"] false)
  = [("x", (0, 1)); ("rgb", (1, 4)); ("dxdy", (4, 6))]%Z.
Proof. vm_compute. reflexivity. Qed.
Print Assumptions C14_fused_component_indices_refuted.
Print Assumptions C14_fused_component_indices_partial.

(** * C17 *)

Theorem C17_subsequence_index :
  forall s1 s2, NoDup s1 ->
    match subsequence_index s1 s2 with
    | Some (p, q) => block_at s1 s2 p /\ q = (p + List.length s2)%nat
    | None => forall p, ~ block_at s1 s2 p
    end.
Proof. exact subsequence_index_exact. Qed.
Example C17_case :
  subsequence_index ["a"; "b"; "c"; "d"] ["b"; "c"] = Some (1, 3)%nat /\
  subsequence_index ["a"; "b"; "c"; "d"] ["b"; "d"] = None.
Proof. vm_compute. auto. Qed.
Print Assumptions C17_subsequence_index.

(** * C18 *)

Theorem C18_ordered_set_edits :
  forall l es, edits_in_range (oset_of l) es ->
    exists s', apply_edits (oset_new l) es = Ok s' /\ oset_ok s' /\
               oitems s' = fold_left list_edit es (oset_of l).
Proof. exact oset_edits. Qed.
Example C18_case :
  edits_in_range (oset_of ["a"; "b"; "a"; "c"]) [EIns 1 "x"; EDel [0; 2]%Z; EIns 2 "y"] /\
  rmap oitems (apply_edits (oset_new ["a"; "b"; "a"; "c"]) [EIns 1 "x"; EDel [0; 2]%Z; EIns 2 "y"])
  = Ok ["x"; "c"; "y"].
Proof.
  split; [|vm_compute; reflexivity].
  cbn [edits_in_range edit_in_range]. split; [vm_compute; split; discriminate|].
  split; [split|split; [vm_compute; split; discriminate|exact I]].
  - repeat constructor; cbn; intuition discriminate.
  - repeat constructor; vm_compute; discriminate.
Qed.
Print Assumptions C18_ordered_set_edits.

(** * C19 *)

Theorem C19_path_legal :
  forall hash b maxlen p, (forall x, lower_only (hash x) = true) ->
    path_sanitize hash b maxlen = Ok p ->
    (forall c, In c illegal -> contains c p = false) /\
    last_char p <> Some "."%char /\ last_char p <> Some " "%char.
Proof. exact path_legal. Qed.
Example C19_case :
  path_sanitize (fun _ => "abcdefghijklmnop") (BC (mkC "rgb|z:3,q." None)) None = Ok "rgb_z..3,q._" /\
  path_sanitize (fun _ => "abcdefghijklmnop") (BC (mkC "rgb|z:3,q." None)) (Some 10%Z) = Ok "abcdefgh_7".
Proof. vm_compute. auto. Qed.
Print Assumptions C19_path_legal.

(** * C20 *)

Theorem C20_path_maxlen_refuted :
  ~ (forall hash b maxlen p, (forall x, lower_only (hash x) = true) ->
       path_sanitize hash b (Some maxlen) = Ok p -> (Z.of_nat (String.length p) <= maxlen)%Z).
Proof. exact path_maxlen_refuted. Qed.
Theorem C20_path_maxlen_partial :
  forall hash b maxlen p n, (10 <= maxlen)%Z -> bnumel b = Ok n -> (0 <= n < 10)%Z ->
    path_sanitize hash b (Some maxlen) = Ok p -> (Z.of_nat (String.length p) <= maxlen)%Z.
Proof. exact path_maxlen_partial. Qed.
Example C20_case :
  path_sanitize (fun _ => "abcdefghijklmnop") (BC (mkC "rgb|panchromatic" None)) (Some 12%Z) = Ok "abcdefghij_4".
Proof. vm_compute. reflexivity. Qed.
Print Assumptions C20_path_maxlen_refuted.
Print Assumptions C20_path_maxlen_partial.

(** * C21 *)

Theorem C21_indexing :
  forall f names, good f -> denotes_all (codes f) names ->
    (forall i c, getitem f (IInt i) = Ok (GCode c) <->
       exists k, nth_error names k = Some c /\
                 (Z.of_nat k = i \/ Z.of_nat k = i + Z.of_nat (List.length names))%Z) /\
    (forall a b pa pb, at_pos (List.length names) a pa -> at_pos (List.length names) b pb -> (pa <= pb)%nat ->
       exists g, getitem f (ISlice (Some a) (Some b) None) = Ok (GSpec g) /\
                 block_at names (codes g) pa /\ List.length (codes g) = (pb - pa)%nat) /\
    (forall l g, getitem f (IList l) = Ok (GSpec g) <->
       isnorm g = false /\
       Forall2 (fun i c => exists k, nth_error names k = Some c /\
                 (Z.of_nat k = i \/ Z.of_nat k = i + Z.of_nat (List.length names))%Z) l (codes g)).
Proof. exact getitem_spec. Qed.
Example C21_case :
  getitem (mkF ["rgb"; "z:3"] false) (ISlice (Some 1%Z) (Some (-1)%Z) None) = Ok (GSpec (mkF ["g"; "b"; "z.0"; "z.1"] false)) /\
  getitem (mkF ["rgb"; "z:3"] false) (IList [5; 0; 0]%Z) = Ok (GSpec (mkF ["z.2"; "r"; "r"] false)).
Proof. vm_compute. auto. Qed.
Print Assumptions C21_indexing.

(* every slice, with missing or out-of-range bounds and any step, forwards or
   backwards: the names at the positions it passes over, in walking order *)
Theorem C21_slices :
  forall f names a b st, good f -> denotes_all (codes f) names ->
    let step := match st with None => 1%Z | Some s => s end in
    (step = 0%Z -> getitem f (ISlice a b st) = Err ValueError) /\
    (step <> 0%Z -> exists ks out,
       getitem f (ISlice a b st) = Ok (GSpec (mkF out false)) /\
       (forall k, In k ks <-> picks (Z.of_nat (List.length names)) a b step k) /\
       StronglySorted (fun x y => (0 < step -> x < y) /\ (step < 0 -> y < x))%Z ks /\
       Forall2 (fun k c => nth_error names (Z.to_nat k) = Some c) ks out).
Proof. exact getitem_slices. Qed.
Example C21_slices_case :
  getitem (mkF ["rgb"; "z:3"] false) (ISlice (Some (-2)%Z) (Some (-100)%Z) (Some (-2)%Z)) = Ok (GSpec (mkF ["z.1"; "b"; "r"] false)) /\
  getitem (mkF ["rgb"; "z:3"] false) (ISlice (Some 1%Z) (Some 100%Z) (Some 3%Z)) = Ok (GSpec (mkF ["g"; "z.1"] false)) /\
  getitem (mkF ["rgb"; "z:3"] false) (ISlice None None (Some (-1)%Z)) = Ok (GSpec (mkF ["z.2"; "z.1"; "z.0"; "b"; "g"; "r"] false)).
Proof. vm_compute. auto. Qed.
Print Assumptions C21_slices.
