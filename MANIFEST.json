{
 "claims": [
  {
   "property": "C01",
   "status": "proved",
   "theorems": [
    "C01_normalize_atomic_idempotent",
    "C01_normalize_is_denotation",
    "good_of_constructors"
   ],
   "note": "All code lists; the meaning of codes is given independently in ChanSpec.v."
  },
  {
   "property": "C02",
   "status": "proved",
   "theorems": [
    "C02_numel_sizes"
   ],
   "note": ""
  },
  {
   "property": "C03",
   "status": "proved",
   "theorems": [
    "C03_concise_lossless"
   ],
   "note": "Also: output is maximally merged."
  },
  {
   "property": "C04",
   "status": "partial",
   "theorems": [
    "C04_concise_total_refuted",
    "C04_concise_failures_refuted",
    "C04_concise_partial"
   ],
   "note": "The property is false of the code; its negation is proved with two kinds of witness (error on a.b.c, changed name on a.00). Proved: the exact success condition, the error raised otherwise, and that only the spelling of indexes can change."
  },
  {
   "property": "C05",
   "status": "proved",
   "theorems": [
    "C05_slice_syntax"
   ],
   "note": ""
  },
  {
   "property": "C06",
   "status": "proved",
   "theorems": [
    "C06_set_algebra",
    "C06_bad_operand",
    "C06_bad_superset"
   ],
   "note": "C06_bad_operand, C06_bad_superset: what happens when the other spec has malformed slice codes."
  },
  {
   "property": "C07",
   "status": "proved",
   "theorems": [
    "C07_stream_algebra",
    "C07_stream_union"
   ],
   "note": "Channel names are non-empty."
  },
  {
   "property": "C08",
   "status": "proved",
   "theorems": [
    "C08_fuse_split"
   ],
   "note": ""
  },
  {
   "property": "C09",
   "status": "proved",
   "theorems": [
    "C09_late_fuse_monoid"
   ],
   "note": ""
  },
  {
   "property": "C10",
   "status": "partial",
   "theorems": [
    "C10_late_fuse_str_refuted",
    "C10_late_fuse_str_partial"
   ],
   "note": "The property is false of the code (TypeError for every non-empty left operand); an empty spec returns the str itself."
  },
  {
   "property": "C11",
   "status": "partial",
   "theorems": [
    "C11_coerce_history_independent_partial",
    "C11_coerce_history_refuted"
   ],
   "note": "True for every argument kind except floats, for which the full claim is refuted."
  },
  {
   "property": "C12",
   "status": "proved",
   "theorems": [
    "C12_normalize_text_agrees",
    "C12_concise_text_agrees",
    "C12_empty_stream_refuted"
   ],
   "note": "With an empty stream the claim is false (C12_empty_stream_refuted), hence the quantifier."
  },
  {
   "property": "C13",
   "status": "proved",
   "theorems": [
    "C13_component_indices_tile"
   ],
   "note": ""
  },
  {
   "property": "C14",
   "status": "partial",
   "theorems": [
    "C14_fused_component_indices_refuted",
    "C14_fused_component_indices_partial",
    "C14_exact"
   ],
   "note": "False with slice codes (refuted); proved without them. C14_exact: every slice code is given exactly one channel, so the ranges cover numel() exactly when the slice codes stand for as many channels as there are slice codes."
  },
  {
   "property": "C15",
   "status": "proved",
   "theorems": [
    "C15_encode",
    "C15_decode",
    "C15_decode_stacked"
   ],
   "note": "Arrays are lists of slabs along the channel axis; encode and decode use the same axis. Components have at least one channel (see C16)."
  },
  {
   "property": "C16",
   "status": "partial",
   "theorems": [
    "C16_repeated_refuted",
    "C16_empty_refuted",
    "C16_exact",
    "C16_kept_once",
    "C16_kept_whole",
    "C16_repeated_partial"
   ],
   "note": "The default mode loses a repeated component and misplaces zero-channel ones: the merge of contiguous slices never updates the previous slice. C16_exact gives the exact result of the default mode for components with channels: repetitions of a component are counted once only directly after the component it stands next to in the item, and nothing is lost unless a stream names a component twice in a row. Mode 0 is proved correct for plain names."
  },
  {
   "property": "C17",
   "status": "proved",
   "theorems": [
    "C17_subsequence_index"
   ],
   "note": ""
  },
  {
   "property": "C18",
   "status": "proved",
   "theorems": [
    "C18_ordered_set_edits"
   ],
   "note": "Insertion and list deletion, any sequence of in-range edits."
  },
  {
   "property": "C19",
   "status": "proved",
   "theorems": [
    "C19_path_legal"
   ],
   "note": "The hash is any function into lowercase letters."
  },
  {
   "property": "C20",
   "status": "partial",
   "theorems": [
    "C20_path_maxlen_refuted",
    "C20_path_maxlen_partial",
    "C20_exact_length_partial",
    "C20_bound_partial"
   ],
   "note": "False in general (refuted); proved for maxlen >= 10 and fewer than 10 channels. C20_exact_length_partial gives the exact length of every shortened path, so the limit is met exactly when maxlen >= 10 and there are fewer than ten channels; C20_bound_partial bounds it for every hash."
  },
  {
   "property": "C21",
   "status": "proved",
   "theorems": [
    "C21_indexing",
    "C21_slices"
   ],
   "note": ""
  },
  {
   "property": "C22",
   "status": "proved",
   "theorems": [
    "C22_grammar",
    "C22_terminals",
    "C22_product",
    "C22_normalize",
    "C22_normalize_total"
   ],
   "note": "The lark LALR parser is modelled by a hand-written parser of the same language, including its resolution of the shift/reduce conflict."
  },
  {
   "property": "C23",
   "status": "proved",
   "theorems": [
    "C23_concise_keeps_streams",
    "C23_leading_zero_refuted"
   ],
   "note": "With a leading zero in an index the claim is false (C23_leading_zero_refuted), hence the quantifier."
  },
  {
   "property": "C24",
   "status": "partial",
   "theorems": [
    "C24_parseable_refuted",
    "C24_parseable_partial",
    "C24_parseable_iff_partial",
    "C24_same_streams_partial"
   ],
   "note": "False: \"*:a,*:\" gives \"*:(a,)\", which the grammar rejects. C24_parseable_iff_partial gives the exact condition: it fails if and only if the streams without channels have the same sensors as some group of channels, and otherwise the text has the same streams."
  },
  {
   "property": "C25",
   "status": "proved",
   "theorems": [
    "C25_matching_sensor"
   ],
   "note": ""
  },
  {
   "property": "C26",
   "status": "proved",
   "theorems": [
    "C26_numel",
    "C26_late_fuse",
    "C26_numel_additive",
    "C26_split"
   ],
   "note": "A stream without channels stays as it is under split."
  },
  {
   "property": "C27",
   "status": "proved",
   "theorems": [
    "C27_same_array"
   ],
   "note": "Any oracle for the numeric decisions; 2-d data is C74."
  },
  {
   "property": "C28",
   "status": "partial",
   "theorems": [
    "C28_metadata_partial",
    "C28_channels",
    "C28_metadata_refuted",
    "C28_overviews_partial",
    "C28_joined_partial",
    "C28_grows_by_two",
    "C28_unbounded_refuted"
   ],
   "note": "Proved when no overviews are involved (channels also with overviews). With overviews the size can change (refuted). C28_overviews_partial: for crops, band selections, dequantizations and overviews of one image the size never shrinks and grows by at most two pixels along each axis, also for concatenations of such images and images without overviews (C28_joined_partial); C28_grows_by_two shows that two do occur. C28_unbounded_refuted: for an overview of a warp with a chosen size there is no bound, in either direction. Missing: how much the size of other warps over files with overviews can change."
  },
  {
   "property": "C29",
   "status": "proved",
   "theorems": [
    "C29_samples_kept"
   ],
   "note": "Continuous rational coordinates; noop_eps = 0."
  },
  {
   "property": "C30",
   "status": "partial",
   "theorems": [
    "C30_same_pixels_refuted",
    "C30_same_pixels_partial",
    "C30_windows_partial",
    "C30_corner_refuted"
   ],
   "note": "False in general (refuted). Proved for visible pixels and nearest warps that enlarge by whole factors and move by whole pixels to any side. C30_windows_partial: warps that show windows of whole enlargements, not in the corner of a larger image, finalize before and after optimize() to the same array; for windows in the corner this is false (C30_corner_refuted)."
  },
  {
   "property": "C31",
   "status": "proved",
   "theorems": [
    "C31_shape_is_metadata"
   ],
   "note": "2-d data is C74."
  },
  {
   "property": "C32",
   "status": "partial",
   "theorems": [
    "C32_optimize_total_refuted",
    "C32_optimize_total_partial",
    "C32_result_unique",
    "C32_overviews_partial",
    "C32_overviews_shrink_partial",
    "C32_overviews_refuted",
    "C32_joined_partial",
    "C32_joined_shrink_partial"
   ],
   "note": "False for double dequantization, unnamed parts and crops of singular warps (refuted for every oracle); proved for every other tree without overviews to use, warps included. With overviews in use: operations over one image with a known number of overviews return or raise KeyError (a crop that shows nothing of an enlarged overview, refuted); shrinking along the axes always returns. C32_joined_partial and C32_joined_shrink_partial: the same for such images, and images without overviews, put together by concatenation. Missing: operations above such concatenations, and nearest warps, with overviews in use."
  },
  {
   "property": "C33",
   "status": "partial",
   "theorems": [
    "C33_idempotent_refuted",
    "C33_idempotent_partial"
   ],
   "note": "False with overviews (refuted); proved for all trees without overviews to use, with named channels and invertible warps."
  },
  {
   "property": "C34",
   "status": "partial",
   "theorems": [
    "C34_same_tree_partial",
    "C34_same_array_partial",
    "C34_same_image_partial",
    "C34_same_tree_refuted"
   ],
   "note": "Equal trees (images without band selections), equal arrays (exact operations) and equal metadata and samples; images must lack overviews, or dequantizations, or warps and overviews. With band selections the trees differ (refuted) although the arrays agree."
  },
  {
   "property": "C35",
   "status": "partial",
   "theorems": [
    "C35_nodes_kept_partial",
    "C35_other_nodes_kept_partial",
    "C35_nodes_kept_refuted"
   ],
   "note": "False: absorbing an overview rewrites the dsize of shared dequantizations. Proved for images without overviews, or dequantizations, or warps and overviews; channels and children of all nodes never change."
  },
  {
   "property": "C36",
   "status": "proved",
   "theorems": [
    "C36_take_channels"
   ],
   "note": "For any finalizer that treats leafs, crops, concatenation and dequantization as the code does; warps and overviews are arbitrary with the right shape."
  },
  {
   "property": "C37",
   "status": "proved",
   "theorems": [
    "C37_missing_nan",
    "C37_missing_error"
   ],
   "note": ""
  },
  {
   "property": "C38",
   "status": "partial",
   "theorems": [
    "C38_repeated_names_refuted",
    "C38_repeated_names_partial",
    "C38_exact"
   ],
   "note": "The code looks the code up in the set of unique names, so a repeated name before it shifts the index; proved for codes before which no name repeats. C38_exact: in general the band served is the one whose number is the count of different names before the code, under the name of that band."
  },
  {
   "property": "C39",
   "status": "partial",
   "theorems": [
    "C39_one_band_refuted",
    "C39_one_band_partial",
    "C39_optimized"
   ],
   "note": "finalize() optimizes first and then returns NaN bands or raises; proved for finalize(optimize=False). C39_optimized: after optimize() band k of every concatenation is k bands of NaN (an AssertionError for k = 0), unless channels are named u0, u1, ..."
  },
  {
   "property": "C40",
   "status": "proved",
   "theorems": [
    "C40_double_crop",
    "C40_fused_crop"
   ],
   "note": "Slices with start <= stop (the constructor rejects the others) and in-range band lists."
  },
  {
   "property": "C41",
   "status": "proved",
   "theorems": [
    "C41_bands",
    "C41_finalizes",
    "C41_channels",
    "C41_mismatch_rejected"
   ],
   "note": ""
  },
  {
   "property": "C42",
   "status": "proved",
   "theorems": [
    "C42_dequantize_crop",
    "C42_dequantize_concat",
    "C42_dequantize_values"
   ],
   "note": "The optimized tree is covered by C27_same_array."
  },
  {
   "property": "C43",
   "status": "proved",
   "theorems": [
    "C43_auto_dsize"
   ],
   "note": "Rational affine maps; sizes >= 0."
  },
  {
   "property": "C44",
   "status": "proved",
   "theorems": [
    "C44_crop_before_warp",
    "C44_defined",
    "C44_crop_before_warp_fast"
   ],
   "note": "General path and axis-aligned fast path, exact rationals instead of floats."
  },
  {
   "property": "C45",
   "status": "partial",
   "theorems": [
    "C45_overview_before_crop",
    "C45_same_size_refuted",
    "C45_size_exact"
   ],
   "note": "Alignment and coverage proved; the rewritten graph may report a different size (refuted). C45_size_exact: for a window of an image with known overviews, optimize() reports in each direction the same size or one pixel more, with the exact condition."
  },
  {
   "property": "C46",
   "status": "proved",
   "theorems": [
    "C46_overviews_add",
    "C46_same_samples",
    "C46_same_transform"
   ],
   "note": "Point semantics; the fused node is the overview a + b."
  },
  {
   "property": "C47",
   "status": "proved",
   "theorems": [
    "C47_overview_commutes_with_warp"
   ],
   "note": ""
  },
  {
   "property": "C48",
   "status": "proved",
   "theorems": [
    "C48_split",
    "C48_split_exact"
   ],
   "note": "log2 is exact."
  },
  {
   "property": "C49",
   "status": "proved",
   "theorems": [
    "C49_same_point",
    "C49_compose",
    "C49_self",
    "C49_inverse"
   ],
   "note": ""
  },
  {
   "property": "C50",
   "status": "proved",
   "theorems": [
    "C50_aligned",
    "C50_leaf_coordinates",
    "C50_retain_offset",
    "C50_complement",
    "C50_exclusive",
    "C50_remove_nothing",
    "C50_parts"
   ],
   "note": "kwimage decomposition is a parameter with stated laws (codec_ok)."
  },
  {
   "property": "C51",
   "status": "proved",
   "theorems": [
    "C51_padded_crop_axis",
    "C51_padded_crop"
   ],
   "note": "kwarray.embed_slice modelled by its documented algorithm."
  },
  {
   "property": "C52",
   "status": "proved",
   "theorems": [
    "C52_nearest"
   ],
   "note": "Translated axis-aligned nearest path (the one computed in /repo itself), whenever it returns; when it returns is C72."
  },
  {
   "property": "C53",
   "status": "proved",
   "theorems": [
    "C53_scale_and_determinant",
    "C53_branches_agree",
    "C53_rotated_scaling",
    "C53_diagonal",
    "C53_absorbs"
   ],
   "note": "Over the reals (stdlib axioms of Reals)."
  },
  {
   "property": "C54",
   "status": "partial",
   "theorems": [
    "C54_lazy_crop_full",
    "C54_lazy_warp",
    "C54_lazy_crop_refuted",
    "C54_lazy_crop_same_partial",
    "C54_lazy_bands_refuted"
   ],
   "note": "Lazy crop drops a band selection (refuted); the rest proved. Lazy warp for an exact identity test."
  },
  {
   "property": "C55",
   "status": "proved",
   "theorems": [
    "C55_round_trip"
   ],
   "note": "Exact arithmetic; floating point rounding is the subject of C75 and C76."
  },
  {
   "property": "C56",
   "status": "proved",
   "theorems": [
    "C56_nodata_apart"
   ],
   "note": "Exact arithmetic (C76_cast_defined_partial has the float version)."
  },
  {
   "property": "C57",
   "status": "proved",
   "theorems": [
    "C57_monotone"
   ],
   "note": "Exact arithmetic (C76_cast_defined_partial has the float version)."
  },
  {
   "property": "C58",
   "status": "proved",
   "theorems": [
    "C58_dequantize"
   ],
   "note": "Integer samples, plain (bool/int/float) nodata, exact arithmetic."
  },
  {
   "property": "C59",
   "status": "proved",
   "theorems": [
    "C59_traverse",
    "C59_leafs",
    "C59_graph"
   ],
   "note": ""
  },
  {
   "property": "C60",
   "status": "proved",
   "theorems": [
    "C60_nested_params"
   ],
   "note": ""
  },
  {
   "property": "C61",
   "status": "partial",
   "theorems": [
    "C61_prepare_keeps_refuted",
    "C61_prepare_half_size_refuted",
    "C61_prepare_keeps_partial",
    "C61_prepare_idempotent"
   ],
   "note": "prepare overwrites a known overview count when anything else is unknown, and a dsize with one unknown entry; the exact filling rule is proved on whole trees, idempotence in full."
  },
  {
   "property": "C62",
   "status": "partial",
   "theorems": [
    "C62_leaf_paths_refuted",
    "C62_leaf_paths_partial"
   ],
   "note": "_leaf_paths raises AssertionError on an empty concatenation; proved for all other trees."
  },
  {
   "property": "C63",
   "status": "proved",
   "theorems": [
    "C63_gdal",
    "C63_no_bands",
    "C63_plain"
   ],
   "note": "Reads of empty windows are left to GDAL and excluded."
  },
  {
   "property": "C64",
   "status": "partial",
   "theorems": [
    "C64_negative_start_refuted",
    "C64_negative_start_partial"
   ],
   "note": "A negative start reads from row 0; agrees with numpy exactly when the start lies before the image."
  },
  {
   "property": "C65",
   "status": "proved",
   "theorems": [
    "C65_lru",
    "C65_defined"
   ],
   "note": ""
  },
  {
   "property": "C66",
   "status": "proved",
   "theorems": [
    "C66_marks",
    "C66_promotion_exact"
   ],
   "note": ""
  },
  {
   "property": "C67",
   "status": "proved",
   "theorems": [
    "C67_compose",
    "C67_level"
   ],
   "note": ""
  },
  {
   "property": "C68",
   "status": "proved",
   "theorems": [
    "C68_terminates",
    "C68_reachable"
   ],
   "note": "Holds for directed and undirected graphs, with and without vertical chains; collapsed nodes hide what is only reachable through them."
  },
  {
   "property": "C69",
   "status": "partial",
   "theorems": [
    "C69_largest_shape_refuted",
    "C69_largest_shape_partial",
    "C69_exact"
   ],
   "note": "A zero extent counts as unknown, so the result is wrong and order dependent; proved for non-zero extents. C69_exact: a positive extent always wins; if all known extents of an axis are zero, the zero is kept exactly when the last given shape has it."
  },
  {
   "property": "C70",
   "status": "proved",
   "theorems": [
    "C70_representable"
   ],
   "note": ""
  },
  {
   "property": "C71",
   "status": "partial",
   "theorems": [
    "C71_numel_repeated_refuted",
    "C71_numel_partial"
   ],
   "note": "The property is false of the code (\"a,a\"). Proved: numel counts the channels of the distinct streams, so it holds without repeated streams."
  },
  {
   "property": "C72",
   "status": "partial",
   "theorems": [
    "C72_nearest_total_refuted",
    "C72_nearest_total_partial"
   ],
   "note": "False of the code (IndexError); the exact success condition is proved."
  },
  {
   "property": "C73",
   "status": "partial",
   "theorems": [
    "C73_overview_of_memory_refuted",
    "C73_overview_partial",
    "C73_exact"
   ],
   "note": "The property is false of the code when the number of overviews is unknown (TypeError); negation proved. Proved when it is known, even zero, for every crop, band selection, overview and dequantization of one image. C73_exact: when it is unknown, overview k of a window can be optimized exactly if the window starts at multiples of 2^k."
  },
  {
   "property": "C74",
   "status": "partial",
   "theorems": [
    "C74_flat_data_optimize_refuted",
    "C74_flat_data_shape_refuted",
    "C74_flat_data_partial"
   ],
   "note": "The property is false of the code (no channel axis; IndexError after optimize). Proved: results that finalize agree with those over H x W x 1 data up to the axis, before and after optimize."
  },
  {
   "property": "C75",
   "status": "partial",
   "theorems": [
    "C75_codes_survive_refuted",
    "C75_codes_survive_partial",
    "C75_near_partial",
    "C75_settled_refuted"
   ],
   "note": "Holds in exact arithmetic, false in float32 (uint8 code 10 becomes 9, and 209 becomes 208 and then 207). C75_near_partial: in IEEE arithmetic with the default range, a code comes back as itself or one lower, and the lowest, highest and nodata codes survive (float32 with 8 or 16 bits, float64 with up to 32 bits)."
  },
  {
   "property": "C76",
   "status": "partial",
   "theorems": [
    "C76_cast_defined_refuted",
    "C76_cast_defined_int64_refuted",
    "C76_unrepresentable_refuted",
    "C76_tiny_refuted",
    "C76_cast_defined_partial",
    "C76_any_range_partial"
   ],
   "note": "False for float32/int32 and float64/int64 (1.0 overflows), for ranges whose ends the element type cannot represent, and for tiny ranges. Proved for narrower codes and every IEEE datum: for the default range, and for every range whose ends are numbers of the element type, at most 2^100 in size and at least 2^-100 apart."
  },
  {
   "property": "C77",
   "status": "partial",
   "theorems": [
    "C77_rational_representable_refuted",
    "C77_rational_representable_partial"
   ],
   "note": "The property is false of the code: the rational is truncated first. Proved: the exact test, and correctness for integral rationals."
  },
  {
   "property": "C78",
   "status": "proved",
   "theorems": [
    "C78_evaluate",
    "C78_evaluate_flat"
   ],
   "note": ""
  },
  {
   "property": "C79",
   "status": "partial",
   "theorems": [
    "C79_empty_request_refuted",
    "C79_empty_request_partial"
   ],
   "note": "False for concatenations (size lost, finalize raises); proved for images."
  },
  {
   "property": "C80",
   "status": "partial",
   "theorems": [
    "C80_invalid_policy_refuted",
    "C80_invalid_policy_partial"
   ],
   "note": "DelayedImage.take_channels ignores the policy when no channel is missing."
  },
  {
   "property": "C81",
   "status": "partial",
   "theorems": [
    "C81_modes_agree_refuted",
    "C81_modes_agree_partial",
    "C81_exact"
   ],
   "note": "Mode 0 raises KeyError for slice or alias components. C81_exact: it looks up the expanded channel names, so it succeeds exactly when each of them is a component of the item, and then returns their data, which may differ from mode 1."
  },
  {
   "property": "C82",
   "status": "partial",
   "theorems": [
    "C82_always_3d_refuted",
    "C82_always_3d_partial",
    "C82_exact"
   ],
   "note": "One band gives a 2-d array; C82_exact: exactly then."
  },
  {
   "property": "C83",
   "status": "partial",
   "theorems": [
    "C83_paths_agree_refuted",
    "C83_paths_agree_partial"
   ],
   "note": "The fast path reads the base image when an overview band has no dataset of its own."
  },
  {
   "property": "C84",
   "status": "partial",
   "theorems": [
    "C84_missing_overview_refuted",
    "C84_missing_overview_partial",
    "C84_exact"
   ],
   "note": "C84_exact says which missing levels have a shape, and that it is the shape of the whole image. shape of a file without overviews ignores the level; reads are always refused."
  },
  {
   "property": "C85",
   "status": "partial",
   "theorems": [
    "C85_empty_ellipsis_refuted",
    "C85_empty_ellipsis_partial",
    "C85_exact"
   ],
   "note": "A four-entry index with an Ellipsis raises. C85_exact: unless the Ellipsis comes last, where it is ignored."
  },
  {
   "property": "C86",
   "status": "proved",
   "theorems": [
    "C86_directed",
    "C86_undirected",
    "C86_cut"
   ],
   "note": ""
  },
  {
   "property": "C87",
   "status": "proved",
   "theorems": [
    "C87_directed",
    "C87_undirected"
   ],
   "note": "The components computed by networkx are a parameter with its specification."
  },
  {
   "property": "C88",
   "status": "partial",
   "theorems": [
    "C88_vertical_refuted",
    "C88_shown_refuted",
    "C88_depth_partial"
   ],
   "note": "Vertical chains do not count towards max_depth, and a node reached first by a long path hides its descendants; proved without vertical chains when every node has one depth."
  },
  {
   "property": "C89",
   "status": "partial",
   "theorems": [
    "C89_empty_spec_refuted",
    "C89_late_fuse_unit_partial"
   ],
   "note": "Only normalize and late_fuse accept the empty spec."
  },
  {
   "property": "C90",
   "status": "proved",
   "theorems": [
    "C90_chans",
    "C90_mixed_sensors"
   ],
   "note": ""
  },
  {
   "property": "C91",
   "status": "partial",
   "theorems": [
    "C91_concat_refuted",
    "C91_common_leaf_partial"
   ],
   "note": "The leaf used depends on the order of parts of the target, and images over different leafs are not refused; proved: with a concatenation the transform relates one common leaf."
  },
  {
   "property": "C92",
   "status": "partial",
   "theorems": [
    "C92_returned_warp_refuted",
    "C92_returned_warp_partial",
    "C92_squash"
   ],
   "note": "With squash_nans the returned warp is scaled even if nothing was squashed; proved without squash_nans. C92_squash: for images without missing data squash_nans changes nothing but the returned warp, which is the applied transform divided by the size of the result (an error if that is empty)."
  },
  {
   "property": "C93",
   "status": "partial",
   "theorems": [
    "C93_optimize_refuted",
    "C93_optimize_partial"
   ],
   "note": "False for windows beyond the data and for missing-data leafs; proved for images that show an area of their data."
  },
  {
   "property": "C94",
   "status": "partial",
   "theorems": [
    "C94_independent_tree_partial",
    "C94_independent_array_partial",
    "C94_independent_refuted"
   ],
   "note": "False: two warps over one dequantized overview; the second finalizes to another shape after the first was optimized. Proved for images without overviews, or dequantizations, or warps and overviews."
  },
  {
   "property": "C95",
   "status": "proved",
   "theorems": [
    "C95_lazy_same",
    "C95_optimized_same"
   ],
   "note": "Interpolated warps raise in both models (only nearest warps compute); canvases must be nonempty; the trailing axis of a single band is compared after adding it."
  },
  {
   "property": "C96",
   "status": "proved",
   "theorems": [
    "C96_reads_are_shown"
   ],
   "note": ""
  },
  {
   "property": "C97",
   "status": "partial",
   "theorems": [
    "C97_masks_kept_refuted",
    "C97_masks_kept_partial",
    "C97_exact"
   ],
   "note": "False: concatenating channels of masked arrays drops the masks. Proved for images without multi-part concatenations. C97_exact says which masks survive: none when the way down from the image meets a concatenation of several parts, all of them otherwise, with the numbers below the masks unchanged as long as dequantization comes before concatenation."
  },
  {
   "property": "C98",
   "status": "proved",
   "theorems": [
    "C98_level",
    "C98_level_window"
   ],
   "note": "The level sizes of the file are assumed to be those the metadata computes (ceil of halves)."
  },
  {
   "property": "C99",
   "status": "partial",
   "theorems": [
    "C99_crop_bands_refuted",
    "C99_crop_bands_partial",
    "C99_any_window_partial"
   ],
   "note": "False in the padded mode, where chan_idxs is ignored. Proved for the default mode: every window inside the image, empty ones included, and every Python slices that select something, with missing, negative and too large bounds."
  },
  {
   "property": "C100",
   "status": "proved",
   "theorems": [
    "C100_resize",
    "C100_resize_twice",
    "C100_resize_many",
    "C100_resize_back"
   ],
   "note": "Positive sizes. Point semantics: interpolation is not modelled. isclose_identity is idealized to equality."
  },
  {
   "property": "C101",
   "status": "proved",
   "theorems": [
    "C101_overview_is_scale"
   ],
   "note": "Point semantics."
  },
  {
   "property": "C102",
   "status": "proved",
   "theorems": [
    "C102_warps_fuse"
   ],
   "note": "noop_eps = 0, the default; images without stored overviews."
  },
  {
   "property": "C103",
   "status": "proved",
   "theorems": [
    "C103_padded_crop",
    "C103_pad_is_growth"
   ],
   "note": "The pad argument is one number; windows that touch the padded image."
  },
  {
   "property": "C104",
   "status": "partial",
   "theorems": [
    "C104_nearest_refuted",
    "C104_whole_partial",
    "C104_general_partial",
    "C104_involution_partial",
    "C104_finite_partial",
    "C104_values_partial",
    "C104_rescue_partial",
    "C104_size_partial"
   ],
   "note": "The code violates the text in four ways (witnesses in C104_nearest_refuted). Proved for whole factors and offsets, for transforms whose image has more finite entries than the inversely moved image, for involutions, and, for images without nan, that the result is the image moved by the transform or by its inverse. Samplers of kwimage are exact functions."
  },
  {
   "property": "C105",
   "status": "proved",
   "theorems": [
    "C105_matrix_mode",
    "C105_without_opencv"
   ],
   "note": "Versions are dotted lists of natural numbers; without OpenCV any text."
  },
  {
   "property": "C106",
   "status": "partial",
   "theorems": [
    "C106_border_refuted",
    "C106_border_partial",
    "C106_too_many"
   ],
   "note": "A sequence of border values fills all bands with its first number on the path for translated axis aligned transforms; single numbers and auto are right there. Border modes by name and other transforms are left to kwimage."
  },
  {
   "property": "C107",
   "status": "proved",
   "theorems": [
    "C107_directed",
    "C107_undirected",
    "C107_kind_refuted"
   ],
   "note": "ASCII glyphs. C107_kind_refuted: a directed graph without edges is read as an undirected one."
  },
  {
   "property": "C108",
   "status": "proved",
   "theorems": [
    "C108_single_stream",
    "C108_unparseable"
   ],
   "note": ""
  },
  {
   "property": "C109",
   "status": "partial",
   "theorems": [
    "C109_abbreviates_refuted",
    "C109_keeps_stream_partial"
   ],
   "note": "False: from_spec expands the slices again, so nothing is abbreviated. Proved: it never fails and keeps sensor and channels (indices without leading zeros)."
  },
  {
   "property": "C110",
   "status": "partial",
   "theorems": [
    "C110_coerce_refuted",
    "C110_same_streams_partial",
    "C110_fused_partial",
    "C110_accepted_partial",
    "C110_objects"
   ],
   "note": "False: names the grammar does not know, slices with steps and empty specs are rejected later, and parentheses change names. Proved: without parentheses the streams, if any, are the same; grammatical codes are accepted."
  },
  {
   "property": "C111",
   "status": "partial",
   "theorems": [
    "C111_roundtrip",
    "C111_single_stream",
    "C111_number_partial",
    "C111_zero_refuted"
   ],
   "note": "For zero channels ChannelSpec.coerce(0) cannot be fused (ValueError) while FusedChannelSpec.coerce(0) is empty; everything else proved."
  },
  {
   "property": "C112",
   "status": "proved",
   "theorems": [
    "C112_coordinate_crop",
    "C112_twice"
   ],
   "note": "Width and height are whole numbers in the model."
  },
  {
   "property": "C113",
   "status": "partial",
   "theorems": [
    "C113_squash_refuted",
    "C113_squash_partial"
   ],
   "note": "False for dequantized missing data and for overviews of it (refuted); proved for any chain of crops and warps."
  },
  {
   "property": "C114",
   "status": "proved",
   "theorems": [
    "C114_read_back",
    "C114_field",
    "C114_empty_list",
    "C114_alphabet"
   ],
   "note": "A list without items is read as one empty item (C114_empty_list). Texts are ASCII with newline line breaks."
  },
  {
   "property": "C115",
   "status": "proved",
   "theorems": [
    "C115_failures",
    "C115_unclosed"
   ],
   "note": "UnicodeDecodeError is outside the model."
  },
  {
   "property": "C116",
   "status": "partial",
   "theorems": [
    "C116_data_file",
    "C116_other_file",
    "C116_case_refuted"
   ],
   "note": "The value of the field keeps its case: BSQ opens path.BSQ (refuted); otherwise proved for every file name with a character other than a dot."
  },
  {
   "property": "C117",
   "status": "partial",
   "theorems": [
    "C117_channel_spec",
    "C117_fused_refuted",
    "C117_fused_partial"
   ],
   "note": "Proved for ChannelSpec; a FusedChannelSpec that is not normalized only knows its codes as written (\"r\" in rgb is false, refuted), proved for plain codes. Empty names excluded."
  },
  {
   "property": "C118",
   "status": "partial",
   "theorems": [
    "C118_demo_refuted",
    "C118_demo_partial"
   ],
   "note": "A text with an empty stream raises KeyError (refuted); proved for the others without repeated or empty codes."
  },
  {
   "property": "C119",
   "status": "partial",
   "theorems": [
    "C119_agree_refuted",
    "C119_agree_partial"
   ],
   "note": "Four histories break it (refuted); proved for all histories in which arrays have as many bands as names and assignments keep the number of channels of images in use."
  },
  {
   "property": "C120",
   "status": "partial",
   "theorems": [
    "C120_rename_refuted",
    "C120_rename_partial"
   ],
   "note": "A selection of bands keeps its old names (refuted); proved for the other views, concatenations and the frame."
  },
  {
   "property": "C121",
   "status": "partial",
   "theorems": [
    "C121_prepare_refuted",
    "C121_prepare_partial"
   ],
   "note": "Concatenations and dequantizations made before prepare() keep an unknown shape (refuted); proved for histories that avoid this, and that known metadata is kept for all histories."
  },
  {
   "property": "C122",
   "status": "partial",
   "theorems": [
    "C122_labels_refuted",
    "C122_labels_partial"
   ],
   "note": "Codes are used as written, and unnamed two-dimensional arrays fail (refuted); proved for plain codes."
  },
  {
   "property": "C123",
   "status": "partial",
   "theorems": [
    "C123_has_data_refuted",
    "C123_masked_refuted",
    "C123_has_data_partial",
    "C123_sound"
   ],
   "note": "Negative samples can cancel, and one nodata sample read as nan hides all data, and so do 10000 masked samples around the middle (refuted); proved for non-negative samples and no nodata handling. C123_sound: the answer yes is right for all samples and every nodata handling."
  },
  {
   "property": "C124",
   "status": "partial",
   "theorems": [
    "C124_nesting_refuted",
    "C124_nesting_partial"
   ],
   "note": "A name such as s2.red raises ValueError (refuted); proved otherwise, with exactly this as the condition."
  },
  {
   "property": "C125",
   "status": "proved",
   "theorems": [
    "C125_as_graph"
   ],
   "note": "Node identifiers as in C59; the text layout of the label (ub.urepr) is not modelled."
  },
  {
   "property": "C126",
   "status": "partial",
   "theorems": [
    "C126_validate_refuted",
    "C126_validate_partial",
    "C126_validate_sound"
   ],
   "note": "H x W data and images with overviews fail the check (refuted); proved for exact operations over H x W x C data, and what a passed check means for all images. Names are compared as lists."
  },
  {
   "property": "C127",
   "status": "partial",
   "theorems": [
    "C127_methods_refuted",
    "C127_nodata_partial"
   ],
   "note": "The method auto raises KeyError (refuted); proved for the others."
  },
  {
   "property": "C128",
   "status": "proved",
   "theorems": [
    "C128_exact_bands",
    "C128_runs"
   ],
   "note": "C128_runs shows that the loop agrees with the runs of TakeModel.v."
  },
  {
   "property": "C129",
   "status": "partial",
   "theorems": [
    "C129_never_returns",
    "C129_given_refuted",
    "C129_given_partial",
    "C129_not_given"
   ],
   "note": "optimize of a crop that shows different amounts of two parts never returns, and a given size is lost on optimize (refuted); proved when the given size is the size of the parts."
  },
  {
   "property": "C130",
   "status": "partial",
   "theorems": [
    "C130_settings_refuted",
    "C130_settings_partial"
   ],
   "note": "An overview of an enlarged image goes back to the default settings and fused warps forget the backend (refuted); proved for interpolation, antialiasing and border value of images without overviews in use."
  },
  {
   "property": "C131",
   "status": "proved",
   "theorems": [
    "C131_representable"
   ],
   "note": "Texts in floating point types are left out of the model."
  },
  {
   "property": "C132",
   "status": "proved",
   "theorems": [
    "C132_empty_range"
   ],
   "note": ""
  },
  {
   "property": "C133",
   "status": "proved",
   "theorems": [
    "C133_concat"
   ],
   "note": ""
  },
  {
   "property": "C134",
   "status": "proved",
   "theorems": [
    "C134_number",
    "C134_coerce"
   ],
   "note": ""
  },
  {
   "property": "C135",
   "status": "proved",
   "theorems": [
    "C135_undirected",
    "C135_directed"
   ],
   "note": ""
  },
  {
   "property": "C136",
   "status": "partial",
   "theorems": [
    "C136_equal_refuted",
    "C136_equal_partial"
   ],
   "note": "False as stated: \"rgb\" and \"r|g|b\" differ, and comparing with a text raises AttributeError (refuted). Proved: equal specs stand for the same channels, normalized and concise specs are equal exactly when they do, None is never equal, and equality is an equivalence."
  },
  {
   "property": "C137",
   "status": "partial",
   "theorems": [
    "C137_integer_bands_refuted",
    "C137_integer_bands_partial"
   ],
   "note": "False as stated: band -1 and bands the file does not have give no bands and no error (refuted). Proved: exactly which bands every integer selects, with the exact samples."
  },
  {
   "property": "C138",
   "status": "proved",
   "theorems": [
    "C138_one_version",
    "C138_no_file",
    "C138_separate"
   ],
   "note": "For every history; the contents of a file are one value, so a file changed while it is being opened is not covered."
  },
  {
   "property": "C139",
   "status": "partial",
   "theorems": [
    "C139_refuted",
    "C139_same_version_partial",
    "C139_size_partial"
   ],
   "note": "False as stated: without GDAL the file is opened once for its size and once for its samples, so a file replaced in between gives an array of another size than reported (refuted). Proved for files read with GDAL, for every history."
  },
  {
   "property": "C140",
   "status": "partial",
   "theorems": [
    "C140_meant_refuted",
    "C140_covers_refuted",
    "C140_covers_partial",
    "C140_exact_partial",
    "C140_meant_partial",
    "C140_nonempty",
    "C140_monotone",
    "C140_warp_partial"
   ],
   "note": "False as stated: 7% of 100 pixels are 8 pixels, since the double nearest to 0.07 times 100 exceeds 7; and a tenth of 30 pixels is 3 pixels although the double exceeds a tenth (both refuted). Proved: the canvas covers the scaled image up to one part in 2^53 with less than a pixel to spare, sizes whose exact product is whole are met, whole sizes meant by a rounded factor are met or exceeded by one pixel, images do not become empty, sizes are monotone. For every other affine matrix C140_warp_partial bounds the size within a rounding error, for products summed from left to right."
  },
  {
   "property": "C141",
   "status": "partial",
   "theorems": [
    "C141_selects_partial",
    "C141_window",
    "C141_accepted_partial",
    "C141_optimize_partial",
    "C141_optimize_refuted",
    "C141_unnamed_refuted"
   ],
   "note": "False as stated: image[:, :, 0:2][:, :, [1]] finalizes without optimization and raises TypeError with it, and an image without channel names rejects slices and integers (both refuted). Proved for every image with channel names and every sequence of subscripts: each subscript shows what numpy shows, names and sizes follow, out of range indexes raise IndexError; optimize() keeps the image exactly when at most one selection was made or all were lists (or the second is empty after a slice), and raises TypeError in every other case. The image below the selections is a leaf that holds data; integers on concatenations are in C39."
  },
  {
   "property": "C142",
   "status": "partial",
   "theorems": [
    "C142_lost_by_crops",
    "C142_lost_by_warps",
    "C142_band_selection_raises",
    "C142_keeps_bands_refuted",
    "C127_nodata_partial",
    "C28_metadata_partial"
   ],
   "note": "False as stated for channels given by number (refuted): every crop and every warp that changes something loses the number on optimize(), after which finalize() raises TypeError, and a band selection cannot be optimized (AssertionError). Without optimization every such image has the stated bands of nan. With channels given by name the number is kept (C28_metadata_partial) and missing data finalize to that many bands (C127_nodata_partial)."
  },
  {
   "property": "C143",
   "status": "partial",
   "theorems": [
    "C143_any_index_refuted",
    "C143_delete_partial",
    "C143_refused_partial",
    "C143_cases",
    "C143_repeated",
    "C143_insert_partial",
    "C143_history_partial"
   ],
   "note": "False as stated (refuted): an insertion at a negative or too large index maps the item to that index, and a deletion that names a position twice raises KeyError with items already forgotten. Proved: all other deletions and refusals, exactly which insertions keep the set intact, what the failing ones leave, and any history of intact edits with refused ones in between."
  },
  {
   "property": "C144",
   "status": "proved",
   "theorems": [
    "C144_samples",
    "C144_optimized"
   ],
   "note": "Exact (both directions) for the selection itself; after optimize() nothing shown is lost."
  },
  {
   "property": "C145",
   "status": "partial",
   "theorems": [
    "C145_failures_partial",
    "C145_no_failure",
    "C145_failures_refuted",
    "C145_two_failures_refuted"
   ],
   "note": "Proved for bands counted from the start. Refuted for bands counted from the end: the fallback reader does not know them, so one failing call raises. Two failing calls can raise when the fast path is off (its default)."
  },
  {
   "property": "C146",
   "status": "proved",
   "theorems": [
    "C146_preloaded",
    "C146_levels"
   ],
   "note": "For levels the file has and bands counted from the start."
  },
  {
   "property": "C147",
   "status": "partial",
   "theorems": [
    "C147_ignored",
    "C147_colors_partial",
    "C147_grey",
    "C147_colors_refuted"
   ],
   "note": "Refuted for a read that fails: the palette itself is returned as an image of one row. Proved when the read works and every index is in the palette. Grey palettes are always refused, because the interpretation is looked up as a data type."
  },
  {
   "property": "C148",
   "status": "partial",
   "theorems": [
    "C148_integers",
    "C148_none_partial",
    "C148_none_refuted"
   ],
   "note": "False for every list with None: an image raises TypeError, and a concatenation gives an image without a number of bands that cannot be finalized (proved for all lists). Lists of integers are the selections of C36 and following; with policy error a concatenation refuses every list (AssertionError)."
  },
  {
   "property": "C149",
   "status": "proved",
   "theorems": [
    "C149_defaults",
    "C149_whole",
    "C149_refused"
   ],
   "note": "C149_defaults compares the calls one by one, with failures and palettes; C149_whole is the content when no call of the read itself fails."
  },
  {
   "property": "C150",
   "status": "partial",
   "theorems": [
    "C150_axis_refuted",
    "C150_axis",
    "C150_shape"
   ],
   "note": "False as stated (refuted): a file of one band finalizes to an array of two dimensions. Proved exactly: the axis is missing if and only if nothing is done to one band (the file itself or a concatenation of it alone); otherwise the array has the shape the image reports. C74 is the same question for arrays in memory."
  },
  {
   "property": "C151",
   "status": "proved",
   "theorems": [
    "C151_commutes",
    "C151_same",
    "C151_flat"
   ],
   "note": "One name per band; codes as written are C122."
  },
  {
   "property": "C152",
   "status": "partial",
   "theorems": [
    "C152_idempotent_refuted",
    "C152_idempotent_partial",
    "C152_once",
    "C152_twice"
   ],
   "note": "False when a stream is repeated: \"S:a,S:a\" becomes \"(S):a\", which becomes \"S:a\". Proved for specs without repeated streams (C152_idempotent_partial). In general every stream is written once (C152_once) and two calls reach a fixed point (C152_twice)."
  },
  {
   "property": "C153",
   "status": "partial",
   "theorems": [
    "C153_len_refuted",
    "C153_len_partial",
    "C153_exact"
   ],
   "note": "False for specs with aliases or slices: \"rgb\" has length 1 and three items. Proved for specs of plain names. C153_exact: iteration yields all channel names, len counts the codes as written, and reversed yields the first len(spec) names backwards, or nothing if there are fewer."
  },
  {
   "property": "C154",
   "status": "partial",
   "theorems": [
    "C154_code_list_refuted",
    "C154_code_list_partial"
   ],
   "note": "False of fused specs, which return their codes as written. Proved for plain names, and in full for ChannelSpec."
  },
  {
   "property": "C155",
   "status": "partial",
   "theorems": [
    "C155_values_refuted",
    "C155_values_partial",
    "C155_readers"
   ],
   "note": "False of programs that edit a list returned by as_list or code_list, or a list after handing it to coerce: such an edit changes the spec, and for specs made from text every later spec with that text. Proved for all programs that edit only lists they built or copied themselves and have not handed to coerce."
  }
 ]
}