{"id": "C01", "title": "normalize reaches atomic codes and is idempotent", "statement": "Whenever FusedChannelSpec.normalize() succeeds, no code of the result is an alias (rgb, rgba, dxdy, fxfy) or contains a slice \":\"; normalizing the result again returns the same codes; and a spec made only of atomic codes is returned unchanged.", "quantifier": "every list of channel codes (any strings)", "why_tests_cant": "There are infinitely many strings/lists; a test samples a handful of hand-picked specs.", "anchors": ["delayed_image/channel_spec.py:FusedChannelSpec.normalize", "delayed_image/channel_spec.py:_parse_concise_slice_syntax"]}
{"id": "C02", "title": "numel and sizes agree with normalization", "statement": "For every fused spec numel() equals the number of codes of normalize(), sizes() gives for each written code how many normalized codes it expands to (so sum(sizes()) == numel()), and numel() raises exactly when normalize() raises.", "quantifier": "every list of channel codes", "why_tests_cant": "There are infinitely many strings/lists; a test samples a handful of hand-picked specs.", "anchors": ["delayed_image/channel_spec.py:FusedChannelSpec.numel", "delayed_image/channel_spec.py:FusedChannelSpec.sizes", "delayed_image/channel_spec.py:FusedChannelSpec.normalize"]}
{"id": "C03", "title": "concise is a lossless abbreviation", "statement": "s.concise().normalize() has exactly the codes of s.normalize() in the same order, for every spec whose indexed codes are written canonically (root.N with N a plain decimal number); and concise() never has more codes than normalize().", "quantifier": "every list of channel codes whose dotted codes have a canonical integer index", "why_tests_cant": "There are infinitely many strings/lists; a test samples a handful of hand-picked specs.", "anchors": ["delayed_image/channel_spec.py:FusedChannelSpec.concise", "delayed_image/channel_spec.py:FusedChannelSpec.normalize"]}
{"id": "C04", "title": "concise is total on whatever normalize accepts", "statement": "If normalize() succeeds then concise() succeeds and re-normalizing it gives the same codes, with no side condition on how the indexed codes are spelled.", "quantifier": "every list of channel codes", "why_tests_cant": "There are infinitely many strings/lists; a test samples a handful of hand-picked specs.", "anchors": ["delayed_image/channel_spec.py:FusedChannelSpec.concise"]}
{"id": "C05", "title": "Slice syntax denotes the arithmetic progression it spells", "statement": "root:stop, root.start:stop and root.start:stop:step (and the \":\"-separated forms) expand to root.i for exactly the i of Python range(start, stop, step), in order; a missing stop, more than three numbers, a non-number or a zero step is rejected.", "quantifier": "every root without \".\" \":\" and all integers start, stop, step", "why_tests_cant": "There are infinitely many strings/lists; a test samples a handful of hand-picked specs.", "anchors": ["delayed_image/channel_spec.py:_parse_concise_slice_syntax", "delayed_image/channel_spec.py:FusedChannelSpec.normalize"]}
{"id": "C06", "title": "Fused set algebra", "statement": "difference, intersection and union of fused specs contain exactly the normalized channels that set difference/intersection/union prescribe, keep the left operand order (then the right one for union), union and difference contain no duplicate; issubset and issuperset decide inclusion of the normalized channel sets.", "quantifier": "every pair of fused specs that normalize", "why_tests_cant": "There are infinitely many strings/lists; a test samples a handful of hand-picked specs.", "anchors": ["delayed_image/channel_spec.py:FusedChannelSpec.difference", "delayed_image/channel_spec.py:FusedChannelSpec.intersection", "delayed_image/channel_spec.py:FusedChannelSpec.union", "delayed_image/channel_spec.py:FusedChannelSpec.issubset", "delayed_image/channel_spec.py:FusedChannelSpec.issuperset"]}
{"id": "C07", "title": "Stream-wise set algebra of late-fused specs", "statement": "For ChannelSpec, difference (resp. intersection) removes from (resp. keeps in) each stream exactly the channels of the other spec, drops streams that become empty, and never invents or reorders channels; union has every stream of both operands.", "quantifier": "every pair of ChannelSpec strings that normalize to streams of non-empty channel names; for union also no stream is empty", "why_tests_cant": "There are infinitely many strings/lists; a test samples a handful of hand-picked specs.", "anchors": ["delayed_image/channel_spec.py:ChannelSpec.difference", "delayed_image/channel_spec.py:ChannelSpec.intersection", "delayed_image/channel_spec.py:ChannelSpec.union"]}
{"id": "C08", "title": "fuse and split preserve the channel sequence", "statement": "Fusing a ChannelSpec keeps the channels of its streams in order; splitting it yields one single-channel stream per normalized channel in the same order; numel of the fused spec counts these channels, and numel of the late-fused spec agrees when no stream is repeated.", "quantifier": "every ChannelSpec string that normalizes; for split, to non-empty channel names", "why_tests_cant": "There are infinitely many strings/lists; a test samples a handful of hand-picked specs.", "anchors": ["delayed_image/channel_spec.py:ChannelSpec.fuse", "delayed_image/channel_spec.py:ChannelSpec.split", "delayed_image/channel_spec.py:FusedChannelSpec.split", "delayed_image/channel_spec.py:ChannelSpec.streams"]}
{"id": "C09", "title": "Late fusion is a monoid", "statement": "a + b has the streams of a followed by those of b; the empty spec is a unit on both sides, + is associative, and sum([...]) of specs concatenates their streams.", "quantifier": "all spec strings and all finite lists of specs", "why_tests_cant": "There are infinitely many strings/lists; a test samples a handful of hand-picked specs.", "anchors": ["delayed_image/channel_spec.py:BaseChannelSpec.late_fuse", "delayed_image/channel_spec.py:BaseChannelSpec.__radd__"]}
{"id": "C10", "title": "Late fusion accepts spec strings", "statement": "spec + \"other\" (a str on the right, as the type annotation allows) gives the late fusion of the two specs.", "quantifier": "all specs and all spec strings", "why_tests_cant": "There are infinitely many strings/lists; a test samples a handful of hand-picked specs.", "anchors": ["delayed_image/channel_spec.py:BaseChannelSpec.late_fuse"]}
{"id": "C11", "title": "coerce does not depend on earlier calls", "statement": "FusedChannelSpec.coerce(data) gives the same result whatever coerce/from_spec/from_int calls were made before in the process, although results are cached in a class-level table.", "quantifier": "every finite history of coerce, from_spec and from_int calls followed by any argument", "why_tests_cant": "It ranges over call histories in one process; a unit test sees only the history of its own test order.", "anchors": ["delayed_image/channel_spec.py:FusedChannelSpec.coerce", "delayed_image/channel_spec.py:FusedChannelSpec.from_spec", "delayed_image/channel_spec.py:FusedChannelSpec.from_int", "delayed_image/channel_spec.py:FusedChannelSpec._memo"]}
{"id": "C12", "title": "Spec text and parsed streams agree", "statement": "ChannelSpec.normalize().spec, when parsed again, gives exactly the streams that normalize() holds; likewise concise(); normalize is idempotent on ChannelSpec.", "quantifier": "every ChannelSpec string that normalizes to streams with at least one channel each (idempotence: every one that normalizes); for concise() with canonical indices", "why_tests_cant": "There are infinitely many strings/lists; a test samples a handful of hand-picked specs.", "anchors": ["delayed_image/channel_spec.py:ChannelSpec.normalize", "delayed_image/channel_spec.py:ChannelSpec.concise", "delayed_image/channel_spec.py:ChannelSpec.parse"]}
{"id": "C13", "title": "component_indices tile the stacked axis", "statement": "ChannelSpec.component_indices maps the codes of each stream to consecutive, disjoint index ranges that start at 0, end at the stream numel, and have the width of the code.", "quantifier": "every ChannelSpec with distinct codes", "why_tests_cant": "There are infinitely many strings/lists; a test samples a handful of hand-picked specs.", "anchors": ["delayed_image/channel_spec.py:ChannelSpec.component_indices", "delayed_image/channel_spec.py:ChannelSpec.sizes"]}
{"id": "C14", "title": "component_indices of a fused spec agree with its channel count", "statement": "FusedChannelSpec.component_indices covers numel() channels, also when codes use slice notation.", "quantifier": "every fused spec", "why_tests_cant": "There are infinitely many strings/lists; a test samples a handful of hand-picked specs.", "anchors": ["delayed_image/channel_spec.py:FusedChannelSpec.component_indices"]}
{"id": "C15", "title": "encode then decode is the identity", "statement": "Decoding the result of encode on an item returns, for every component of the spec, the data of that component; encode puts in each stream exactly the data of its components in order.", "quantifier": "every spec whose streams have distinct components and every non-empty item holding its components, each of at least one channel, stacked in any grouping", "why_tests_cant": "There are infinitely many strings/lists; a test samples a handful of hand-picked specs. The merge of contiguous slices depends on the layout of the item.", "anchors": ["delayed_image/channel_spec.py:ChannelSpec.encode", "delayed_image/channel_spec.py:ChannelSpec.decode", "delayed_image/channel_spec.py:_cached_single_fused_mapping", "delayed_image/channel_spec.py:_cached_single_stream_idxs"]}
{"id": "C16", "title": "encode handles repeated components", "statement": "encode gives each stream the data of its components in order also when a stream names a component twice or a component has zero channels.", "quantifier": "every spec and item", "why_tests_cant": "Needs adversarial layouts that nobody enumerates.", "anchors": ["delayed_image/channel_spec.py:_cached_single_fused_mapping"]}
{"id": "C17", "title": "subsequence_index finds exactly the contiguous occurrences", "statement": "subsequence_index(a, b) returns a slice iff b is a contiguous block of a, and then a[slice] == b.", "quantifier": "all pairs of ordered sets", "why_tests_cant": "There are infinitely many strings/lists; a test samples a handful of hand-picked specs.", "anchors": ["delayed_image/channel_spec.py:subsequence_index"]}
{"id": "C18", "title": "Ordered-set edits keep items and positions consistent", "statement": "After oset_insert or oset_delitem at in-range positions the item list has the element inserted/removed exactly as list.insert / del do, and every item is still mapped to its own position.", "quantifier": "every finite sequence of in-range inserts and deletions on any ordered set", "why_tests_cant": "It is an invariant over edit histories.", "anchors": ["delayed_image/channel_spec.py:oset_insert", "delayed_image/channel_spec.py:oset_delitem"]}
{"id": "C19", "title": "Sanitized paths are legal", "statement": "path_sanitize never returns a name containing | < > : ? or *, nor a name ending in a dot or space.", "quantifier": "every spec string and every maxlen", "why_tests_cant": "There are infinitely many strings/lists; a test samples a handful of hand-picked specs.", "anchors": ["delayed_image/channel_spec.py:_path_sanitize_v2", "delayed_image/channel_spec.py:BaseChannelSpec.path_sanitize"]}
{"id": "C20", "title": "Sanitized paths respect maxlen", "statement": "path_sanitize(maxlen) returns at most maxlen characters.", "quantifier": "every spec string and every maxlen", "why_tests_cant": "There are infinitely many strings/lists; a test samples a handful of hand-picked specs.", "anchors": ["delayed_image/channel_spec.py:_path_sanitize_v2"]}
{"id": "C21", "title": "Indexing selects normalized channels", "statement": "spec[i], spec[a:b] and spec[list] return the normalized channel names at those positions, in the requested order.", "quantifier": "every fused spec and every index, slice, list", "why_tests_cant": "There are infinitely many strings/lists; a test samples a handful of hand-picked specs.", "anchors": ["delayed_image/channel_spec.py:FusedChannelSpec.__getitem__"]}
{"id": "C22", "title": "Sensor-channel normalization is a fixed point with one sensor per stream", "statement": "normalize() writes every stream as sensor:channels with one explicit sensor (\"*\" if none was given); normalizing again changes nothing; the streams are the product of the sensors and channel groups that were written.", "quantifier": "every sensorchan string the grammar accepts", "why_tests_cant": "There are infinitely many strings/lists; a test samples a handful of hand-picked specs.", "anchors": ["delayed_image/sensorchan_spec.py:normalize_sensor_chan", "delayed_image/sensorchan_spec.py:SensorChanTransformer"]}
{"id": "C23", "title": "Sensor-channel concise keeps the streams", "statement": "concise() denotes the same set of (sensor, channels) streams as the spec it abbreviates.", "quantifier": "every sensorchan string the grammar accepts with at least one channel in each stream and plainly written indices (no leading zeros)", "why_tests_cant": "There are infinitely many strings/lists; a test samples a handful of hand-picked specs.", "anchors": ["delayed_image/sensorchan_spec.py:concise_sensor_chan", "delayed_image/sensorchan_spec.py:SensorChanTransformer.stream"]}
{"id": "C24", "title": "concise output is always parseable", "statement": "The string returned by SensorChanSpec.concise() is itself a valid sensorchan spec.", "quantifier": "every sensorchan string the grammar accepts", "why_tests_cant": "There are infinitely many strings/lists; a test samples a handful of hand-picked specs.", "anchors": ["delayed_image/sensorchan_spec.py:SensorChanTransformer.stream", "delayed_image/sensorchan_spec.py:SENSOR_CHAN_GRAMMAR"]}
{"id": "C25", "title": "matching_sensor selects exactly the matching streams", "statement": "matching_sensor(s) keeps, in order, exactly the streams whose sensor is s or the wildcard; matching_sensor(\"*\") keeps everything; no match gives an empty channel set.", "quantifier": "every sensorchan spec and every sensor name", "why_tests_cant": "There are infinitely many strings/lists; a test samples a handful of hand-picked specs.", "anchors": ["delayed_image/sensorchan_spec.py:SensorChanSpec.matching_sensor"]}
{"id": "C26", "title": "Sensor-channel sizes add up", "statement": "numel of a sensorchan spec is the sum over its streams; late_fuse concatenates streams, so numel is additive; split gives single-channel streams with the same sensors and order.", "quantifier": "every sensorchan spec the grammar accepts", "why_tests_cant": "There are infinitely many strings/lists; a test samples a handful of hand-picked specs.", "anchors": ["delayed_image/sensorchan_spec.py:SensorChanSpec.numel", "delayed_image/sensorchan_spec.py:SensorChanSpec.late_fuse", "delayed_image/sensorchan_spec.py:SensorChanSpec.split"]}
{"id": "C27", "title": "optimize preserves the pixels (exact operations)", "statement": "For trees built from leafs, crops, band selections, channel concatenation, dequantization and missing-channel fills, optimize().finalize gives the same array as the unoptimized finalize, pixel by pixel and band by band.", "quantifier": "every such tree of any depth and size, and all pixel data (leafs hold H x W x C arrays; see C74 for H x W)", "why_tests_cant": "Ranges over all operation trees (arbitrary depth, sizes and channel layouts); tests try a few chains on demo images.", "anchors": ["delayed_image/delayed_nodes.py:DelayedCrop.optimize", "delayed_image/delayed_nodes.py:DelayedChannelConcat.optimize", "delayed_image/delayed_nodes.py:DelayedDequantize.optimize", "delayed_image/delayed_leafs.py:DelayedNans._optimized_crop"]}
{"id": "C28", "title": "optimize preserves shape and channel metadata", "statement": "optimize() does not change dsize, num_channels or the channel names of a delayed image (trees with warps, crops, concat, dequantize).", "quantifier": "every such tree", "why_tests_cant": "Ranges over all operation trees (arbitrary depth, sizes and channel layouts); tests try a few chains on demo images.", "anchors": ["delayed_image/delayed_nodes.py:DelayedWarp.optimize", "delayed_image/delayed_nodes.py:DelayedCrop.optimize", "delayed_image/delayed_nodes.py:DelayedImage._validate"]}
{"id": "C29", "title": "Every visible sample stays on the same leaf location", "statement": "If an output coordinate of the unoptimized tree lies inside every intermediate canvas down to a leaf, then the optimized tree samples the same band of the same leaf at the same leaf coordinate (and it is still inside every canvas): crops pushed below warps never cut away needed data, fused and absorbed transforms compose correctly.", "quantifier": "every tree of warps, crops, overviews, dequantize, concat (missing-channel leafs too when no overviews are involved) and every rational output coordinate", "why_tests_cant": "Ranges over all operation trees (arbitrary depth, sizes and channel layouts); tests try a few chains on demo images. The claim is about every coordinate of every tree.", "anchors": ["delayed_image/delayed_nodes.py:DelayedWarp._opt_fuse_warps", "delayed_image/delayed_nodes.py:DelayedWarp._opt_absorb_overview", "delayed_image/delayed_nodes.py:DelayedWarp._opt_split_warp_overview", "delayed_image/delayed_nodes.py:DelayedCrop._opt_warp_after_crop", "delayed_image/delayed_nodes.py:DelayedOverview._opt_crop_after_overview", "delayed_image/delayed_nodes.py:DelayedOverview._opt_warp_after_overview", "delayed_image/helpers.py:_swap_warp_after_crop", "delayed_image/helpers.py:_swap_crop_after_warp"]}
{"id": "C30", "title": "optimize does not reveal or alter pixels at all (with warps)", "statement": "With warps in the tree, finalize(optimize=True) shows the same pixels as finalize(optimize=False).", "quantifier": "every tree with nearest-neighbour warps that enlarge and translate by whole numbers", "why_tests_cant": "Ranges over all operation trees (arbitrary depth, sizes and channel layouts); tests try a few chains on demo images.", "anchors": ["delayed_image/delayed_nodes.py:DelayedWarp._opt_fuse_warps", "delayed_image/delayed_nodes.py:DelayedDequantize._opt_dequant_before_other"]}
{"id": "C31", "title": "Metadata describes the finalized array", "statement": "The shape (dsize and num_channels) that a delayed image reports equals the shape of its finalized array, and the reported channel names have num_channels entries.", "quantifier": "every tree of exact operations built through the API over H x W x C data (see C74 for H x W)", "why_tests_cant": "Ranges over all operation trees (arbitrary depth, sizes and channel layouts); tests try a few chains on demo images.", "anchors": ["delayed_image/delayed_nodes.py:DelayedImage.shape", "delayed_image/delayed_nodes.py:DelayedImage.channels", "delayed_image/delayed_nodes.py:DelayedChannelConcat.__init__", "delayed_image/delayed_nodes.py:DelayedCrop.__init__"]}
{"id": "C32", "title": "optimize terminates and does not fail on well-formed trees", "statement": "optimize() returns for every well-formed tree of crops, band selections, concatenations, dequantizations and warps (it never recurses forever or raises).", "quantifier": "every well-formed tree without overviews", "why_tests_cant": "Termination over unbounded trees cannot be tested.", "anchors": ["delayed_image/delayed_nodes.py:DelayedCrop.optimize", "delayed_image/delayed_nodes.py:DelayedDequantize.optimize"]}
{"id": "C33", "title": "optimize is idempotent", "statement": "Optimizing an already optimized tree gives the same tree back.", "quantifier": "every tree", "why_tests_cant": "Ranges over all operation trees (arbitrary depth, sizes and channel layouts); tests try a few chains on demo images.", "anchors": ["delayed_image/delayed_nodes.py:DelayedWarp.optimize", "delayed_image/delayed_nodes.py:DelayedOverview.optimize"]}
{"id": "C34", "title": "The per-call memo table does not change the result of optimize", "statement": "Sharing one memo table over the whole optimize call (so a node used twice is optimized once) gives the same result as optimizing every occurrence separately.", "quantifier": "every tree with arbitrary sharing of nodes", "why_tests_cant": "Ranges over all operation trees (arbitrary depth, sizes and channel layouts); tests try a few chains on demo images.", "anchors": ["delayed_image/delayed_base.py:OptimizeContext", "delayed_image/delayed_nodes.py:DelayedImage"]}
{"id": "C35", "title": "optimize leaves the input tree unchanged", "statement": "After t.optimize() every node of t reports the same dsize, channels and children as before.", "quantifier": "every tree", "why_tests_cant": "It quantifies over every node of every tree, including nodes reached only through rewrites.", "anchors": ["delayed_image/delayed_nodes.py:DelayedWarp._opt_absorb_overview", "delayed_image/delayed_nodes.py:DelayedWarp.optimize"]}
{"id": "C36", "title": "take_channels returns the requested bands in the requested order", "statement": "take_channels(spec) on an image or a concatenation yields, at output band i, the data of the channel named by the i-th requested code.", "quantifier": "every tree with distinct channel names and every request list", "why_tests_cant": "Ranges over all operation trees (arbitrary depth, sizes and channel layouts); tests try a few chains on demo images.", "anchors": ["delayed_image/delayed_nodes.py:DelayedImage.take_channels", "delayed_image/delayed_nodes.py:DelayedChannelConcat.take_channels", "delayed_image/delayed_nodes.py:_InnerAccumSegment"]}
{"id": "C37", "title": "Missing channels become NaN bands or an error", "statement": "A requested channel that does not exist becomes an all-NaN band at its position under return_nan, and take_channels raises under missing_channel_policy=\"error\" iff some requested channel is missing.", "quantifier": "every tree and every request list", "why_tests_cant": "Ranges over all operation trees (arbitrary depth, sizes and channel layouts); tests try a few chains on demo images.", "anchors": ["delayed_image/delayed_nodes.py:DelayedChannelConcat.take_channels", "delayed_image/delayed_nodes.py:_InnerAccumSegment.get_subcomponent"]}
{"id": "C38", "title": "take_channels with repeated channel names", "statement": "take_channels(name) selects a band carrying that name also if channel names repeat.", "quantifier": "every tree and request", "why_tests_cant": "Ranges over all operation trees (arbitrary depth, sizes and channel layouts); tests try a few chains on demo images.", "anchors": ["delayed_image/delayed_nodes.py:DelayedImage.take_channels"]}
{"id": "C39", "title": "Single-band indexing of a concatenation", "statement": "concat[:, :, k] finalizes to band k of the concatenation.", "quantifier": "every concatenation and every in-range k", "why_tests_cant": "Ranges over all operation trees (arbitrary depth, sizes and channel layouts); tests try a few chains on demo images.", "anchors": ["delayed_image/delayed_nodes.py:DelayedChannelConcat.__getitem__", "delayed_image/delayed_nodes.py:DelayedCrop.optimize"]}
{"id": "C40", "title": "Successive crops compose", "statement": "Cropping a crop selects exactly the pixels and bands that slicing the array twice selects, and fusing the crops stays inside the inner crop.", "quantifier": "all images, all pairs of slices and band selections", "why_tests_cant": "Ranges over all operation trees (arbitrary depth, sizes and channel layouts); tests try a few chains on demo images.", "anchors": ["delayed_image/delayed_nodes.py:DelayedCrop._opt_fuse_crops"]}
{"id": "C41", "title": "Concatenation stacks bands in order and rejects mismatched sizes", "statement": "The channels of a concatenation are those of its parts in order, num_channels is the sum, band k comes from the part that owns it; parts with different dsize are rejected.", "quantifier": "every list of parts", "why_tests_cant": "Ranges over all operation trees (arbitrary depth, sizes and channel layouts); tests try a few chains on demo images.", "anchors": ["delayed_image/delayed_nodes.py:DelayedChannelConcat"]}
{"id": "C42", "title": "Dequantize commutes with selection", "statement": "Dequantizing before or after a crop / band selection gives the same values (also in the optimized tree).", "quantifier": "all images, quantizations, slices", "why_tests_cant": "Ranges over all operation trees (arbitrary depth, sizes and channel layouts); tests try a few chains on demo images.", "anchors": ["delayed_image/delayed_nodes.py:DelayedCrop._opt_dequant_after_crop", "delayed_image/delayed_nodes.py:DelayedDequantize.optimize"]}
{"id": "C43", "title": "Automatic output size covers the warped image", "statement": "With dsize=\"auto\" the output canvas of a warp reaches every point of the warped input canvas on the right and bottom, and no smaller integer canvas does.", "quantifier": "every affine transform and input size", "why_tests_cant": "Holds for every transform and size (rational arithmetic); tests use a few random affines.", "anchors": ["delayed_image/helpers.py:_auto_dsize"]}
{"id": "C44", "title": "Crop-before-warp covers the requested region", "statement": "The leaf region computed for a crop of a warped image contains the preimage of every point of the requested output region that falls inside the source, and the residual transform maps it back exactly.", "quantifier": "every invertible affine, source size and crop region", "why_tests_cant": "Holds for every transform and size (rational arithmetic); tests use a few random affines.", "anchors": ["delayed_image/helpers.py:_swap_warp_after_crop", "delayed_image/delayed_nodes.py:DelayedCrop._opt_warp_after_crop"]}
{"id": "C45", "title": "Overview-before-crop is aligned", "statement": "Moving a crop after an overview gives a crop inside the overview canvas and a residual translation (0 <= offset < 1 to the left) such that each coordinate maps to the same source location.", "quantifier": "every crop region, source size and overview level", "why_tests_cant": "Holds for every transform and size (rational arithmetic); tests use a few random affines.", "anchors": ["delayed_image/helpers.py:_swap_crop_after_warp", "delayed_image/delayed_nodes.py:DelayedOverview._opt_crop_after_overview"]}
{"id": "C46", "title": "Overview levels add", "statement": "Taking overview a then overview b has the same size as overview a+b, the same transform, and the fused node is equivalent.", "quantifier": "all sizes and levels", "why_tests_cant": "Holds for every transform and size (rational arithmetic); tests use a few random affines.", "anchors": ["delayed_image/delayed_nodes.py:DelayedOverview.__init__", "delayed_image/delayed_nodes.py:DelayedOverview._opt_fuse_overview"]}
{"id": "C47", "title": "Overview commutes with warp", "statement": "An overview of a warped image can be replaced by a warp of the overview with the same total transform.", "quantifier": "every invertible affine and level", "why_tests_cant": "Holds for every transform and size (rational arithmetic); tests use a few random affines.", "anchors": ["delayed_image/delayed_nodes.py:DelayedOverview._opt_warp_after_overview"]}
{"id": "C48", "title": "Downsampling split is exact and bounded", "statement": "Splitting a downsampling warp into an overview and a residual warp keeps the total transform; the number of pyramid steps used is the largest power of two not exceeding the downsampling factor, so the residual scale lies in (1/2, 1].", "quantifier": "every downsampling warp", "why_tests_cant": "Holds for every transform and size (rational arithmetic); tests use a few random affines.", "anchors": ["delayed_image/delayed_nodes.py:DelayedWarp._opt_split_warp_overview", "delayed_image/delayed_nodes.py:_prepare_scale_residual"]}
{"id": "C49", "title": "Transforms between nodes compose", "statement": "b.get_transform_from(a) composed with a.get_transform_from(leaf) is b.get_transform_from(leaf); get_transform_from(self) is the identity; get_transform_from(a,b) is the inverse of get_transform_from(b,a).", "quantifier": "all pairs/triples of image chains (no concatenation) over the same leaf with invertible transforms; the identity also with concatenations", "why_tests_cant": "Holds for every transform and size (rational arithmetic); tests use a few random affines.", "anchors": ["delayed_image/delayed_nodes.py:ImageOpsMixin.get_transform_from", "delayed_image/delayed_nodes.py:DelayedImage.get_transform_from_leaf"]}
{"id": "C50", "title": "Undoing all warps returns to leaf coordinates", "statement": "undo_warp() applies the inverse of the accumulated transform, so the undone node is aligned with the leaf; retain and remove are complementary.", "quantifier": "every chain of invertible operations", "why_tests_cant": "Holds for every transform and size (rational arithmetic); tests use a few random affines.", "anchors": ["delayed_image/delayed_nodes.py:DelayedImage.undo_warp", "delayed_image/delayed_nodes.py:_rectify_retain"]}
{"id": "C51", "title": "Padded crop places the data at the requested window", "statement": "crop(clip=False, wrap=False, pad) has the size of the requested window plus padding and shows source pixel (x, y) at window position, with everything outside the source filled.", "quantifier": "all windows (also partly or fully outside), sizes and pads", "why_tests_cant": "Holds for every transform and size (rational arithmetic); tests use a few random affines.", "anchors": ["delayed_image/delayed_nodes.py:ImageOpsMixin._padded_crop", "delayed_image/delayed_nodes.py:ImageOpsMixin.crop"]}
{"id": "C52", "title": "Nearest axis-aligned warp samples only the source", "statement": "In the nearest-neighbour axis-aligned path every output pixel is either the fill value or the source pixel whose cell contains the back-projected position; output size is dsize.", "quantifier": "every scale > 0, offset, image", "why_tests_cant": "Holds for every transform and size (rational arithmetic); tests use a few random affines.", "anchors": ["delayed_image/delayed_nodes.py:DelayedWarp._finalize"]}
{"id": "C53", "title": "Scale decomposition is consistent", "statement": "The scale factors computed for a transform multiply to its determinant and the first is the length of its first column; both formula branches agree; a positive diagonal matrix gives its diagonal.", "quantifier": "every real 2x2 matrix with nonzero first column", "why_tests_cant": "Holds for every transform and size (rational arithmetic); tests use a few random affines.", "anchors": ["delayed_image/helpers.py:_decompose_scale"]}
{"id": "C54", "title": "Lazy crop and warp are no-ops exactly when they change nothing", "statement": "crop(lazy=True) returns the image itself only when the slice is the full canvas; warp(lazy=True) only when the transform is (close to) identity and the explicit dsize equals the current one.", "quantifier": "all slices, sizes, transforms", "why_tests_cant": "Holds for every transform and size (rational arithmetic); tests use a few random affines.", "anchors": ["delayed_image/delayed_nodes.py:ImageOpsMixin.crop", "delayed_image/delayed_nodes.py:ImageOpsMixin.warp"]}
{"id": "C55", "title": "Quantize then dequantize is accurate", "statement": "For data in [old_min, old_max], dequantize(quantize_float01(x)) differs from x by less than one quantization step (old_max-old_min)/(quant_max-quant_min), never exceeds x, and NaN comes back as NaN.", "quantifier": "every x, every old_min < old_max, every integer dtype", "why_tests_cant": "Ranges over all values (rationals) and all quantization parameters.", "anchors": ["delayed_image/helpers.py:quantize_float01", "delayed_image/helpers.py:dequantize"]}
{"id": "C56", "title": "The nodata code never collides with data", "statement": "quantize_float01 maps finite data into [quant_min, quant_max], which does not contain the nodata code, and the nodata code fits the dtype.", "quantifier": "every finite value (in or out of range) and every integer dtype", "why_tests_cant": "Ranges over all values (rationals) and all quantization parameters.", "anchors": ["delayed_image/helpers.py:quantize_float01"]}
{"id": "C57", "title": "Quantization is monotone and clips", "statement": "quantize_float01 is monotone, sends everything <= old_min to quant_min and everything >= old_max to quant_max.", "quantifier": "all values", "why_tests_cant": "Ranges over all values (rationals) and all quantization parameters.", "anchors": ["delayed_image/helpers.py:quantize_float01"]}
{"id": "C58", "title": "dequantize is affine and marks exactly the nodata samples", "statement": "dequantize sends quant_min to orig_min and quant_max to orig_max, is affine in between, and an output is NaN exactly when the sample equals a nodata value representable in the data dtype .", "quantifier": "all arrays of integer samples and all quantization dicts with quant_max given and different from quant_min, and a bool, int or float as nodata value, or none", "why_tests_cant": "Ranges over all values (rationals) and all quantization parameters.", "anchors": ["delayed_image/helpers.py:dequantize", "delayed_image/helpers.py:_scalar_is_representable_in_dtype"]}
{"id": "C59", "title": "Tree traversal visits every node exactly once", "statement": "_traverse yields each node of the tree once, with its parent; leafs() yields exactly the childless nodes; as_graph has one node per tree node and one edge per parent/child pair.", "quantifier": "every tree", "why_tests_cant": "Ranges over all operation trees (arbitrary depth, sizes and channel layouts); tests try a few chains on demo images.", "anchors": ["delayed_image/delayed_base.py:DelayedOperation._traverse", "delayed_image/delayed_base.py:DelayedOperation.leafs", "delayed_image/delayed_base.py:DelayedOperation._traversed_graph"]}
{"id": "C60", "title": "Nested parameters only override existing keys", "statement": "finalize(**kwargs) sets, on every node, exactly those given keys that the node already has in its metadata, and no other key.", "quantifier": "every tree and kwargs", "why_tests_cant": "Ranges over all operation trees (arbitrary depth, sizes and channel layouts); tests try a few chains on demo images.", "anchors": ["delayed_image/delayed_base.py:DelayedOperation._set_nested_params"]}
{"id": "C61", "title": "prepare fills missing metadata without changing known values", "statement": "prepare() keeps a user-given dsize, channel count and overview count and fills in only what is unknown; preparing twice equals preparing once.", "quantifier": "every combination of known/unknown metadata and file contents", "why_tests_cant": "Ranges over all metadata states.", "anchors": ["delayed_image/delayed_leafs.py:DelayedLoad._load_metadata"]}
{"id": "C62", "title": "Leaf paths are faithful", "statement": "_leaf_paths yields one entry per leaf, whose chain applies exactly the non-concat operations between the root and that leaf.", "quantifier": "every tree", "why_tests_cant": "Ranges over all operation trees (arbitrary depth, sizes and channel layouts); tests try a few chains on demo images.", "anchors": ["delayed_image/delayed_base.py:DelayedOperation._leaf_paths"]}
{"id": "C63", "title": "File slicing reads the requested window", "statement": "Indexing a lazy file with slices, ints, lists, None or Ellipsis reads exactly the rows, columns and bands that the same index selects from the in-memory (H, W, C) array, for non-empty windows with non-negative in-range starts, where an Ellipsis stands for at least one axis.", "quantifier": "every image size and every supported index", "why_tests_cant": "There are infinitely many strings/lists; a test samples a handful of hand-picked specs.", "anchors": ["delayed_image/lazy_loaders.py:_rectify_slice_dim", "delayed_image/lazy_loaders.py:LazyGDalFrameFile.__getitem__"]}
{"id": "C64", "title": "Negative slice starts follow numpy", "statement": "lazyfile[-n:] reads the last n rows as numpy does.", "quantifier": "every size and negative start", "why_tests_cant": "There are infinitely many strings/lists; a test samples a handful of hand-picked specs.", "anchors": ["delayed_image/lazy_loaders.py:_rectify_slice_dim"]}
{"id": "C65", "title": "The cache dictionary is a bounded LRU", "statement": "CacheDict never holds more than cache_len entries, a read returns the last value written for that key, and evictions remove the least recently used key.", "quantifier": "every finite sequence of reads and writes", "why_tests_cant": "It ranges over operation histories.", "anchors": ["delayed_image/lazy_loaders.py:CacheDict"]}
{"id": "C66", "title": "nodata masks mark exactly the nodata samples", "statement": "Reading with nodata_method float/nan/ma marks a sample as NaN/masked iff it equals the nodata value of its own band, and leaves all other samples unchanged.", "quantifier": "all arrays and per-band nodata values", "why_tests_cant": "There are infinitely many strings/lists; a test samples a handful of hand-picked specs.", "anchors": ["delayed_image/lazy_loaders.py:_gdal_read_kwimage_compatible"]}
{"id": "C67", "title": "Relative overviews compose", "statement": "get_overview(a).get_overview(b) is get_overview(a+b), and num_overviews decreases accordingly.", "quantifier": "all levels", "why_tests_cant": "There are infinitely many strings/lists; a test samples a handful of hand-picked specs.", "anchors": ["delayed_image/lazy_loaders.py:LazyGDalFrameFile.get_overview"]}
{"id": "C68", "title": "Graph text prints every reachable node exactly once", "statement": "generate_network_text terminates on every finite directed graph (cycles included) and prints each node reachable from the sources on exactly one line.", "quantifier": "every finite directed graph and list of sources", "why_tests_cant": "Cycles and sharing make the traversal order data dependent; the claim is for all graphs.", "anchors": ["delayed_image/util/util_network_text.py:generate_network_text"]}
{"id": "C69", "title": "Shape merging takes the component-wise maximum", "statement": "_largest_shape gives, per axis, the largest known extent, independent of the order of the shapes.", "quantifier": "all lists of shapes with unknown entries", "why_tests_cant": "There are infinitely many strings/lists; a test samples a handful of hand-picked specs.", "anchors": ["delayed_image/helpers.py:_largest_shape"]}
{"id": "C70", "title": "Representability of a scalar is decided correctly", "statement": "A scalar is reported representable in an integer dtype iff it is integral and within the dtype bounds.", "quantifier": "every Python bool, int or float (NaN and infinities included) and every integer dtype", "why_tests_cant": "There are infinitely many strings/lists; a test samples a handful of hand-picked specs.", "anchors": ["delayed_image/helpers.py:_scalar_is_representable_in_dtype"]}
{"id": "C71", "title": "numel counts every stream", "statement": "numel() of a ChannelSpec equals numel() of its fused version, also when the same stream is written twice.", "quantifier": "every ChannelSpec string that normalizes", "why_tests_cant": "There are infinitely many strings/lists; a test samples a handful of hand-picked specs.", "anchors": ["delayed_image/channel_spec.py:ChannelSpec.numel", "delayed_image/channel_spec.py:ChannelSpec.fuse"]}
{"id": "C72", "title": "The nearest-neighbour warp path succeeds for every output size", "statement": "A translated axis-aligned nearest-neighbour warp computes an array for every requested output size.", "quantifier": "all scales, translations and sizes", "why_tests_cant": "The failure depends on the relation of four numbers.", "anchors": ["delayed_image/delayed_nodes.py:DelayedWarp._finalize"]}
{"id": "C73", "title": "Overviews of images without stored overviews can be optimized", "statement": "get_overview on an image that stores no overviews gives an image that optimize() accepts.", "quantifier": "every tree with overviews over in-memory images", "why_tests_cant": "Ranges over all operation trees (arbitrary depth, sizes and channel layouts); tests try a few chains on demo images.", "anchors": ["delayed_image/delayed_nodes.py:DelayedOverview.num_overviews", "delayed_image/delayed_nodes.py:DelayedOverview._opt_crop_after_overview", "delayed_image/delayed_nodes.py:DelayedWarp._opt_split_warp_overview"]}
{"id": "C74", "title": "Two-dimensional data behaves like a one-band image", "statement": "An in-memory image given as an H x W array reports one channel, finalizes to an array with that shape, and optimize() does not change what finalize returns.", "quantifier": "every tree over H x W data", "why_tests_cant": "Ranges over all operation trees (arbitrary depth, sizes and channel layouts); tests try a few chains on demo images.", "anchors": ["delayed_image/delayed_leafs.py:DelayedIdentity", "delayed_image/delayed_nodes.py:DelayedCrop._finalize", "delayed_image/delayed_nodes.py:DelayedDequantize._finalize"]}
{"id": "C75", "title": "Codes survive a dequantize/quantize round trip", "statement": "quantize_float01 applied to the result of dequantize gives the integer codes back.", "quantifier": "every array of codes, range and integer dtype", "why_tests_cant": "A rounding error at one of 65536 codes is easily missed.", "anchors": ["delayed_image/helpers.py:quantize_float01", "delayed_image/helpers.py:dequantize"]}
{"id": "C76", "title": "The integer cast of quantize_float01 is defined", "statement": "For data in the declared range, the scaled value fits the integer dtype, so the result does not depend on the undefined behaviour of an out-of-range cast.", "quantifier": "every floating point datum and integer dtype", "why_tests_cant": "Ranges over all floats; the failing ones are at the edge of the range.", "anchors": ["delayed_image/helpers.py:quantize_float01"]}
{"id": "C77", "title": "Rational scalars are not reported representable", "statement": "A non-integral Fraction or Decimal is not reported representable in an integer dtype.", "quantifier": "every rational", "why_tests_cant": "There are infinitely many strings/lists; a test samples a handful of hand-picked specs.", "anchors": ["delayed_image/helpers.py:_scalar_is_representable_in_dtype"]}
{"id": "C78", "title": "evaluate() is transparent", "statement": "evaluate() returns an in-memory image with the same size, channels and pixels as the tree it was called on.", "quantifier": "every tree of exact operations (crops, band selections, concatenations, dequantization, missing data)", "why_tests_cant": "Ranges over all operation trees (arbitrary depth, sizes and channel layouts); tests try a few chains on demo images.", "anchors": ["delayed_image/delayed_nodes.py:DelayedImage.evaluate", "delayed_image/delayed_leafs.py:DelayedIdentity"]}
{"id": "C79", "title": "An empty channel request keeps the image size", "statement": "take_channels of an empty list gives an image of the same size without bands.", "quantifier": "every image or concatenation", "why_tests_cant": "There are infinitely many strings/lists; a test samples a handful of hand-picked specs.", "anchors": ["delayed_image/delayed_nodes.py:DelayedChannelConcat.take_channels", "delayed_image/delayed_nodes.py:DelayedImage.take_channels"]}
{"id": "C80", "title": "Unknown missing-channel policies are rejected", "statement": "take_channels raises KeyError for an unknown missing_channel_policy.", "quantifier": "every tree and every request", "why_tests_cant": "There are infinitely many strings/lists; a test samples a handful of hand-picked specs.", "anchors": ["delayed_image/delayed_nodes.py:DelayedChannelConcat.take_channels", "delayed_image/delayed_nodes.py:DelayedImage.take_channels"]}
{"id": "C81", "title": "The two modes of encode agree", "statement": "encode(item, mode=0) and encode(item, mode=1) give the same streams.", "quantifier": "every spec and item for which the default mode succeeds", "why_tests_cant": "There are infinitely many strings/lists; a test samples a handful of hand-picked specs.", "anchors": ["delayed_image/channel_spec.py:ChannelSpec.encode"]}
{"id": "C82", "title": "Lazy reads always give three axes", "statement": "Indexing a lazy file with slices gives an (H, W, C) array whatever the number of selected bands.", "quantifier": "every file and index", "why_tests_cant": "Ranges over every file size, band count, overview pyramid and index; tests read a few demo files.", "anchors": ["delayed_image/lazy_loaders.py:LazyGDalFrameFile.__getitem__", "delayed_image/lazy_loaders.py:LazyGDalFrameFile._dataset_read_as_array"]}
{"id": "C83", "title": "The fast read path agrees with the compatible one", "statement": "Reading a lazy file gives the same samples whether or not the GDAL fast path is enabled, at every overview level.", "quantifier": "every file, level and index", "why_tests_cant": "Ranges over every file size, band count, overview pyramid and index; tests read a few demo files.", "anchors": ["delayed_image/lazy_loaders.py:LazyGDalFrameFile._read_ds", "delayed_image/lazy_loaders.py:LazyGDalFrameFile._read_bands"]}
{"id": "C84", "title": "Overviews a file does not have are refused", "statement": "A lazy handle for an overview level the file does not have raises when its shape is asked for or samples are read.", "quantifier": "every file and level", "why_tests_cant": "Ranges over every file size, band count, overview pyramid and index; tests read a few demo files.", "anchors": ["delayed_image/lazy_loaders.py:LazyGDalFrameFile.shape", "delayed_image/lazy_loaders.py:LazyGDalFrameFile._read_bands"]}
{"id": "C85", "title": "An Ellipsis may stand for no axes", "statement": "lazyfile[a, b, ..., c] reads the same as lazyfile[a, b, c], as in numpy.", "quantifier": "every file and index", "why_tests_cant": "Ranges over every file size, band count, overview pyramid and index; tests read a few demo files.", "anchors": ["delayed_image/lazy_loaders.py:LazyGDalFrameFile.__getitem__"]}
{"id": "C86", "title": "Graph text tells every edge once", "statement": "Without max_depth and collapsed nodes, the text of a graph tells each edge between printed nodes exactly once: the head is drawn below the tail, or the tail is named on the right of the head; no other pair is told.", "quantifier": "every finite graph, directed or not, and list of sources", "why_tests_cant": "Cycles and sharing make the traversal order data dependent; the claim is for all graphs.", "anchors": ["delayed_image/util/util_network_text.py:generate_network_text"]}
{"id": "C87", "title": "Default sources cover the graph", "statement": "When no sources are given, every node of the graph is printed; in a directed graph no chosen source is reachable from another one.", "quantifier": "every finite graph", "why_tests_cant": "Cycles and sharing make the traversal order data dependent; the claim is for all graphs.", "anchors": ["delayed_image/util/util_network_text.py:_find_sources"]}
{"id": "C88", "title": "max_depth limits the drawing", "statement": "With max_depth=d the nodes less than d edges away from a source are printed and no others.", "quantifier": "every finite graph, list of sources and depth", "why_tests_cant": "Cycles and sharing make the traversal order data dependent; the claim is for all graphs.", "anchors": ["delayed_image/util/util_network_text.py:generate_network_text"]}
{"id": "C89", "title": "The empty sensorchan spec is usable", "statement": "SensorChanSpec(\"\") behaves like the spec \"*:\" it normalizes to: streams, numel, concise and split accept it.", "quantifier": "the empty spec in every operation and in every late fusion", "why_tests_cant": "There are infinitely many strings/lists; a test samples a handful of hand-picked specs.", "anchors": ["delayed_image/sensorchan_spec.py:normalize_sensor_chan", "delayed_image/sensorchan_spec.py:SensorChanSpec.streams"]}
{"id": "C90", "title": "The channels of a single-sensor spec", "statement": "chans gives the late fusion of the channels of all streams, in order, when all streams have the same sensor, and raises otherwise.", "quantifier": "every sensorchan string the grammar accepts", "why_tests_cant": "There are infinitely many strings/lists; a test samples a handful of hand-picked specs.", "anchors": ["delayed_image/sensorchan_spec.py:SensorChanSpec.chans"]}
{"id": "C91", "title": "Transforms between concatenations are consistent", "statement": "get_transform_from between images with concatenations relates leafs both have, and going back is the inverse.", "quantifier": "all pairs of images with invertible transforms that share a leaf", "why_tests_cant": "Holds for every transform and size (rational arithmetic); tests use a few random affines.", "anchors": ["delayed_image/delayed_nodes.py:ImageOpsMixin.get_transform_from"]}
{"id": "C92", "title": "The returned warp is the applied transform", "statement": "undo_warp(return_warp=True) returns the transform from the image to the undone image.", "quantifier": "every chain of invertible operations and all options", "why_tests_cant": "Holds for every transform and size (rational arithmetic); tests use a few random affines.", "anchors": ["delayed_image/delayed_nodes.py:DelayedImage.undo_warp"]}
{"id": "C93", "title": "optimize does not change transforms", "statement": "get_transform_from gives the same transform before and after optimize, for the optimized image as source and as target.", "quantifier": "every chain of invertible operations", "why_tests_cant": "Holds for every transform and size (rational arithmetic); tests use a few random affines.", "anchors": ["delayed_image/delayed_nodes.py:ImageOpsMixin.get_transform_from", "delayed_image/delayed_nodes.py:DelayedCrop._opt_warp_after_crop"]}
{"id": "C94", "title": "Evaluating one image does not change another", "statement": "What an image optimizes and finalizes to does not depend on whether another image that shares nodes with it was optimized or finalized before.", "quantifier": "all programs that build images, all pairs of images they hold", "why_tests_cant": "It quantifies over every history of calls on images that share nodes.", "anchors": ["delayed_image/delayed_nodes.py:DelayedWarp._opt_absorb_overview", "delayed_image/delayed_base.py:OptimizeContext"]}
{"id": "C95", "title": "Lazy loading does not change the pixels", "statement": "An image whose leafs are files finalizes to the same samples as the same operations on the arrays the files hold (nodata_method None, \"float\", \"nan\" or \"auto\"), before and after optimize().", "quantifier": "all files, band counts, nodata values and trees of operations without overviews; after optimize() trees of exact operations with at most one dequantization above each leaf", "why_tests_cant": "Ranges over all operation trees (arbitrary depth, sizes and channel layouts); tests try a few chains on demo images.", "anchors": ["delayed_image/delayed_leafs.py:DelayedLoad._finalize", "delayed_image/delayed_nodes.py:DelayedCrop._finalize", "delayed_image/delayed_nodes.py:DelayedChannelConcat._finalize", "delayed_image/lazy_loaders.py:LazyGDalFrameFile.__getitem__"]}
{"id": "C96", "title": "After optimize() only shown samples are read", "statement": "Finalizing an optimized image reads from its files only samples the image shows, at full resolution, and never more samples than the image has.", "quantifier": "all files and trees of crops, band selections, concatenations and dequantizations (named channels, at most one dequantization above each leaf)", "why_tests_cant": "Ranges over all operation trees (arbitrary depth, sizes and channel layouts); tests try a few chains on demo images.", "anchors": ["delayed_image/delayed_nodes.py:DelayedCrop.optimize", "delayed_image/delayed_nodes.py:DelayedCrop._finalize", "delayed_image/lazy_loaders.py:LazyGDalFrameFile.__getitem__"]}
{"id": "C97", "title": "Masked samples stay masked", "statement": "With nodata_method=\"ma\" a sample the file marks as nodata is masked in the finalized image, whatever the operations above it.", "quantifier": "all files and trees of operations", "why_tests_cant": "Ranges over all operation trees (arbitrary depth, sizes and channel layouts); tests try a few chains on demo images.", "anchors": ["delayed_image/delayed_nodes.py:DelayedChannelConcat._finalize", "delayed_image/lazy_loaders.py:LazyGDalFrameFile.__getitem__"]}
{"id": "C98", "title": "Overviews of files are read, not computed", "statement": "get_overview on a file that stores the level finalizes to the stored level, and a crop of it to the window of that level; only that window of that level is read, before and after optimize().", "quantifier": "all files, sequences of get_overview calls and windows", "why_tests_cant": "Ranges over every file size, band count, overview pyramid and index; tests read a few demo files.", "anchors": ["delayed_image/delayed_nodes.py:DelayedOverview._finalize", "delayed_image/delayed_nodes.py:DelayedOverview._opt_fuse_overview", "delayed_image/lazy_loaders.py:LazyGDalFrameFile.get_overview"]}
{"id": "C99", "title": "A crop gives the bands it is asked for", "statement": "crop(slices, chan_idxs) gives the selected bands, with their names, in the window of the slices, in every mode (clip, wrap, pad).", "quantifier": "every image, window, band selection and mode", "why_tests_cant": "Ranges over all operation trees (arbitrary depth, sizes and channel layouts); tests try a few chains on demo images.", "anchors": ["delayed_image/delayed_nodes.py:ImageOpsMixin.crop", "delayed_image/delayed_nodes.py:ImageOpsMixin._padded_crop", "delayed_image/delayed_nodes.py:DelayedCrop.__init__"]}
{"id": "C100", "title": "Resizing is exact and composes", "statement": "resize(dsize) gives exactly that size; a point of the result is the point at the same relative position of the source; resizing in two steps or back to the original size shows the samples where resizing at once, or not at all, shows them.", "quantifier": "every image, every sequence of positive sizes, lazy or not", "why_tests_cant": "Holds for every transform and size (rational arithmetic); tests use a few random affines.", "anchors": ["delayed_image/delayed_nodes.py:ImageOpsMixin.resize", "delayed_image/delayed_nodes.py:ImageOpsMixin.scale", "delayed_image/delayed_nodes.py:ImageOpsMixin.warp"]}
{"id": "C101", "title": "An overview is a downscaled image", "statement": "get_overview(k) and scale(1/2**k) have the same size and bands and show the same samples at the same points.", "quantifier": "every image and level", "why_tests_cant": "Holds for every transform and size (rational arithmetic); tests use a few random affines.", "anchors": ["delayed_image/delayed_nodes.py:ImageOpsMixin.get_overview", "delayed_image/delayed_nodes.py:DelayedOverview.__init__", "delayed_image/delayed_nodes.py:ImageOpsMixin.scale"]}
{"id": "C102", "title": "A chain of warps becomes one warp", "statement": "optimize() of any number of warps over an in-memory image gives one warp with the size and settings of the last one, equal to the composition, or the image itself when the composition moves nothing.", "quantifier": "every chain of warps, of every length", "why_tests_cant": "Ranges over all operation trees (arbitrary depth, sizes and channel layouts); tests try a few chains on demo images.", "anchors": ["delayed_image/delayed_nodes.py:DelayedWarp.optimize", "delayed_image/delayed_nodes.py:DelayedWarp._opt_fuse_warps"]}
{"id": "C103", "title": "A padded crop shows the window around the request", "statement": "crop(slices, clip=False, wrap=False, pad=p) has the size of the request plus p on every side, and shows the source at the requested coordinates; padding by p is the same as asking for a window larger by p.", "quantifier": "every image, every window (negative or beyond the border) and padding; the samples for windows that touch the image (C51 has the others)", "why_tests_cant": "Holds for every transform and size (rational arithmetic); tests use a few random affines.", "anchors": ["delayed_image/delayed_nodes.py:ImageOpsMixin.crop", "delayed_image/delayed_nodes.py:ImageOpsMixin._padded_crop"]}
{"id": "C104", "title": "A nearest-neighbour warp shows the pixel below", "statement": "warp(M, interpolation=\"nearest\") shows at every pixel the source pixel below the centre of that pixel, or the border value when there is none.", "quantifier": "every image, transform and canvas size", "why_tests_cant": "Holds for every transform and size (rational arithmetic); tests use a few random affines.", "anchors": ["delayed_image/delayed_nodes.py:DelayedWarp._finalize", "delayed_image/delayed_nodes.py:_warp_affine_matrix_mode"]}
{"id": "C105", "title": "The matrix is inverted only for the affected libraries", "statement": "A warp hands its matrix over inverted exactly when kwimage is older than 0.12.0, OpenCV is 4.13, OpenCV does the warp with nearest interpolation and the pixels are float64.", "quantifier": "all version numbers, backends, interpolations and dtypes", "why_tests_cant": "It quantifies over library versions that cannot be installed together.", "anchors": ["delayed_image/delayed_nodes.py:_warp_affine_matrix_mode", "delayed_image/delayed_nodes.py:_version_tuple", "delayed_image/delayed_nodes.py:_kwimage_version"]}
{"id": "C106", "title": "Border values are the ones asked for", "statement": "Pixels of a warp without source data show border_value: the same number in all bands, or number k of a sequence in band k; more than four numbers are rejected.", "quantifier": "every image, border value, translated axis aligned transform and canvas size", "why_tests_cant": "Holds for every transform and size (rational arithmetic); tests use a few random affines.", "anchors": ["delayed_image/delayed_nodes.py:DelayedWarp._finalize"]}
{"id": "C107", "title": "Drawings can be read back", "statement": "For a graph whose nodes have distinct labels free of white space and drawing characters, parse_network_text of the ASCII text of generate_network_text (sources that reach every node, no max_depth, nothing collapsed, with or without vertical chains) gives a graph with the same nodes and edges; it is directed exactly when the graph is directed and has an edge.", "quantifier": "every finite graph, directed or not, labelling and list of sources that reach all nodes", "why_tests_cant": "Cycles and sharing make the traversal order data dependent; the claim is for all graphs.", "anchors": ["delayed_image/util/util_network_text.py:parse_network_text", "delayed_image/util/util_network_text.py:generate_network_text"]}
{"id": "C108", "title": "A fused sensor spec is one stream", "statement": "FusedSensorChanSpec.from_spec and coerce accept a text exactly when it stands for one stream; the object has that stream, its channels and its size, normalize() returns an equal object; several streams raise ValueError.", "quantifier": "every string", "why_tests_cant": "There are infinitely many strings/lists; a test samples a handful of hand-picked specs.", "anchors": ["delayed_image/sensorchan_spec.py:FusedSensorChanSpec.from_spec", "delayed_image/sensorchan_spec.py:FusedSensorChanSpec.coerce", "delayed_image/sensorchan_spec.py:FusedSensorChanSpec.normalize"]}
{"id": "C109", "title": "concise() of a fused sensor spec abbreviates", "statement": "FusedSensorChanSpec.concise() writes consecutive channels as a slice, as SensorChanSpec.concise() does, and keeps the sensor and the channels.", "quantifier": "every text of one stream", "why_tests_cant": "There are infinitely many strings/lists; a test samples a handful of hand-picked specs.", "anchors": ["delayed_image/sensorchan_spec.py:FusedSensorChanSpec.concise", "delayed_image/sensorchan_spec.py:FusedSensorChanSpec.from_spec"]}
{"id": "C110", "title": "Coercing channels to a sensor spec keeps them", "statement": "SensorChanSpec.coerce of a ChannelSpec, FusedChannelSpec or number gives a spec with the same streams and channel names, in order, for the sensor *.", "quantifier": "every valid channel spec", "why_tests_cant": "There are infinitely many strings/lists; a test samples a handful of hand-picked specs.", "anchors": ["delayed_image/sensorchan_spec.py:SensorChanSpec.coerce", "delayed_image/channel_spec.py:ChannelSpec.coerce"]}
{"id": "C111", "title": "Channel specs convert into each other without loss", "statement": "ChannelSpec.coerce of a FusedChannelSpec and back gives the same codes and size, whatever was coerced before; coercing a number to either class gives that many channels u0, u1, ...", "quantifier": "every fused spec, number and history of coercions", "why_tests_cant": "There are infinitely many strings/lists; a test samples a handful of hand-picked specs.", "anchors": ["delayed_image/channel_spec.py:ChannelSpec.coerce", "delayed_image/channel_spec.py:ChannelSpec.from_int", "delayed_image/channel_spec.py:FusedChannelSpec.coerce"]}
{"id": "C112", "title": "A coordinate crop shows the requested box", "statement": "The coordinate crop of a box with corner (x0, y0) and a size has exactly that size and the bands of the source, and shows at (x, y) what the source shows at (x + x0, y + y0), also for fractional corners and for boxes that leave the image; cropping a box inside the first one again is cropping once by the sum of the corners.", "quantifier": "all images, all corners, all box sizes", "why_tests_cant": "Holds for every transform and size (rational arithmetic); tests use a few random affines.", "anchors": ["delayed_image/delayed_nodes.py:ImageOpsMixin._coordinate_crop"]}
{"id": "C113", "title": "Squashed missing data is one pixel", "statement": "undo_warp(squash_nans=True) of an image that holds only missing data returns one pixel of missing data with the same bands, whatever operations were applied.", "quantifier": "all chains of operations over missing data, all sets of retained components", "why_tests_cant": "Ranges over all operation trees (arbitrary depth, sizes and channel layouts); tests try a few chains on demo images.", "anchors": ["delayed_image/delayed_nodes.py:DelayedImage.undo_warp", "delayed_image/delayed_leafs.py:DelayedNans"]}
{"id": "C114", "title": "ENVI headers are read back", "statement": "Reading an ENVI header returns every field that was written in it: plain values as texts, non-empty lists in braces as their items however they are spread over lines and whatever comments stand between, descriptions as texts; field names are compared without regard to case and the last of repeated fields wins.", "quantifier": "all lists of fields, all layouts over lines, all comments", "why_tests_cant": "There are infinitely many strings/lists; a test samples a handful of hand-picked specs.", "anchors": ["delayed_image/lazy_loaders.py:_read_envi_header"]}
{"id": "C115", "title": "Reading an ENVI header fails only for unclosed lists", "statement": "Reading a file that starts with ENVI always returns and raises only when a list is opened and no later line closes it.", "quantifier": "all texts", "why_tests_cant": "There are infinitely many strings/lists; a test samples a handful of hand-picked specs.", "anchors": ["delayed_image/lazy_loaders.py:_read_envi_header"]}
{"id": "C116", "title": "A header opens the data file beside it", "statement": "Opening path.hdr opens path.<interleave> with the interleave named in the header, without regard to upper and lower case; any other path is opened as it is.", "quantifier": "all paths, all headers", "why_tests_cant": "There are infinitely many strings/lists; a test samples a handful of hand-picked specs.", "anchors": ["delayed_image/lazy_loaders.py:LazyGDalFrameFile", "delayed_image/lazy_loaders.py:_read_envi_header"]}
{"id": "C117", "title": "`name in spec` tells whether the spec has the channel", "statement": "For a valid spec, `name in spec` is true exactly when name is one of the channels the spec stands for, for ChannelSpec and FusedChannelSpec alike, and ChannelSpec.unique lists exactly those channels.", "quantifier": "every valid spec text and every name", "why_tests_cant": "There are infinitely many strings/lists; a test samples a handful of hand-picked specs.", "anchors": ["delayed_image/channel_spec.py:ChannelSpec.__contains__", "delayed_image/channel_spec.py:ChannelSpec.unique", "delayed_image/channel_spec.py:FusedChannelSpec.__contains__", "delayed_image/channel_spec.py:FusedChannelSpec.__getitem__"]}
{"id": "C118", "title": "Demo items satisfy the spec", "statement": "The demo item of a valid spec has one entry per code with as many channels as the code stands for, and the spec encodes it with all channels of every stream.", "quantifier": "every valid spec text", "why_tests_cant": "There are infinitely many strings/lists; a test samples a handful of hand-picked specs.", "anchors": ["delayed_image/channel_spec.py:ChannelSpec._item_shapes", "delayed_image/channel_spec.py:ChannelSpec._demo_item", "delayed_image/channel_spec.py:ChannelSpec.encode"]}
{"id": "C119", "title": "Names and number of channels agree", "statement": "Whenever an image has channel names, num_channels is the number of channels they stand for, after any sequence of constructor calls, assignments to .channels and prepare() on images that share parts.", "quantifier": "every history of calls, of any length, on any number of images that share parts", "why_tests_cant": "It quantifies over every history of calls on shared objects.", "anchors": ["delayed_image/delayed_nodes.py:DelayedImage.channels", "delayed_image/delayed_nodes.py:DelayedImage.num_channels", "delayed_image/delayed_nodes.py:DelayedChannelConcat.channels", "delayed_image/delayed_leafs.py:DelayedLoad.prepare"]}
{"id": "C120", "title": "New names reach the images built from an image", "statement": "Assigning .channels gives the names to the image and to every image built from it, and to no other image.", "quantifier": "every history of calls, every image and every spec", "why_tests_cant": "It quantifies over every history of calls on shared objects.", "anchors": ["delayed_image/delayed_nodes.py:DelayedImage.channels", "delayed_image/delayed_nodes.py:DelayedChannelConcat.channels", "delayed_image/delayed_nodes.py:DelayedCrop.__init__"]}
{"id": "C121", "title": "prepare() makes the shape known", "statement": "After prepare() the size and number of channels of the image are known, whatever it is made of; nothing known before is changed, of any image, and prepare() does not raise.", "quantifier": "every history of calls and every image", "why_tests_cant": "It quantifies over every history of calls on shared objects.", "anchors": ["delayed_image/delayed_base.py:DelayedOperation.prepare", "delayed_image/delayed_leafs.py:DelayedLoad.prepare", "delayed_image/delayed_leafs.py:DelayedLoad._load_metadata", "delayed_image/delayed_nodes.py:DelayedDequantize.__init__", "delayed_image/delayed_nodes.py:DelayedChannelConcat.__init__"]}
{"id": "C122", "title": "as_xarray labels every band with its name", "statement": "Finalizing as_xarray() gives an array whose c coordinate lists the names of the bands in order, and no coordinate when the image has no names.", "quantifier": "every image, with or without names, with one or more bands", "why_tests_cant": "There are infinitely many strings/lists; a test samples a handful of hand-picked specs.", "anchors": ["delayed_image/delayed_nodes.py:DelayedAsXarray._finalize", "delayed_image/channel_spec.py:FusedChannelSpec.code_list"]}
{"id": "C123", "title": "The test for empty files is right", "statement": "The helper that decides whether a raster file holds data says yes exactly when some sample of the file is not zero.", "quantifier": "every file of any size, read at any overview, with any nodata handling", "why_tests_cant": "Ranges over every file size, band count, overview pyramid and index; tests read a few demo files.", "anchors": ["delayed_image/lazy_loaders.py:_validate_nonzero_data", "delayed_image/lazy_loaders.py:LazyGDalFrameFile.__getitem__"]}
{"id": "C124", "title": "nesting() describes any image", "statement": "nesting() returns a description for every image: the types, settings and children of every node in order, with the transform and the channel names abbreviated but meaning the same; it never raises.", "quantifier": "every operation tree and all metadata, channel names included", "why_tests_cant": "Ranges over all operation trees (arbitrary depth, sizes and channel layouts); tests try a few chains on demo images.", "anchors": ["delayed_image/delayed_base.py:DelayedOperation.nesting", "delayed_image/channel_spec.py:FusedChannelSpec.concise"]}
{"id": "C125", "title": "as_graph() shows every operation and its settings", "statement": "as_graph() gives one node per operation and one edge per parent and child; the label of a node shows every setting that is not None, except the ones fields='auto' hides and the channel count when names are shown; it never raises.", "quantifier": "every operation tree and all metadata", "why_tests_cant": "Ranges over all operation trees (arbitrary depth, sizes and channel layouts); tests try a few chains on demo images.", "anchors": ["delayed_image/delayed_base.py:DelayedOperation.as_graph", "delayed_image/delayed_base.py:DelayedOperation._traversed_graph"]}
{"id": "C126", "title": "The self check passes on what the API builds", "statement": "_validate() of an image or concatenation built with the API returns the image; when it passes, the finalized array and the optimized image have the shape and the names the metadata says.", "quantifier": "every operation tree and all pixel data", "why_tests_cant": "Ranges over all operation trees (arbitrary depth, sizes and channel layouts); tests try a few chains on demo images.", "anchors": ["delayed_image/delayed_nodes.py:DelayedImage._validate", "delayed_image/delayed_nodes.py:DelayedChannelConcat._validate"]}
{"id": "C127", "title": "Images without data stay without data", "statement": "Finalizing a DelayedNodata image after any crops, warps and band selections gives an array of the resulting size in which every sample is missing, as nan or masked as its nodata method asks; every method that files accept is accepted.", "quantifier": "every size, every sequence of operations and every nodata method", "why_tests_cant": "Ranges over all operation trees (arbitrary depth, sizes and channel layouts); tests try a few chains on demo images.", "anchors": ["delayed_image/delayed_leafs.py:DelayedNodata._finalize", "delayed_image/delayed_leafs.py:DelayedNans._optimized_crop", "delayed_image/delayed_leafs.py:DelayedNans._optimized_warp"]}
{"id": "C128", "title": "Selecting from a concatenation takes exactly the requested bands", "statement": "take_channels on a concatenation takes from its parts exactly the requested bands, in the requested order, with missing-data bands of the requested names in between, whatever parts repeat and in whatever order bands are requested; its internal assertions never fail.", "quantifier": "every list of parts, also repeated ones, and every list of requested bands", "why_tests_cant": "Ranges over all operation trees (arbitrary depth, sizes and channel layouts); tests try a few chains on demo images.", "anchors": ["delayed_image/delayed_nodes.py:DelayedChannelConcat.take_channels", "delayed_image/delayed_nodes.py:_InnerAccumSegment"]}
{"id": "C129", "title": "A concatenation told its size keeps it", "statement": "A concatenation built with dsize= has that size; optimizing it returns, and keeps the size and the names.", "quantifier": "every list of parts and every given size", "why_tests_cant": "Ranges over all operation trees (arbitrary depth, sizes and channel layouts); tests try a few chains on demo images.", "anchors": ["delayed_image/delayed_nodes.py:DelayedChannelConcat.__init__", "delayed_image/delayed_nodes.py:DelayedChannelConcat.optimize"]}
{"id": "C130", "title": "Optimizing keeps the settings of warps", "statement": "When all warps of an image agree on interpolation, antialiasing, border value and backend, so do all warps of the optimized image.", "quantifier": "every operation tree and every setting", "why_tests_cant": "Ranges over all operation trees (arbitrary depth, sizes and channel layouts); tests try a few chains on demo images.", "anchors": ["delayed_image/delayed_nodes.py:DelayedWarp.optimize", "delayed_image/delayed_nodes.py:DelayedWarp._opt_fuse_warps", "delayed_image/delayed_nodes.py:DelayedOverview._opt_warp_after_overview"]}
{"id": "C131", "title": "Representability in bool, floating point and complex types", "statement": "A number is reported representable in bool iff it is 0 or 1, in a floating point type iff it is real and infinite, nan or not beyond the largest finite value, in a complex type iff both parts are within it or one is infinite or nan; None never is.", "quantifier": "every bool, int, float, rational and complex number and every type", "why_tests_cant": "Ranges over all values (rationals) and all quantization parameters.", "anchors": ["delayed_image/helpers.py:_scalar_is_representable_in_dtype"]}
{"id": "C132", "title": "An empty range is refused when quantizing", "statement": "quantize_float01 raises exactly when the two ends of the range are the same number, whatever the data and the integer type.", "quantifier": "every range of finite numbers, also in floating point arithmetic, every array", "why_tests_cant": "Ranges over all values (rationals) and all quantization parameters.", "anchors": ["delayed_image/helpers.py:quantize_float01"]}
{"id": "C133", "title": "Concatenations agree on their size", "statement": "After any history of calls, concatenating images succeeds exactly when their sizes agree or a size is given; the result has that size and the sum of the numbers of channels, and the other images do not change.", "quantifier": "every history of calls and every list of images", "why_tests_cant": "Ranges over all operation trees (arbitrary depth, sizes and channel layouts); tests try a few chains on demo images.", "anchors": ["delayed_image/delayed_nodes.py:DelayedChannelConcat.__init__"]}
{"id": "C134", "title": "A number given as channels is the number of channels", "statement": "An int or bool given as channels on loading, for missing data or by assignment is what num_channels says afterwards; leafs have no names then.", "quantifier": "every history of calls and every number", "why_tests_cant": "Ranges over all operation trees (arbitrary depth, sizes and channel layouts); tests try a few chains on demo images.", "anchors": ["delayed_image/delayed_nodes.py:DelayedImage.channels", "delayed_image/delayed_leafs.py:DelayedImageLeaf", "delayed_image/channel_spec.py:ChannelSpec.coerce"]}
{"id": "C135", "title": "Drawings start at the nodes with the fewest edges", "statement": "When no sources are given, an undirected drawing starts with one node of each connected part, one with the fewest edge ends in it, in order of that number; a directed one with a node of fewest incoming edges among those on cycles with it.", "quantifier": "every finite graph", "why_tests_cant": "Cycles and sharing make the traversal order data dependent; the claim is for all graphs.", "anchors": ["delayed_image/util/util_network_text.py:_find_sources"]}
{"id": "C136", "title": "Equality of channel specs", "statement": "Two channel specs compare equal exactly when they stand for the same channels in the same order; comparing with anything else gives False.", "quantifier": "every pair of channel specs, and comparands that are no channel spec", "why_tests_cant": "There are infinitely many strings/lists; a test samples a handful of hand-picked specs.", "anchors": ["delayed_image/channel_spec.py:FusedChannelSpec.__eq__"]}
{"id": "C137", "title": "Integer band indexes into lazily opened files", "statement": "An integer given as the band index of a lazily opened file selects that band, negative integers count from the end, and a band the file does not have is an error.", "quantifier": "every file, window, nodata method, overview level and every integer", "why_tests_cant": "Ranges over every file size, band count, overview pyramid and index; tests read a few demo files.", "anchors": ["delayed_image/lazy_loaders.py:LazyGDalFrameFile.__getitem__", "delayed_image/lazy_loaders.py:_rectify_slice_dim"]}
{"id": "C138", "title": "A lazily opened file shows one version of its file", "statement": "A lazily opened file shows the contents its path had when it was first used, whatever is written to or removed from the path later, and so do the overviews taken from it after that; an overview taken before the first use opens the file on its own. While there is no file every use fails and nothing is remembered.", "quantifier": "every history of opening, using and taking overviews, interleaved with every change of the files", "why_tests_cant": "Ranges over all histories of calls and file changes; tests use a file that never changes.", "anchors": ["delayed_image/lazy_loaders.py:LazyGDalFrameFile"]}
{"id": "C139", "title": "What prepare saw is what finalize reads", "statement": "Once prepare() or finalize() has looked into the file of a delayed image, the image reports the metadata of the contents it saw and finalize() reads those same contents, whatever happens to the file later; so the array has the reported size.", "quantifier": "every history of making, preparing and finalizing images, interleaved with every change of the files", "why_tests_cant": "Ranges over all histories of calls and file changes; tests use a file that never changes.", "anchors": ["delayed_image/delayed_leafs.py:DelayedLoad", "delayed_image/delayed_leafs.py:DelayedLoad._load_metadata", "delayed_image/delayed_leafs.py:DelayedLoad._finalize", "delayed_image/lazy_loaders.py:LazyGDalFrameFile"]}
{"id": "C140", "title": "Sizes of scaled images in floating point", "statement": "Scaling an image gives a canvas that covers the scaled image with less than one pixel to spare; a scaled size that is a whole number is met exactly; no image becomes empty, and larger images never give smaller canvases.", "quantifier": "every scale factor in double precision and every image size below 2^53", "why_tests_cant": "Rounding depends on every bit of the factor and of the size; tests use a few round numbers.", "anchors": ["delayed_image/helpers.py:_auto_dsize", "delayed_image/delayed_nodes.py:DelayedWarp.__init__"]}
{"id": "C141", "title": "Bands by slice, integer or list", "statement": "image[y, x, bands] shows the bands that numpy would select from the finalized array, whether they are written as a slice, an integer or a list of indexes; the channel names and the shape follow, an index that names no band is an IndexError, and finalize() gives the same array with and without optimization, also for selections of selections.", "quantifier": "every image, every sequence of subscripts with every kind of band selection", "why_tests_cant": "A test takes one kind of selection of one image; the combinations of nested selections are unbounded.", "anchors": ["delayed_image/delayed_nodes.py:DelayedImage.__getitem__", "delayed_image/delayed_nodes.py:DelayedCrop.__init__", "delayed_image/delayed_nodes.py:DelayedCrop._finalize", "delayed_image/delayed_nodes.py:DelayedCrop._opt_fuse_crops", "delayed_image/channel_spec.py:FusedChannelSpec.__getitem__"]}
{"id": "C142", "title": "Missing data keeps its number of bands", "statement": "An image of missing data that is told its channels, by name or by number, keeps their number through crops, band selections, warps and optimize(), and finalizes to that many bands of nan.", "quantifier": "every size, every number of channels, every crop, band selection and warp", "why_tests_cant": "A test fixes one size and one operation; the sizes, numbers of bands and operations are unbounded.", "anchors": ["delayed_image/delayed_leafs.py:DelayedNans._optimized_crop", "delayed_image/delayed_leafs.py:DelayedNans._optimized_warp", "delayed_image/delayed_leafs.py:DelayedNans._finalize", "delayed_image/delayed_nodes.py:DelayedImage.channels", "delayed_image/helpers.py:_ensure_valid_shape"]}
{"id": "C143", "title": "Ordered sets accept the indexes lists accept", "statement": "oset_insert and oset_delitem accept every index list.insert and del accept (negative and out of range positions, slices with any step, lists of positions); afterwards, also after an exception, the items are those of the list edited the same way and every item is mapped to its own position.", "quantifier": "every ordered set, every index, every sequence of edits", "why_tests_cant": "A test fixes one set and one index; sets, indexes and histories are unbounded, and the state left by an exception is seldom looked at.", "anchors": ["delayed_image/channel_spec.py:oset_insert", "delayed_image/channel_spec.py:oset_delitem"]}
{"id": "C144", "title": "Channel selection shows the selected samples, warps included", "statement": "take_channels(codes) shows at its band i, at every coordinate, exactly the samples the graph shows there in the channel named by the i-th code, and NaN everywhere on the canvas (nothing outside it) where no channel has that name; optimize() of the selection still shows all of these samples at the same places.", "quantifier": "every graph of warps, overviews, crops, dequantizations and concatenations with unique channel names and every non-empty request; for optimize(), graphs without missing data asked for existing channels, and graphs where no overview can be read", "why_tests_cant": "A test fixes one graph and one coordinate; graphs, requests and coordinates are unbounded, and the optimizer rewrites the selection with every operation above it.", "anchors": ["delayed_image/delayed_nodes.py:DelayedChannelConcat.take_channels", "delayed_image/delayed_nodes.py:DelayedImage.take_channels", "delayed_image/delayed_nodes.py:DelayedCrop.optimize"]}
{"id": "C145", "title": "A failing read is made up for", "statement": "Indexing a GDAL file with a selection of existing rows, columns and bands returns the right samples even when one of the calls to GDAL fails, by raising or by returning nothing, whichever call it is; with the dataset-level fast path switched on, even when two calls fail.", "quantifier": "every file, overview level, nodata method, index and every schedule in which at most one call (two with the fast path) fails", "why_tests_cant": "A test injects one failure at one call; files, selections and failure schedules are unbounded.", "anchors": ["delayed_image/lazy_loaders.py:LazyGDalFrameFile.__getitem__", "delayed_image/lazy_loaders.py:LazyGDalFrameFile._compat_gdal_read", "delayed_image/lazy_loaders.py:LazyGDalFrameFile._dataset_read_as_array", "delayed_image/lazy_loaders.py:_gdal_read_kwimage_compatible"]}
{"id": "C146", "title": "Band handles looked up in advance change nothing", "statement": "Reading with band handles and nodata values looked up in advance gives the same array after the same calls as reading with the handles looked up on the spot, also when calls fail; the level argument 'coarsest' and negative levels name the level counted from the smallest, and levels the file does not have are refused.", "quantifier": "every file, level the file has, list of existing bands counted from the start, window, nodata method and schedule of failures", "why_tests_cant": "A test compares one file and one window; files, band lists and failure schedules are unbounded.", "anchors": ["delayed_image/lazy_loaders.py:_gdal_read_kwimage_compatible", "delayed_image/lazy_loaders.py:LazyGDalFrameFile._read_bands", "delayed_image/lazy_loaders.py:LazyGDalFrameFile._read_band_nodata_values"]}
{"id": "C147", "title": "Palettes", "statement": "Indexing a file never applies its palettes. Read with its palette, a band gives for each pixel the palette entry its index names, all samples of a pixel whose index is the nodata value are nodata, and the reported number of bands is that of the entries; or it raises.", "quantifier": "every file with palettes, window, nodata method and schedule of failures", "why_tests_cant": "A test reads one paletted file; palettes, files and failure schedules are unbounded.", "anchors": ["delayed_image/lazy_loaders.py:_gdal_read_kwimage_compatible", "delayed_image/lazy_loaders.py:LazyGDalFrameFile.__getitem__"]}
{"id": "C148", "title": "None in a list of bands", "statement": "take_channels(list) of integers selects those bands whatever missing_channel_policy says, and an entry None stands for one band of missing data, as a code no channel has does.", "quantifier": "every image, every list of integers and None, every policy", "why_tests_cant": "A test fixes one list; images, lists and positions of None are unbounded.", "anchors": ["delayed_image/delayed_nodes.py:DelayedChannelConcat.take_channels", "delayed_image/delayed_nodes.py:DelayedImage.take_channels", "delayed_image/delayed_nodes.py:_InnerAccumSegment.get_subcomponent"]}
{"id": "C149", "title": "The default arguments of the GDAL reader", "statement": "Reading without a window gives the whole raster of the level that is read, reading without a list of bands gives all bands in order and reports their number, the nodata method may be given by its old argument name, and band numbers the file does not have are refused; whatever calls to GDAL fail.", "quantifier": "every file, level the file has, palette, nodata method and schedule of failures", "why_tests_cant": "A test reads a few files whose reads work; files, levels and failures are unbounded.", "anchors": ["delayed_image/lazy_loaders.py:_gdal_read_kwimage_compatible"]}
{"id": "C150", "title": "Images of files have a band axis", "statement": "finalize() of an image whose leafs are files returns an array with rows, columns and one plane per channel, also for a file of one band.", "quantifier": "all files, band counts and trees of operations without overviews", "why_tests_cant": "A test tries a few files and operations; band counts and trees are unbounded.", "anchors": ["delayed_image/delayed_leafs.py:DelayedLoad._finalize", "delayed_image/lazy_loaders.py:LazyGDalFrameFile.__getitem__", "delayed_image/delayed_nodes.py:DelayedChannelConcat._finalize", "delayed_image/delayed_nodes.py:DelayedCrop._finalize"]}
{"id": "C151", "title": "optimize() does not change an image cast to xarray", "statement": "as_xarray().optimize() is as_xarray() of the optimized image; both finalize to the same samples with the same channel labels, one label per band if the bands are named, and no labels otherwise.", "quantifier": "every tree of crops, band selections, concatenations and dequantizations over H x W x C data, any optimizer decisions; H x W data as leafs", "why_tests_cant": "A test casts a few images; trees and data are unbounded.", "anchors": ["delayed_image/delayed_nodes.py:DelayedAsXarray.optimize", "delayed_image/delayed_nodes.py:DelayedAsXarray._finalize", "delayed_image/delayed_nodes.py:ImageOpsMixin.as_xarray"]}
{"id": "C152", "title": "Sensor-channel concise is idempotent", "statement": "concise() of a spec that concise() returned is that spec, and it writes every stream once, however often the original repeats it.", "quantifier": "every sensorchan string the grammar accepts with at least one channel in each stream and plainly written indices", "why_tests_cant": "The grouping and sorting of streams must be stable for every list of sensors and channels; tests try a few specs.", "anchors": ["delayed_image/sensorchan_spec.py:concise_sensor_chan", "delayed_image/sensorchan_spec.py:SensorChanTransformer.stream", "delayed_image/sensorchan_spec.py:SensorChanSpec.concise"]}
{"id": "C153", "title": "Fused specs are sequences", "statement": "len(spec) is the number of items that list(spec) yields, and reversed(spec) yields the same items backwards.", "quantifier": "every fused spec that normalizes", "why_tests_cant": "len() counts written codes and indexing counts expanded channels; the two must be compared for every spec.", "anchors": ["delayed_image/channel_spec.py:FusedChannelSpec.__len__", "delayed_image/channel_spec.py:FusedChannelSpec.__getitem__"]}
{"id": "C154", "title": "code_list returns the expanded code list", "statement": "code_list() of a fused spec returns its expanded channel names; code_list() of a ChannelSpec returns the codes of its only stream and raises if there are more or none.", "quantifier": "every fused spec and every ChannelSpec string", "why_tests_cant": "There are infinitely many strings; a test samples a handful of hand-picked specs.", "anchors": ["delayed_image/channel_spec.py:FusedChannelSpec.code_list", "delayed_image/channel_spec.py:ChannelSpec.code_list"]}
{"id": "C155", "title": "Channel specs behave like plain values", "statement": "Whatever a program does with the lists it gives to or gets from fused channel specs, every spec goes on showing the codes it was made with; specs made from the same text, normalized specs and remembered results never influence each other.", "quantifier": "every program that builds fused specs from lists, text and numbers, calls their methods and edits lists in place", "why_tests_cant": "Specs built from text are shared process-wide and methods remember results, so the effect depends on the whole history of calls and edits.", "anchors": ["delayed_image/channel_spec.py:FusedChannelSpec.coerce", "delayed_image/channel_spec.py:FusedChannelSpec.normalize", "delayed_image/channel_spec.py:FusedChannelSpec.as_list", "delayed_image/channel_spec.py:FusedChannelSpec.code_list", "delayed_image/channel_spec.py:FusedChannelSpec.spec"]}
