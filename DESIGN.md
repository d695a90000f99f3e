# Formal model of delayed_image in Rocq (Coq 8.16.1)

## What is modelled

`/repo/delayed_image` is read as text. Each Python function of interest becomes a
total Gallina function; exceptions become values of a `result` type (`Ok` / `Err`);
object graphs become inductive trees, or heaps of objects where identity matters.
Every model definition carries a comment with the file and lines it models and
the simplifications made.

File convention: `XModel.v` holds only definitions (the program), `XSpec.v` the
independent specification vocabulary, `XProofs.v` (and the other files without
suffix) the lemmas and `XProps.v` the property theorems, each with a non-vacuity
`Example` beside it and followed by `Print Assumptions`. A property which the
code violates is stated in full and refuted by a theorem with suffix `_refuted`;
the strongest true variants found are proved beside it. Partial theorems carry
the suffix `_partial`, and the comment above them says what is missing.

| Model file | Source | What it covers |
|---|---|---|
| `Py.v` | Python builtins | exceptions, `str.split/join`, `int()`, formatting of ints, `range`, slices, dictionaries in insertion order |
| `ChanModel.v` | `channel_spec.py` | FusedChannelSpec, ChannelSpec, the coerce cache, aliases, slice codes, concise form, set algebra, `late_fuse`, `fuse`, path sanitizing, the ordered-set edits |
| `EncodeModel.v` | `channel_spec.py:1463-1746` | `encode`, `decode`, `component_indices` |
| `SeqModel.v` | `channel_spec.py:408-431, 741-745, 1231-1238` | `len`, iteration, `reversed` and truth of fused specs, `code_list` |
| `AliasModel.v` | `channel_spec.py:394-530, 631-693, 726-753` | fused specs as objects in a heap: shared lists, the class-wide memo, memoized methods, in-place edits |
| `SensorModel.v` | `sensorchan_spec.py` | grammar (as a recursive-descent parser), transformers, normalize, concise, `late_fuse`, `matching_sensor`, sizes |
| `SensorCoerceModel.v` | `sensorchan_spec.py`, `channel_spec.py` | `SensorChanSpec.coerce`, `FusedSensorChanSpec` (`coerce`, `normalize`, `concise`), `ChannelSpec.coerce`/`from_int` |
| `MemberModel.v` | `channel_spec.py` | membership tests, iteration, `unique`, `_item_shapes`, `_demo_item` |
| `EqModel.v` | `channel_spec.py:455-458` | `FusedChannelSpec.__eq__` |
| `BandIndexModel.v` | `delayed_nodes.py:1314-1325, 2668-2775, 2826-2910`, `channel_spec.py:424-431` | `image[y, x, bands]` with slices, integers and lists of bands |
| `FloatSizeModel.v` | `helpers.py:57-93` | `_auto_dsize` on IEEE doubles |
| `HandleModel.v` | `lazy_loaders.py:565-1073` | `LazyGDalFrameFile` objects over histories: cached dataset, memoized properties, overviews sharing them |
| `LoadHistModel.v` | `delayed_leafs.py:130-352`, `delayed_base.py:376-465` | `DelayedLoad` over histories: lazy reference, metadata, prepare and finalize |
| `XarrayModel.v` | `delayed_nodes.py:1616-1678` | `DelayedAsXarray`: optimize and finalize, given those of the image |
| `HistModel.v` | `delayed_nodes.py`, `delayed_leafs.py`, `delayed_base.py` | metadata (`channels`, `num_channels`, `dsize`) of shared image objects over histories of constructor calls, `.channels = ...`, `prepare()`; labels of `as_xarray` |
| `NonzeroModel.v` | `lazy_loaders.py` | `_validate_nonzero_data` |
| `NestModel.v` | `delayed_base.py` | `nesting`, and the node settings shown by `as_graph` |
| `ValidModel.v` | `delayed_nodes.py` | `_validate` of images and concatenations |
| `NodataModel.v` | `delayed_leafs.py` | `DelayedNodata`: construction, optimized crops and warps, `_finalize` |
| `AccumModel.v` | `delayed_nodes.py` | the loop of `DelayedChannelConcat.take_channels` with `_InnerAccumSegment` (`add_inner`, `get_indexer`, `get_subcomponent`) |
| `GivenModel.v` | `delayed_nodes.py` | `DelayedChannelConcat.__init__` with `dsize=` |
| `GeomModel.v` | `helpers.py`, `delayed_nodes.py` | affine maps, sizes, boxes, automatic warp sizes, padded crops, overview transforms, `split_warp` geometry |
| `ScaleModel.v` | `helpers.py:608-630` | scale decomposition over the reals |
| `GraphModel.v` | `delayed_nodes.py`, `delayed_leafs.py` | constructors, metadata and `optimize()` with every rewrite rule, on trees |
| `MemoModel.v` | same, `delayed_base.py` | `optimize()` on shared objects with the per-call memo table and shared metadata dicts |
| `FinalModel.v`, `PixModel.v` | `delayed_nodes.py`, `delayed_leafs.py` | `_finalize` of every node except DelayedAsXarray; evaluation of nearest-neighbour warps, matrix direction, border values |
| `TakeModel.v`, `TakeListModel.v` | `delayed_nodes.py` | `take_channels` by name and by index, lists with `None`, band segments, `evaluate` |
| `ApiModel.v` | `delayed_nodes.py` | crop (with padding), warp, scale, resize, get_overview as users call them |
| `XformModel.v` | `delayed_nodes.py` | `get_transform_from`, `undo_warp(s)` |
| `TreeModel.v` | `delayed_base.py` | traversals, `as_graph` metadata, `leafs`, `_leaf_paths`, `write_network_text` entry |
| `LazyModel.v`, `LoadModel.v` | `lazy_loaders.py`, `delayed_leafs.py`, `helpers.py` | lazy GDAL frames, index rectification, nodata masking, overviews, LRU cache, `prepare`, shape merging, finalize over files with the list of windows read |
| `ReadModel.v` | `lazy_loaders.py:121-277, 687-824, 896-1073` | the GDAL readers call by call, with calls that fail, fallbacks, preloaded bands and palettes |
| `EnviModel.v` | `lazy_loaders.py:580-588, 1140-1224` | the reader of ENVI headers and the data file opened for a header |
| `QuantModel.v` | `helpers.py:412-606` | quantize / dequantize in exact and in IEEE arithmetic, representability |
| `NetModel.v` | `util/util_network_text.py` | `generate_network_text` |
| `NetParseModel.v` | `util/util_network_text.py` | `parse_network_text` (ASCII glyphs) |

Not modelled: the DelayedArray / DelayedAsXarray / DelayedStack / DelayedFrameStack
constructors beyond what the rewrites use, non-nearest interpolation and
antialiasing (the sampled values; their geometry is modelled), kwimage's own
readers, rasterio and spectral frame files (only their common index handling),
the debug helpers, demo data, `_typing.py`, printing to the
terminal, performance, threads.

## Trusted base

- Coq's kernel (and `vm_compute`, part of it).
- The axioms listed by `Print Assumptions` after every property theorem: all
  theorems are "Closed under the global context", except
  `C53_scale_and_determinant`, `C53_branches_agree`, `C53_rotated_scaling`,
  `C53_diagonal`, `C53_absorbs` (ScaleProps.v), `C76_cast_defined_partial`
  (QuantProps.v), `C75_near_partial` (QuantNearProps.v), `C76_any_range_partial`, `C76_unrepresentable_refuted`,
  `C76_tiny_refuted` (QuantRangeProps.v), `C132_empty_range` (ReprProps.v) and the eight `C140_*` theorems
  (FloatSizeProps.v, FloatWarpProps.v),
  which speak about real numbers and use the standard library's
  `ClassicalDedekindReals.sig_not_dec`, `ClassicalDedekindReals.sig_forall_dec`,
  `FunctionalExtensionality.functional_extensionality_dep` and
  `Classical_Prop.classic`. No own axioms, no Admitted.
- The hand translation from Python to Gallina.

## Simplifications shared by all layers

- Floating point numbers are exact rationals (reals for square roots), except in
  `QuantModel.v`, where the arithmetic is a parameter and both exact and IEEE
  instances are used, and in `FloatSizeModel.v`, which computes on IEEE doubles.
- Strings are ASCII strings; Python integers are `Z`.
- External libraries (numpy slicing, kwimage.Affine, kwimage.Boxes,
  kwarray.embed_slice, lark, networkx) are modelled by their documented meaning,
  or taken as arbitrary function parameters of the theorem (`imresize`, gdal
  reads, hash functions, `str.format` of floats).
- Recursion without a structural measure takes fuel; running out of fuel is the
  distinguished error `OutOfFuel`, and theorems either exclude it or state it as
  the outcome (divergence).

## Idealisations per layer

- Channel specs: a code is a string; the hash suffix of long paths is a parameter;
  `lru_cache` wrappers of pure functions are left out.
- Sensor specs: lark's LALR parser is replaced by a recursive-descent parser for
  the same grammar; ambiguities the grammar allows are noted at the definition.
- Graph: channel specs are their normalized name lists (`[same]` flags where the
  code compares unnormalized texts); a quantization is an identifier; leafs are
  prepared. Warp parameters other than nearest, epsilon and backend are one tag.
- Finalize: arrays are size + pixel function over an arbitrary value type;
  `warp_affine` and `imresize` with nearest interpolation are the ideal samplers
  in `PixModel.v`; other interpolations are not evaluated.
- Objects (Memo): only `meta['dsize']` is mutable, the only key the code writes
  after construction; a write to `.subdata` of a fresh object is folded into its
  construction.
- Files: GDAL is a record of sizes, bands, overview levels and a window function;
  empty or out-of-range windows are failed reads; subdatasets are outside this
  layer; ENVI headers are read in `EnviModel.v` (ASCII, newline line breaks).
- Quantization: an array is the list of its elements.
- Graph text: node labels are given; networkx graphs are adjacency lists in
  insertion order.

## Plan per property

- **C01 normalize reaches atomic codes and is idempotent** — Strings are Coq `string`; `normalize` is a function list string -> result (list string). Induction on the code list, case analysis on alias / dotted / ":".
- **C02 numel and sizes agree with normalization** — `sizes`, `numel` modelled from their own code; equality proved by induction.
- **C03 concise is a lossless abbreviation** — `concise` modelled as the run-grouping loop; invariant on the current run (root, start, stop) over the remaining list; decimal printing/parsing round trip.
- **C04 concise is total on whatever normalize accepts** — Same model; expected to be refuted by a code such as "a.00" (witness by computation).
- **C05 Slice syntax denotes the arithmetic progression it spells** — `_parse_concise_slice_syntax` modelled on strings; theorem quantifies over root and all integers using the decimal printer; the spec is the arithmetic progression.
- **C06 Fused set algebra** — Ordered sets as duplicate-free lists; membership and order (subsequence) characterisation.
- **C07 Stream-wise set algebra of late-fused specs** — Streams as lists; per-stream filter specification.
- **C08 fuse and split preserve the channel sequence** — Flattened sequence of normalized codes is invariant.
- **C09 Late fusion is a monoid** — late_fuse modelled on spec strings and on parsed streams; monoid laws on the stream lists.
- **C10 Late fusion accepts spec strings** — Model of the isinstance dispatch; expected to be refuted.
- **C11 coerce does not depend on earlier calls** — State machine over the class-level memo table keyed by Python equality (int 1 == float 1.0); invariant for the str/int/list fragment, refutation for floats.
- **C12 Spec text and parsed streams agree** — Parse of printed text; join/split round trip.
- **C13 component_indices tile the stacked axis** — Prefix sums; consecutive-slices predicate.
- **C14 component_indices of a fused spec agree with its channel count** — Expected to be refuted by a slice code.
- **C15 encode then decode is the identity** — Item = list of (fused key, list of channel planes); encode/decode modelled with slices over the plane lists.
- **C16 encode handles repeated components** — Same model; expected to be refuted by a repeated component.
- **C17 subsequence_index finds exactly the contiguous occurrences** — Search loop model; soundness and completeness against list-infix.
- **C18 Ordered-set edits keep items and positions consistent** — Items list + position map; invariant preserved by each edit, induction over edit lists.
- **C19 Sanitized paths are legal** — Character-wise replacement; invariant over all strings.
- **C20 Sanitized paths respect maxlen** — Expected to be refuted (hash suffix is appended after truncation) unless the bound accounts for it.
- **C21 Indexing selects normalized channels** — Index normalisation against nth of the normalized list.
- **C22 Sensor-channel normalization is a fixed point with one sensor per stream** — Recursive-descent parser for the lark grammar and the transformer; induction on the parsed spec.
- **C23 Sensor-channel concise keeps the streams** — Set of denoted streams, induction on the stream list.
- **C24 concise output is always parseable** — Expected to be refuted by an empty channel stream.
- **C25 matching_sensor selects exactly the matching streams** — Filter characterisation.
- **C26 Sensor-channel sizes add up** — Sums over streams.
- **C27 optimize preserves the pixels (exact operations)** — Inductive type of delayed nodes, denotation as arrays (size + pixel function), fuelled optimize as in the code; simulation by induction on fuel.
- **C28 optimize preserves shape and channel metadata** — Metadata functions on nodes; preservation by the same induction.  With overviews: the optimized form of a pipeline of crops, dequantizations and overviews is an overview, a window of one, or a translation over a window (at most one dequantization between), whose extent stays within two pixels of the size (OvGrowProofs.v), by induction on the pipeline.
- **C29 Every visible sample stays on the same leaf location** — Provenance semantics over rational coordinates with canvas checks at each node; rewrite-wise simulation.
- **C30 optimize does not reveal or alter pixels at all (with warps)** — Expected to be refuted (canvas clipping of the inner warp is lost when warps are fused).
- **C31 Metadata describes the finalized array** — Denotation size = metadata size, by induction on trees built with the API constructors.
- **C32 optimize terminates and does not fail on well-formed trees** — Canonical forms (pipelines of crop, warp and dequantization over a leaf, under concatenations); every rewrite of a canonical tree ends in a canonical tree. Refuted for double dequantization, unnamed parts and singular warps. With overviews in use, over one image: normal forms with at most one overview, crop, dequantization and warp; induction on the remaining overviews (OvTotal.v).
- **C33 optimize is idempotent** — Normal-form predicate; optimize on normal forms is the identity. Refuted with overviews.
- **C34 The per-call memo table does not change the result of optimize** — Objects with identities, meta dicts and a memo table as state (MemoModel.v); optimize() on objects simulates rounds of the tree optimizer (MemoStep.v), so any relation closed under rounds relates argument and result.  Equality of trees without band selections, equality of arrays for exact operations, same samples otherwise; refuted as tree equality with selections.
- **C35 optimize leaves the input tree unchanged** — Ghost typing of meta dicts: only dicts of dequantizations are ever written (MemoFrame.v); none for images of three classes (MemoStep.v); refuted by a warp over a dequantized overview.
- **C36 take_channels returns the requested bands in the requested order** — Model of both take_channels implementations with the segment accumulator; band-wise specification.
- **C37 Missing channels become NaN bands or an error** — As C36.
- **C38 take_channels with repeated channel names** — Expected to be refuted.
- **C39 Single-band indexing of a concatenation** — Expected to be refuted for the optimized path; proved for the unoptimized one.
- **C40 Successive crops compose** — Slice composition on arrays.
- **C41 Concatenation stacks bands in order and rejects mismatched sizes** — Definition of concat denotation + rejection lemma.
- **C42 Dequantize commutes with selection** — Array equality.
- **C43 Automatic output size covers the warped image** — Affine maps over Q; corner maxima are the box maximum (linear arithmetic), ceil.
- **C44 Crop-before-warp covers the requested region** — Exact rational boxes, floor/ceil quantisation and clipping.
- **C45 Overview-before-crop is aligned** — As C44.
- **C46 Overview levels add** — Ceil division by powers of two.
- **C47 Overview commutes with warp** — Affine algebra.
- **C48 Downsampling split is exact and bounded** — log2 floor on rationals.
- **C49 Transforms between nodes compose** — XformModel: from_leaf along a chain, get_transform_from; group laws of affine maps, and an independent relation "the leaf point (u, v) ends up at (x, y)".
- **C50 Undoing all warps returns to leaf coordinates** — XformModel: undo_warp over an explicit codec (kwimage concise/coerce) with stated laws; the samples in view are followed through the warp and optimize() (C29).
- **C51 Padded crop places the data at the requested window** — Integer window arithmetic.
- **C52 Nearest axis-aligned warp samples only the source** — Floor arithmetic.
- **C53 Scale decomposition is consistent** — Coq Reals (standard library axioms of R).
- **C54 Lazy crop and warp are no-ops exactly when they change nothing** — Decision functions.
- **C55 Quantize then dequantize is accurate** — Rationals with floor/truncation; NaN as an extra constructor.
- **C56 The nodata code never collides with data** — As C55.
- **C57 Quantization is monotone and clips** — As C55.
- **C58 dequantize is affine and marks exactly the nodata samples** — As C55.
- **C59 Tree traversal visits every node exactly once** — TreeModel: trees with object identities, the three stack loops with fuel; positions as paths of child indices; each loop is shown to visit the positions in depth-first order.
- **C60 Nested parameters only override existing keys** — TreeModel: meta dictionaries by identity, updated along _traverse; proved key by key, also for shared nodes and dictionaries.
- **C61 prepare fills missing metadata without changing known values** — LazyModel: load_metadata on known/unknown records and prepare on trees; idempotence by cases; refuted for the overview count and for half-known sizes, the exact rule proved for whole trees.
- **C62 Leaf paths are faithful** — TreeModel: path contraction with copies; refuted for an empty concatenation, proved for all others.
- **C63 File slicing reads the requested window** — LazyModel: _rectify_slice_dim, index expansion, window and band lists, both GDAL paths and the plain readers over an abstract raster; proved against the positions numpy slicing selects.
- **C64 Negative slice starts follow numpy** — LazyModel: a negative start is clamped to 0; refuted, with the exact case of agreement.
- **C65 The cache dictionary is a bounded LRU** — LazyModel: CacheDict as an ordered association list; invariant over the whole history against keys ordered by last use.
- **C66 nodata masks mark exactly the nodata samples** — LazyModel: marking per sample; exactness of the float promotion by integer arithmetic on significands.
- **C67 Relative overviews compose** — LazyModel: handles as file, level, method.
- **C68 Graph text prints every reachable node exactly once** — Stack DFS with seen set over an arbitrary finite graph; termination measure and exactly-once invariant.
- **C69 Shape merging takes the component-wise maximum** — LazyModel: fold of zip_longest; refuted because zero counts as missing; proved for non-zero extents.
- **C70 Representability of a scalar is decided correctly** — Decision procedure.
- **C71 numel counts every stream** — Sum over the parsed dictionary; expected to be refuted by a repeated stream.
- **C72 The nearest-neighbour warp path succeeds for every output size** — Floor arithmetic; exact success condition.
- **C73 Overviews of images without stored overviews can be optimized** — Refuted when the number of overviews is unknown (None - int); otherwise by the normal forms of OvTotal.v without warps.
- **C74 Two-dimensional data behaves like a one-band image** — Expected to be refuted (2-d arrays reject a band index).
- **C75 Codes survive a dequantize/quantize round trip** — QuantModel.v is parametric in the arithmetic: proved with exact rationals, refuted in float32 (Coq.Floats.SpecFloat). QuantNear.v bounds the error of the round trip in IEEE arithmetic by one code.
- **C76 The integer cast of quantize_float01 is defined** — refuted in float32/int32 and float64/int64; proved through Flocq for the default range and narrower codes.
- **C77 Rational scalars are not reported representable** — refuted: int() truncates a Fraction before the range test.
- **C78 evaluate() is transparent** — C27 plus the leaf that evaluate builds.
- **C79 An empty channel request keeps the image size** — refuted for concatenations, proved for images.
- **C80 Unknown missing-channel policies are rejected** — refuted for images that have every requested channel; proved otherwise.
- **C81 The two modes of encode agree** — EncodeModel: both modes; refuted for slice or alias components (mode 0 looks up normalized codes), proved for plain names.
- **C82 Lazy reads always give three axes** — LazyModel: result carries its number of axes; refuted for one band.
- **C83 The fast read path agrees with the compatible one** — LazyModel: GetOverview(k).GetDataset() may be None; refuted then, proved otherwise.
- **C84 Overviews a file does not have are refused** — LazyModel: shape and reads with out-of-range levels; refuted for shape on files without overviews.
- **C85 An Ellipsis may stand for no axes** — LazyModel: Ellipsis expansion; refuted for four-entry indices.
- **C86 Graph text tells every edge once** — NetModel: rows carry their parent and the named other parents; invariant relating them to the rows above.
- **C87 Default sources cover the graph** — NetModel: components given by an explicit parameter with its specification (networkx is external); induction on ancestors.
- **C88 max_depth limits the drawing** — NetModel: refuted twice (vertical chains, nodes reached first by a long path); proved without vertical chains for graphs with one depth per node.
- **C89 The empty sensorchan spec is usable** — SensorModel: refuted for streams/numel/concise/split, proved for late fusion.
- **C90 The channels of a single-sensor spec** — SensorModel: the streams read from the text, then the late-fusion lemma of the channel layer.
- **C91 Transforms between concatenations are consistent** — XformModel: leaf paths of concatenations; refuted for concatenations placed differently, proved: the transform relates one common leaf.
- **C92 The returned warp is the applied transform** — XformModel: refuted with squash_nans, proved without.
- **C93 optimize does not change transforms** — From C29: two affine maps that agree on three points not on a line are equal; refuted for images without data in view and for missing-data leafs.
- **C94 Evaluating one image does not change another** — From C35 and C34 over all sessions of API calls; refuted by two warps over one dequantized overview.
- **C95 Lazy loading does not change the pixels** — LoadModel: finalize where leafs may be lazy references; simulation relation to FinalModel over in-memory leafs by induction on the tree; after optimize via C27.
- **C96 After optimize() only shown samples are read** — The model returns the windows requested from GDAL; induction over the canonical form optimize() ends in (GraphTotal), then transport of visible samples back with C29.
- **C97 Masked samples stay masked** — Refuted by a concatenation of two masked files (np.concatenate drops masks); proved without multi-part concatenations.
- **C98 Overviews of files are read, not computed** — Induction over the list of get_overview calls; optimize() joins them; C63 at the level.
- **C99 A crop gives the bands it is asked for** — ApiModel.v models crop() with its modes over the node constructors; refuted by a padded crop with chan_idxs; the default mode from the constructor lemmas.
- **C100 Resizing is exact and composes** — ApiModel.v models warp/scale/resize; point semantics of GraphSpec.v, field arithmetic.
- **C101 An overview is a downscaled image** — Ceiling division against the corner maximum of the automatic size; point semantics.
- **C102 A chain of warps becomes one warp** — Induction over the chain from the end; the fused matrix is tracked up to equality of entries.
- **C103 A padded crop shows the window around the request** — The window lemma of the embedding (C51) lifted to nodes.
- **C104 A nearest-neighbour warp shows the pixel below** — PixModel models the evaluation of nearest warps (fast path, imresize, the two candidate matrixes and their scores) over ideal samplers. Refuted with four witnesses; proved for whole factors and offsets, for transforms whose forward image has more finite pixels, for involutions, and up to inversion for images without nan.
- **C105 The matrix is inverted only for the affected libraries** — PixModel.version_tuple and matrix_mode; the digits parser is inverse to printing, then a case analysis.
- **C106 Border values are the ones asked for** — PixModel.border_values and warp_border; refuted for sequences, proved for single numbers and for the limit of four.
- **C107 Drawings can be read back** — Model parse_network_text as a stack machine on strings; invariant between the stack of frames of the drawing and the stack of the reader (entries of parents under entries indented further), string lemmas for the glyphs.
- **C108 A fused sensor spec is one stream** — Model from_spec/coerce/normalize of FusedSensorChanSpec over the grammar model; a single stream reads back from its own text (SensorCoerceProofs.v).
- **C109 concise() of a fused sensor spec abbreviates** — Concise text of a single stream is sensor:concise channels; from_spec expands it again. Refute abbreviation, prove preservation.
- **C110 Coercing channels to a sensor spec keeps them** — Show that a text whose channel codes are valid is never parsed as sensors (case analysis of the code after the colon against the slice syntax), so streams agree; witnesses where coercion is rejected or parentheses change names.
- **C111 Channel specs convert into each other without loss** — Direct computation with the cached parse of ChannelSpec; for numbers the text reads back because u0, u1, ... contain no separators.
- **C112 A coordinate crop shows the requested box** — ApiModel.v api_coordinate_crop; the view relation of GraphSpec.v.
- **C113 Squashed missing data is one pixel** — XformModel.v undo_warp; induction on the chain of operations.
- **C114 ENVI headers are read back** — EnviModel.v read_header; independent inductive description of written headers in EnviSpec.v; induction on it.
- **C115 Reading an ENVI header fails only for unclosed lists** — EnviModel.v read_header; simultaneous induction on the lines for both states of the reader.
- **C116 A header opens the data file beside it** — EnviModel.v data_path with os.path.splitext.
- **C117 `name in spec` tells whether the spec has the channel** — MemberModel.v chan_in, chan_unique, fused_in; the channels of a text come from read_streams and denotes (ChanSpec.v).
- **C118 Demo items satisfy the spec** — MemberModel.v item_shapes, demo_item; encode from EncodeModel.v; induction on the streams.
- **C119 Names and number of channels agree** — HistModel.v: a heap of shared image objects and a step function for every call; invariant over histories, preserved by induction on the heap when an object is renamed.
- **C120 New names reach the images built from an image** — HistModel.v; induction on the chain of views, structural induction for the frame.
- **C121 prepare() makes the shape known** — HistModel.v hstep HPrepare; invariant over histories that every image can be sized.
- **C122 as_xarray labels every band with its name** — HistModel.v xarray_labels.
- **C123 The test for empty files is right** — NonzeroModel.v on top of the reader of LazyModel.v; invariant of the loop over growing windows.
- **C124 nesting() describes any image** — NestModel.v nesting on the trees of TreeModel.v and the concise specs of ChanModel.v; induction on trees.
- **C125 as_graph() shows every operation and its settings** — NestModel.v as_graph; lookups of every key.
- **C126 The self check passes on what the API builds** — ValidModel.v _validate on top of optimize (GraphModel.v) and finalize (FinalModel.v); from C28, C31 and C32.
- **C127 Images without data stay without data** — NodataModel.v: a run of operations; induction on the operations.
- **C128 Selecting from a concatenation takes exactly the requested bands** — AccumModel.v: the loop with its accumulator object; invariant of the open segment, and agreement with the runs of TakeModel.v.
- **C129 A concatenation told its size keeps it** — GivenModel.v the constructor with dsize=; a crop of unequal parts rebuilds itself at every step, by induction on the fuel.
- **C130 Optimizing keeps the settings of warps** — Predicate on all warps of a tree, carried through optimize by the invariants of GraphSize.v.
- **C131 Representability in bool, floating point and complex types** — representable of QuantModel.v against the number a scalar stands for, by cases.
- **C132 An empty range is refused when quantizing** — The zero test of the extent; in IEEE arithmetic a difference of different finite floats is not zero (Flocq, gradual underflow).
- **C133 Concatenations agree on their size** — HConcat of HistModel.v after any history.
- **C134 A number given as channels is the number of channels** — HLoad, HNans and HSet of HistModel.v after any history; the coercions of SensorCoerceModel.v.
- **C135 Drawings start at the nodes with the fewest edges** — find_sources of NetModel.v: minimum and insertion sort.
- **C136 Equality of channel specs** — fused_eq of EqModel.v against the denotation of ChanSpec.v; the normal and concise forms as representatives.
- **C137 Integer band indexes into lazily opened files** — getitem of LazyModel.v with an integer is getitem with the list of bands it selects.
- **C138 A lazily opened file shows one version of its file** — HandleModel.v: objects with their cached dataset and memoized properties over histories; invariant that every memoized value is that of the cached dataset.
- **C139 What prepare saw is what finalize reads** — LoadHistModel.v: images with their lazy reference and metadata over histories, on top of HandleModel.v.
- **C140 Sizes of scaled images in floating point** — FloatSizeModel.v: _auto_dsize on IEEE doubles; Flocq gives rounding errors, monotonicity and exactness of products.
- **C141 Bands by slice, integer or list** — BandIndexModel.v: views of a leaf made by subscripts, with list, slice and integer bands; invariant: a view is a window and a list of bands of the leaf; fusing keeps the invariant.
- **C142 Missing data keeps its number of bands** — GraphModel.v (nans_crop, nans_warp), FinalModel.v: the result of optimize() on a crop, a band selection and a warp of unnamed missing data computed for all sizes; the named case from C27, C28 and C127.
- **C143 Ordered sets accept the indexes lists accept** — OsetModel.v: oset_delitem for slices, lists, integers and other objects, returning the set as an exception leaves it; deletions reduced to those of C18, refused indexes, repeated positions and out of range insertions characterised exactly; histories by induction.
- **C144 Channel selection shows the selected samples, warps included** — TakeVisProofs.v: the runs a selection is split into show the located bands and nothing else (both directions, by induction on the graph), the selection is again a graph built by the API, then the sample preservation of C29.
- **C145 A failing read is made up for** — ReadModel.v keeps every call of ReadAsArray apart (a state that counts calls and an outcome for each); ReadProofs.v: each reader gives the right array unless one of its own calls fails, and the readers make disjoint calls. Without failures the model is proved equal to LazyModel.
- **C146 Band handles looked up in advance change nothing** — ReadModel.v: equality of the two ways to name the bands for any schedule; case analysis on the level argument.
- **C147 Palettes** — ReadModel.v: palettes per level and band; equality of reads of files that differ in palettes only, and the samples of a paletted read.
- **C148 None in a list of bands** — TakeListModel.v: the list branch of take_channels with None entries; runs of a list without None are the segments of the integer selection (induction), a list with None has a run without a part.
- **C149 The default arguments of the GDAL reader** — ReadModel.v: the reader with its default arguments equals the reader with the arguments written out, call by call; then the reliability lemma of C145.
- **C150 Images of files have a band axis** — LoadModel.v: induction on the image, with the shape a read returns (getitem_ok) at the leafs.
- **C151 optimize() does not change an image cast to xarray** — XarrayModel.v over GraphModel.v and FinalModel.v: the flag of optimize says when the same object comes back; then C27, C28 and C31.
- **C152 Sensor-channel concise is idempotent** — SensorModel.v has the two grouping passes and the sorts. The pairs (channels, sensor) written by the concise text are the product of the sorted groups; grouping and sorting them again gives the same groups.
- **C153 Fused specs are sequences** — SeqModel.v builds iteration and reversed from __len__ and __getitem__ as Python does; by induction over the items.
- **C154 code_list returns the expanded code list** — Both methods are modelled on the parsed streams; streams that are written twice are parsed once.
- **C155 Channel specs behave like plain values** — AliasModel.v is a heap of lists and spec objects with the class-wide memo and the per-object memos; AliasSpec.v gives every call its value without sharing. An invariant relates the two, by induction over programs.
