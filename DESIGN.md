# Formal model of TenniS in Rocq (Coq 8.16.1): design

Source of truth: `/repo` (TenniS-Open/TenniS, pinned commit, C++11). Nothing in
`/repo` is built or run; every model definition cites the file and lines it
transcribes. Properties are in `properties.jsonl`, status in `MANIFEST.json`,
mutation testing in `seeded/LOG.jsonl`.

## Layout of `rocq/theories`

| suffix | contents |
|---|---|
| `XxxModel.v` | computable Gallina transcription of the C++ functions, with citations |
| `XxxSpec.v`  | small specification, independent of the model's helpers (when the statement needs one) |
| `XxxProofs.v` | lemmas and invariants |
| `PropsXxx.v` | the property theorems, each followed by `Print Assumptions`, and `Example`s showing that the hypotheses are met by a concrete non-trivial case; `_refuted` witnesses |

Kernels share one framework: `KernelBase.v` (tensors as dtype/shape/flat data,
stores and loads with out-of-range as an explicit outcome, traces of writes),
`KernelSpec.v` (`elt t coordinate`, row-major positions), `KernelProofs.v`,
`CoordProofs.v`, `LoopModel/LoopProofs.v` (counted loops), `ShapeModel.v`
(HypeShape). A kernel theorem says: the run succeeds, the result has the
documented shape, and `elt result c` is the documented element for every
coordinate `c`. Element values are abstract where the kernel only moves data,
exact rings or rationals where it computes; binary floating point rounding is
not modelled except for the half-float and fixed point formats (C49, C50, C85).

Conventions: `int`/`int32_t` are unbounded `Z` and lengths are `nat` unless the
property is about overflow (then `mod 2^k` is written in the model). C++
exceptions (`TS_LOG_ERROR << ... << eject`, `TS_AUTO_CHECK`) are an explicit error
outcome; undefined behaviour (out-of-range access, division by zero,
non-termination) is a *different* explicit outcome (`UB`/out of fuel). Loops
are structural recursion or fuelled recursion whose out-of-fuel value is
distinct from every normal result; theorems show enough fuel exists.
When the faithful model violates a property the theorem is named `…_refuted`
(a witness) and it is accompanied by the strongest true statement we found.

## Property by property

| id | modelled code | how it is proved |
|---|---|---|
| C01, C02 | `Compiler::compile` main loop, epilogue and reversal (compiler.cpp 95-340) on an abstract DAG; `Stack` (stack.cpp), `Stack::push/swap/erase`, `DataSegmentInstruction`, `OperatorInstruction` | backward simulation invariant: instructions emitted so far, reversed, take any stack holding the simulator's values to the output values; `working_nodes[n]` = least position of n; termination by lexicographic measure over the strict ancestor order |
| C03 | `run_const_node(s)` (compiler.cpp 345-460) with its two memo tables | structural/well-founded induction on the DAG, memo-table invariant |
| C04, C05 | `OperatorInstruction::run`, `Stack` with base stack | list lemmas; C05 refuted by witness |
| C06 | epilogue of `compile` + output-count check of `launch_online` | refuted by witness + theorem of what happens |
| C07 | `Workbench::run/launch_*` | composition of C01/C04 |
| C08, C09 | `Tensor::reshape/flatten` | products over lists |
| C10, C11 | `HypeShape`, `ShapeIterator` | mixed radix induction; iterator refinement to the index |
| C12 | `Tensor::pack/unpack/field/refield` | refinement to list of simple tensors; stale-field bug as `_refuted` |
| C13-C16 | tensor/bubble/module/header (de)serialisers on byte lists | parser/printer inverse with arbitrary suffix; malformed inputs by witness |
| C17 | `aes.cpp` key expansion, cipher, inverse cipher, with its tables | per-round inverses; S-box by finite sweep; MixColumns by GF(2) linearity |
| C18, C19 | `aes_fstream.cpp` reader/writer state machines over any block bijection | refinement to (pending bytes, emitted blocks); C19 refuted by witness |
| C20, C21 | `Vat`/`Pot` | invariant over all histories; C21 refuted by witness |
| C22 | `ts::memset` | loop invariant on filled prefix |
| C23 | `SyncBlock` | coherence invariant over histories |
| C24 | `ThreadPool`/`Thread` as a transition system, one step per critical section | inductive invariant over all schedules |
| C25, C26 | `rwmutex` as a transition system with explicit wait sets | inductive invariants |
| C27 | `split_bins`, `parallel_run` | arithmetic + partition of ranges |
| C28 | `scan.cpp` Loop interpreter | simulation with flattened list |
| C29, C30 | `module.cpp` | list/graph induction |
| C31 | translator/zipper recursion with memo | same technique as C03 |
| C32-C40 | kernels over flat arrays (list of elements), with out-of-range as error | index arithmetic with mixed radix lemmas |
| C41 | `ElementWiseReduce::reduce`, dtype table | list induction; finite sweep for the table |
| C42 | NMS loop over an abstract suppression predicate and max-priority pop | loop invariant |
| C43 | argmax kernel with its dtype dispatch | per-lane lemma; float dispatch bug `_refuted` |
| C44 | `inferer/factory.cpp` vs `base_*.cpp` shape functions | equality proofs, disagreements `_refuted` |
| C45-C48 | `box.cpp`, `argparse.cpp`, `ctxmgr_lite.h`, `otl.h` | list induction / refinement |
| C49, C50 | `ieee754_float.h`, `sink.h` bit level | bit arithmetic, finite sweep over 2^16 codes where finite; `_refuted` for the sign bugs |
| C51 | `Compiler::compile` | multiplicity invariant on emitted instructions |
| C52, C53 | constant folding memo; `offline_run`, `online_run`, `intime::run` | for C52 an invariant pairing every non-constant node met with the one standing for it, witness for lost sharing; frame lemmas |
| C54, C55 | `Workbench::run/setup/input` | state refinement; two pasts are indistinguishable once the inputs are given; witness for stale values before that |
| C56, C57 | `Tensor::slice`, `has_shape` | list arithmetic |
| C58, C59 | `Module::load` by names, `graph_walker` | graph induction |
| C60-C64 | `rwmutex` priority, `Thread::join/busy/~Thread` | transition systems, invariants; an order-preserving account of handed, executed and pending tasks; witnesses for lost wakeup and dropped task |
| C65-C67 | `aes.cpp` against FIPS-197, CBC and CTR modes | FIPS functions specified over GF(2^8); chaining by induction; key completion witness |
| C68-C70 | `Vat::malloc`, `summary`, `HardMemory` | allocator invariant |
| C71 | `Scan` trimming | list lemmas |
| C72-C74 | `edit_distance`, `map_device`, `sso::string` | DP table invariant, walk on the map, lexicographic order |
| C75 | split | as C33 |
| C76 | transpose and its special cases | permutation inverse |
| C77 | masks of strided slice | each mask is reduced to the plain slice of C36 on a reshaped tensor (axes of size one removed or inserted, the axes of the ellipsis merged); witnesses for the refuted corners |
| C78-C80 | gatherv2, gather_elements, scatter_nd | coordinate lemmas |
| C81, C82 | `Equal`, `upcast_dtype` | finite table sweep |
| C83, C84 | max, reduce_sum, reduce_mean | fold along an axis |
| C85 | half-float comparison operators | value map on the 2^16 codes |
| C86 | `Fp16TranslatorOption` in `translate_node` | kinds are kept; the casts put on the inputs by induction on the inputs; witness for outputs feeding outputs |
| C87, C88 | `math::gemm` plain and packed, `pack8_A/B`, blocked kernels with remainders | sums over an abstract commutative semiring; every store once; witnesses for tiny alpha and for double |
| C89 | `Conv2DCore`, `im2col_cpu`, operator checks | columns are the windows; packed product; kernel-packed and 1x1 paths agree |
| C90-C92 | operators gemm, inner_prod, matmul | broadcast fill plus C87/C88; reshape views |
| C93, C94 | `Pooling2DCore`, stride-two kernels, operators pooling2d and global_pooling2d | windows as filtered coordinate lists; every row of the special kernels is shown to be one cell per window; abstract order and arithmetic |
| C95 | Pooling2DV2, Conv2DV2, DepthwiseConv2DV2 (cached parameters and inner operator) | invariant over all histories of runs |
| C96 | Conv2DTranspose, col2im | scatter-add as a fold of updates; sum exchange by a permutation of the index tuples gives the adjoint law |
| C97 | DepthwiseModel (general, 3x3 stride 1, 3x3 stride 2 kernels with their row/column loops, four-lane loads and the read behind the weights) | DepthwiseSpec.depthwise, over any semiring; every kernel's stores fill the plane with the spec value (fills), planes put together by exec_grid; refutations by evaluation |
| C98 | NewShapeModel (newshape of reshape, reshape_v2, flatten, flatten2d, squeeze, unsqueeze; expand; NewShape::run over Tensor::reshape) | NewShapeSpec (stands_for, drop, increasing); soundness and completeness of reshape by splitting at the wildcard; unsqueeze/squeeze by induction over increasing axes with the part already done generalised |
| C99 | dimshuffle: ShuffleModel (dimshuffle_run, shuffle_stores) | every store characterised, `exec_once`; composition by extensionality of tensors; axis beyond the rank refuted (read before check) |
| C100 | stack: ShuffleModel (stack_run, unsqueezed) on top of concat_run (C32) | reduction to C32: tensors widened by an axis of size one; smaller ranks refuted |
| C101 | crop_to: ShuffleModel (crop_to_run returning the overwritten axis, crop_to_runs for histories) on top of pad_run (C39) | reduction to C39; absence of memory by induction on the history; refuted for negative axes |
| C102 | `WhereModel.where_run` (alignment, axis rule, byte condition, both loops) over the element-store trace; proved equal to numpy-style selection on positive shapes, refuted for conditions above a byte and for empty axes | PropsWhere |
| C103 | `WhereModel.broadcast_op_run` (shape merging, scalar/bias/general kernels, doubling block fill); proved equal to repetition for positive shapes and every element width; refuted for empty axes | PropsWhere |
| C104 | `WhereModel.range_run` with 32-bit overflow as undefined; proved up and for dividing steps down, refuted in general for the others | PropsWhere |
| C105 | conv2d_winograd: kernel, input and output transforms F(2,3) and F(6,3), padding to whole tiles, packed products, cutting, the cached kernel of the operator object (WinogradModel) | the 1-D identities by `field`, lifted to two dimensions and sums (WinogradAlgebra); every stage fills a grid with a known value (WinogradProofs); histories by induction on the runs |
| C106 | ActivationModel: the base of the activations and the loops of thirteen of them over an abstract ordered semi-ring, the functions of the C library arbitrary. | PropsActivation: the loops write every element once (`by_four_ok`, `in_turn_ok`, `in_place_ok`), the vector and scalar comparisons agree; two refutations. |
| C107 | ActivationModel `channel_op`: the checks of the bases and the three loops of add_bias, batch_scale, batch_norm, fused_batch_norm, prelu. | ActivationProofs `channel_ok` splits the position along the axis; PropsActivation instantiates it. |
| C108 | NormModel `softmax`: base_softmax's axis, both kernels (with and without subtracting the largest), over an abstract field with the exponential a parameter. | NormProofs `exec_cells` (what a program does to one cell) gives every element; PropsNorm: the field and exponential laws; instance for the real numbers. |
| C109 | NormModel `l2_norm`, `norm_image`. | Same method; rows of one element refuted. |
| C110 | has/set/get/clear/clear_params/clear_fields/field/check_params/init over maps as association lists (OperatorModel) | OperatorSpec reads the meaning off the history of actions; induction on the history shows the maps agree with it; refusals and init characterised |
| C111 | offline_create and OperatorInstruction::clone as set-all-then-init over a constructor's declarations | created parameters characterised for any duplicate-free list, hence order independence; clone by the same theorem applied to the operator's own parameters; witness for cleared defaults |
| C112 | tensor::cast with its unrolled loop and static_cast over integers, float and double (numbers as integers in units of 2^-1074), CastModel | CastSpec states conversion independently (nearest with ties to even, towards zero, modulo); rounding lemma shows the model's rounding is the nearest representable; exactness and round trips follow; witnesses for lossy pairs |
| C113 | from/to_string/to_int/to_bool with strtol, c_str, tolower | induction over the text; decimal value by Horner's rule; numeric case from C112 |
| C114 | slice, slice_v2: shape check, 32-bit saturation, element loop (SliceOpModel.v) | each output element written once from the shifted coordinate; refusal by cases on each axis; overflow witness |
| C115 | slice_v3: axes check, parameter table with masks, then the strided_slice model (SliceOpModel.v) | table lemma `v3_fill_ok` by induction on the lists, then C36's theorem; saturation shown invisible to Python's clamping; two witnesses of undefined behaviour |
| C116 | topkv2 with std::partial_sort as a parameter under its contract (TopkModel.v, TopkSpec.v) | permutation argument for each row, rows written once; values determined by a counting (pigeonhole) argument |
| C117 | resize2d's choice of axes (ResizeModel.v: find_resized_height_dim, check_outputs) | inversion of the search by induction on the shape; completeness for requests naming one pair of axes |
| C118 | nearest/hard kernels over rationals, resize_nearest_neighbor | rounding lemma (nearest integer) + clamping; floor of the exact quotient; the batch loop writes each pixel once |
| C119 | linear kernel over rationals (no rounding) | position inside [n, n+1), so the sum over all pixels with the tent kernel has the two terms the code adds, on each axis; convexity for the range; witnesses for thin images |
| C120 | cubic kernel over rationals | the four coefficients are the values of Keys' kernel; sums with four terms; partition of unity; witnesses for borders and small images |
| C121 | the filter object (graph, program, compiled flag) as a state machine: every step's node and attributes, clear, compile (may fail), run with the four-axis view (FilterModel.v); the meaning of a step written without graphs (FilterSpec.v) | invariant over all histories: the graph is the chain of added steps, its only output is the last node, a compiled flag means an up-to-date program |
| C122 | clone of that object | same invariant for the part that holds; three witnesses and the negation of the full statement for the rest |
| C123 | force_gray: every store of the kernel, the choice of the weights and all refusals (ColourModel.v); arithmetic of a pixel abstract | every pixel is visited once (exec_once), the sum of a row by induction over the weights |
| C124 | force_color; for the round trip IEEE single precision of the standard library's SpecFloat | same; the 256 values of an 8-bit type by computation inside a proof about all images; witness for 32 bits |
| C125 | prewhiten (PrewhitenModel.v) over an abstract field | equal, as a program, to norm_image with the floor built into the square root; then C109 |
| C126 | affine_sample2d: the operator's checks, the four kernels as lists of stores over all images, rationals for floats (AffineModel) | every output index is written once (grid of loops); the pixel read is the clamped rounded/cut location, the weighted sums equal interpolation with the tent / Keys kernel |
| C127 | the same with an outer value | case split on the location; refuted by the identity matrix |
| C128 | nhwc_letterbox: sizes, scale, matrix, call of affine_sample2d | scale is the largest that fits; composition with C127; refuted by a box of the image's size |
| C129 | nhwc_center_crop2d, crop_nd, limit: the paddings they compute, then the pad operator of C39 (ZooModel) | padding is looking through a window (C39); truncating division puts it in the middle; undefined accesses on the first of four axes exhibited |
| C130 | crop_nd with a shift | as C129, the window starts at the shift |
| C131 | nhwc_scale_resize2d: infer_size with int products, then resize2d | integer division bounds; composition with C117/C119; overflow and division by zero are undefined |
| C132 | divided: float(y) / stride, ceil, product as binary32 (24-digit round to even, in integers), then pad | the ceiling of the rounded quotient is the ceiling of the quotient up to 2^24; refuted above |
| C133 | ApiModel: TRY_HEAD/RETURN_OR_CATCH/TRY_TAIL, the thread's message, bodies as code that may call user functions which call the API again; APIPluginOperator's calls; head of ts_new_Tensor | `run_seq` and case analysis; refutations by evaluating the model for arbitrary bodies |
| C134 | ApiModel `tick`, `step`: one step of one thread on its own message | induction on the schedule: each thread is where it would be alone; the stepwise and the direct semantics agree by induction on the code |
| C135 | ApiModel `functions`: the table of all 110 functions with their pointer parameters and checks in order (extracted from the sources by script, read over by hand) | `find` for the first check; the table is decided by evaluation and lifted with forallb_forall |
| C136 | LogModel: LogStream, eject, TS_CHECK at any global level | the stream's buffer by induction on the parts |
| C137 | LogModel: the decoder loop of APIPluginOperator::infer, the encoder of include/api/cpp/operator.h | every round consumes at least two numbers, so as many rounds as numbers never succeed: induction on the rounds |
| C138 | LinkModel: nodes with weak input/output lists, Link with its unlink loop, ReplaceOutput, Graph::make, destruction, exceptions leaving partial effects | invariant (multiplicities agree among live nodes) preserved by every action, induction over histories; witness for divergence |
| C139 | LinkModel.replace_output | induction over the outputs with the invariant split between done and to do; witness for self-replacement |
| C140 | RegistryModel: std::map as entries with different keys, register/query/clear/copy/flush, nested converter map | specification reads the history backwards (inductive relation); induction over histories with the list of saved copies |
| C141 | RegistryModel.talent_query/create; an exception out of a noexcept function is termination | case analysis against an inductive `source`; general theorem for the failing case |
| C142 | HardModel: blocks of the system heap, CPU allocator and malloc/free pair allocator, several HardMemory objects with resize/expect/shrink/dispose/move/swap/destroy and stores | simulation of a store of byte rows (HardSpec.effect) under an ownership invariant; witness for dispose |
| C143 | as C142 | ownership invariant (each live block has one owner); witnesses for the refused resize and the move |
| C144 | prior_box: `init` (ratios, counts, variances kept across calls), `run` as a counter over all stores, the clip pass and the variance row; abstract arithmetic | the stored list is the map over the nested loops of the specified coordinate; a counter over a list fills consecutive memory; an integer argument about binary32 for flipped ratios |
| C145 | QuantizeModel: the vector loop, its remainder and the loop over the scales as lists of stores; floats as rationals, the product arbitrary; `cvtps` with INT_MIN, `int32_t(round())` undefined out of range | every store is the rounded product of its own index; rounding against QuantizeSpec's nearest integers; float loop count by the lemmas of C131 |
| C146 | PatchModel: patch sizes, corners and the five loops of shape_index_patch, unchecked indices; rational arithmetic | stores cover the coordinates of the output (`exec_coords`); rounding by floor/ceiling bounds; witnesses for the corner and for missing positions |
| C147 | ConstantModel: bytes, the doubling loop with fuel, overlap and out-of-bounds copies undefined; constant_of_shape on bytes | invariant: the bytes before the anchor repeat the pattern and the anchor is a multiple of it; fuel bounded by the size; non-termination for every fuel |
| C148 | PaddingModel: one function per axis and padding method, init's checks, the two layouts of the eight numbers, unchecked reads; ceilings and floors exact | output sizes against `conv_size` and `pool_size` of C41 and C42's models; counting of windows in PaddingSpec; witnesses |
| C149 | SmartModel: smart.h as a heap of counters and a list of pointer variables; every operation total, freed counters a distinct outcome (`Undef`); a second small model interleaves the load and store of `use_count` of two threads | invariant over histories: count = number of owners, freed iff none, deletions = 1 iff freed; three counterexamples (weak pointer, explicit dispose, threads) |
| C150 | ProgramModel: program.cpp and OperatorInstruction::clone over a heap of operators (those of OperatorModel) and programs, with the locks held during a clone; the head of run_hook | invariant over histories: operators of different programs are disjoint, every operator comes from its constructor by set; a clone is alike down to any depth of filters; termination by counting locks; three counterexamples |
| C151 | the yolo operator: checks, flat index of an entry (division by the area), in-place activation of two ranges per anchor | activated positions are distinct and are exactly the coordinates of the squashed channels; two refutations |
| C152 | yolo_poster: reading boxes and scores by flat index, clamping, per-class sort (parameter) and suppression loop, rows; infer | loads are elements by coordinate; invariants of the suppression loop over a sorted list give the greedy specification; exact rational arithmetic; three refutations |
| C153 | inferer.cpp: recursion with a cache, VOID propagation, values set by rules or by running the operator, attributes | invariant over the depth-first traversal against the equations every node satisfies; existence and uniqueness of their solution; stale value refuted |
| C154 | `RefCache`, the two queues, `explore` and the loop of `split` (src/compiler/fence/splitter.cpp) over node numbers with links both ways; building the modules of the groups and `single_input` left out | invariants of the search: no node of the bottom edge is above a member, no node of the top edge below one, edges of members settled or queued, and a phase invariant (popped in this phase, or links the other way settled); potential for termination; witnesses for what fails |
| C155 | `LSTM::run` and `lstm_compute` (src/kernels/cpu/lstm.cpp) over the operand stack (src/runtime/stack.cpp): slices, the eight kernels of a step, the references kept across them, erasures, concat and the packed answer; numbers, sums, products and activations are parameters | a loop invariant relating the stack slots to the states of the recurrence in LstmSpec; induction on the sequence; witnesses for reverse, strict deque rules and the empty sequence |
| C156 | DeviceContext (src/core/device_context.cpp, include/core/device_context.h) as a table of contexts, the bound context, fresh handles and the log of calls the admins see; admins that throw and other threads left out | invariant over what each context holds, preserved by every careful call; log judged by `proper` in DeviceCtxSpec; witnesses for careless histories |
| C157 | RuntimeContext (src/runtime/runtime.cpp) with pools, controllers and the process-wide BLAS count, and the lines of Workbench that set up and clone it | invariant `sound` preserved by every call; general theorems about clone; general and concrete refutations |
| C158 | `DetectModel.v`: detection_output.cpp `run` and the bbox_util functions it calls (location, confidence and prior tables, decoding, stable sort, ApplyNMSFast with eta, keep_top_k, rows) over exact rationals, std::sort and exp parameters | `DetectSpec.v` states overlap, decoding, greedy suppression and the reported set; `PropsDetect.v` proves run answers exactly these; three refuted theorems with witnesses |
| C159 | `ProposalModel.v`: proposal_op.cpp and bbox_utils (anchors, transform, clip, the recursive partial quicksort on an array with explicit bounds, greedy NMS with flags, level distribution); exact rationals, exp, sqrt and the level function parameters | `ProposalSpec.v` states anchors, candidates, overlap and greedy choice; `ProposalSortProofs.v` proves the sort ends in bounds with the best first; `PropsProposal.v` proves the whole answer; refuted theorem for images after the first |
| C160 | the same file: GenerateGridAnchors, GenerateProposals_v2 and the many-strides branch | the grid is the enumeration `places` of the specification; refuted theorems for the second scale and the buffer overrun |
| C161 | `RoiAlignModel.v`: roi_align_op_kernel.cpp as a trace of stores (memset for negative images, nested bins, samples summed in order), roi_align_op.cpp, infer; exact rationals | `RoiAlignSpec.v` states a sample as tent interpolation at the held place and a bin as a mean; `PropsRoiAlign.v` proves every element; three refuted theorems |
| C162 | `DcnModel.v`: init/infer/run, im2col as a trace of stores (offsets, mask, bilinear sample), the two batched matrix products of `GemmModel.v` with their adjusted leading dimensions; rationals in lowest terms | `DcnSpec.v` states a tap as tent interpolation (zero outside) times the mask; `PropsDcn.v` proves the convolution sum for every element via the C87 product; six refuted theorems |
| C163 | conv2d_quantized: init, im2col, integer product, dequantising loop with its order of channels | composition of im2col_ok and row_major_ok on integers; bound by induction; witnesses for overflow and threads |
| C164 | Conv2dZipperOption::zip with winograd_check over a node's attributes, the node's operator before (C32's conv2d) and after (C105's Winograd state machine) | the exact condition of replacement by case analysis; equality of answers by C105_same_as_conv2d; witnesses over the rationals for packed weights and for a stride over images |
| C165 | MT19937 (table, index, srand, rand) with ints that wrap or whose overflow is undefined, and Random's next, next(min,max), u, binomial over an abstract rounding to double | invariant (table of 624 ints, index inside) over histories of calls; sign and size of exclusive ors and shifts; case analysis of the first three words for the overflow; witnesses, and a reference Mersenne twister |
| C166 | the gemm case of PackTranslatorOption::translate: transposition of constants in place, which of inner_prod, mul, add are made; run with the models of inner_prod (C91) and of mul and add (C41), compared with gemm (C90) | composition of C90, C91's inner_matrix and C41 on all elements; witnesses on integers |
| C167 | the batch_norm part of Fp16TranslatorOption::translate on the chain of nodes the variance comes from; batch_norm of C107 | induction on the chain of casts, extensionality of the channel operators; witnesses on integers |
| C168 | sample2d_v2: sizes from factors with a rounding function as a parameter, then resize2d of C117-C120; infer | any accepted request equals the one naming only its two axes, then C117/C118; witnesses with binary32 rounding |
| C169 | sample2d: size and matrix from one factor, then affine_sample2d of C126/C127; infer | C127 on the scaling matrix, positions by floor; the factor 1 as a theorem for all pictures |
| C170 | symbol.cpp and desc.cpp: each call as the node it appends; running a graph under an arbitrary meaning of operators; the fields operators declare | case analysis against the promised operator; witness with the concat and gather kernels |
| C171 | the three string streams with the flags and places of std::stringstream | invariants by induction on the history against a queue; the dead state is absorbing |
| C172 | Profiler, Board, Statistics, the labels of operators; snprintf for formats with %04d and %% | induction on the history against a list of (label, duration); numbers back from their digits; witnesses for clear, clean and percent signs |
| C173 | cpuid bits, the choice of a library, Switcher, what CMake compiles each library for | masks as bits; induction on the number of workbenches; witnesses for AVX without AVX2 and for a refusal |

## Trusted base

* Coq 8.16.1 kernel (and `vm_compute`, used for finite sweeps and witnesses).
* `Print Assumptions` follows every property theorem in the `PropsXxx.v` files;
  all but one print "Closed under the global context": no axiom, neither of
  ours nor of the standard library, is used. The exception is
  `C108_softmax_reals_partial` (with the examples beside it), the instance of
  C108 at the real numbers of the standard library, which rests on their axioms
  `ClassicalDedekindReals.sig_not_dec`, `ClassicalDedekindReals.sig_forall_dec`
  and `FunctionalExtensionality.functional_extensionality_dep`. (`vcheck` also lists
  `Classical_Prop.classic`, the opaque symbols of `Coq.Reals.Rdefinitions` and the
  axioms of `Coq.ssr.ssrunder` because these libraries are loaded; no theorem
  depends on them beyond what `Print Assumptions` shows.)
* The transcription C++ -> Gallina, which is by hand; each definition cites
  the lines it models and states its simplifications.
* No functors, module types, axioms, section-less variables, admitted proofs.

## What is modelled

* compiler: `src/compiler/compiler.cpp`, `translater.cpp`, `zipper.cpp`,
  `argparse.cpp`, `option/pack_translator_option.cpp` (without gemm),
  `option/fp16_translator_option.cpp` (without batch_norm)
* runtime: `stack.cpp`, `instruction/*`, `workbench.cpp` (run, setup, input,
  launch, offline/online run), `operator.cpp` frames, `inferer/factory.cpp`
  (the inferers listed in InferModel.v), `frontend/intime.cpp` (run)
* core: `tensor.cpp` (shape, pack, slice, serialisation), `tensor_iterator.h`,
  `ieee754_float.h`, `sink.h`, `memory.cpp` (memset, sync), `sync_block.h`,
  `hard_memory.cpp`
* memory: `vat.cpp`, `pot.cpp`, `flow.cpp`
* module: `bubble.cpp`, `module.cpp` (load, save, walk, sort), `header.cpp`
* utilities: `thread_pool.cpp`, `mutex.h`, `box.cpp`, `ctxmgr_lite.h`, `otl.h`,
  `scan.cpp`, AES and its stream
* CPU kernels: concat, chunk, split, transpose, strided_slice, tile, gather,
  gatherv2, gather_elements, scatter_nd, pad, space/batch, element-wise
  reduce, equal, NMS, argmax, max, reduce_sum, reduce_mean

## What is not modelled

GPU/CUDA/XNNPACK/rknn/dragon back ends, OpenMP scheduling inside kernels,
binary32/64 rounding, SIMD wrappers, JIT-free math kernels not listed above
(convolution, winograd, pooling, lstm, resize, ...), the C API layer, logging,
real operating system threads below mutex/condition variable semantics, real
memory layout of C++ objects, the C++ memory model (critical sections are
atomic steps).
