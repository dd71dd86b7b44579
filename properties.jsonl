{"id": "C01", "title": "Compiled program computes the graph", "statement": "For every acyclic graph whose leaves are parameters and constants, if Compiler::compile succeeds for distinct inputs, then executing the produced instruction list on a frame holding the input tensors (in input order) ends with exactly the tensors denoted by the output nodes, in output order, and nothing else in the frame.", "quantifier": "all finite DAGs (any sharing, duplicated outputs, unused inputs), all operator semantics, all input tensors, all caller stacks", "why_tests_cant": "the compiler runs a backward stack simulation whose correctness depends on every sharing pattern; tests cover a handful of networks", "anchors": ["src/compiler/compiler.cpp:Compiler::compile", "src/runtime/stack.cpp:Stack", "src/runtime/instruction.cpp:OperatorInstruction::run", "src/runtime/instruction/stack_instruction.cpp"]}
{"id": "C02", "title": "Compilation terminates on every acyclic graph", "statement": "Compiler::compile's main loop reaches the state with no unsolved node after finitely many iterations for every acyclic graph; it never cycles through swaps.", "quantifier": "all finite DAGs and output lists", "why_tests_cant": "non-termination of the swap loop only shows on adversarial sharing patterns", "anchors": ["src/compiler/compiler.cpp:Compiler::compile", "src/compiler/compiler.cpp:build_node_refs"]}
{"id": "C03", "title": "Constant folding preserves the meaning of the graph", "statement": "Replacing every node that depends on constants only by the tensor obtained by running it (run_const_nodes) leaves the value of every output unchanged for all parameter values, and every folded node no longer depends on any operator.", "quantifier": "all DAGs, all parameter assignments, all deterministic operator semantics", "why_tests_cant": "folding is memoised over shared subgraphs; agreement must hold for all parameter values", "anchors": ["src/compiler/compiler.cpp:run_const_node", "src/compiler/compiler.cpp:run_const_nodes"]}
{"id": "C04", "title": "Operators only see and replace their own arguments", "statement": "Running an operator instruction with n>=1 inputs and m>=1 results on any stack replaces exactly the top n values of the frame by the m returned values, leaves everything below untouched, and restores the caller's frame base.", "quantifier": "all stacks, all frame bases, all operators, all n,m >= 1", "why_tests_cant": "requires all stack depths and nested frames", "anchors": ["src/runtime/instruction.cpp:OperatorInstruction::run", "src/runtime/stack.cpp:Stack::erase", "src/runtime/stack.cpp:Stack::push_base", "src/runtime/stack.cpp:Stack::pop_base"]}
{"id": "C05", "title": "Operators of arity zero (or with zero results) keep the caller's values", "statement": "Running an operator instruction with 0 inputs pushes its results and keeps every value already in the caller's frame.", "quantifier": "all stacks and operators with nargs = 0", "why_tests_cant": "depends on the interplay of relative index 0 and frame base for every stack", "anchors": ["src/runtime/instruction.cpp:OperatorInstruction::run", "src/runtime/stack.cpp:Stack::push_base"]}
{"id": "C06", "title": "A program whose outputs are all constants can be run", "statement": "If a module has inputs but no output depends on them, running the compiled program returns exactly the constant outputs.", "quantifier": "all graphs whose outputs use no parameter, all input tensors", "why_tests_cant": "a corner of the compiler's epilogue that only triggers with an empty simulated stack", "anchors": ["src/compiler/compiler.cpp:Compiler::compile", "src/runtime/workbench.cpp:Workbench::launch_online"]}
{"id": "C07", "title": "Workbench runs are repeatable and isolated", "statement": "Workbench::run on a set-up program with every input bound reports exactly one tensor per program output, computed from the bound inputs only; a second run with the same inputs gives the same outputs; nested launches (run_hook / offline launches) leave the caller's stack as it was plus the results.", "quantifier": "all programs, inputs, and call histories", "why_tests_cant": "statement ranges over all histories of bind/run calls", "anchors": ["src/runtime/workbench.cpp:Workbench::run", "src/runtime/workbench.cpp:Workbench::launch_online", "src/runtime/workbench.cpp:Workbench::launch_offline"]}
{"id": "C08", "title": "Reshape keeps the elements and honours the wildcard", "statement": "Tensor::reshape succeeds only if the requested shape has the same element count (with at most one negative entry replaced by the unique size that makes it so), returns the same data in the same order, and reports an error in all other cases.", "quantifier": "all tensors with positive sizes, all requested shapes", "why_tests_cant": "arithmetic over all shapes", "anchors": ["src/core/tensor.cpp:Tensor::reshape"]}
{"id": "C09", "title": "Flatten keeps the elements", "statement": "Tensor::flatten(dim) yields dim+1 sizes, keeps the first dim sizes (padding with ones), and preserves the number of elements, for every shape and dim.", "quantifier": "all shapes, all dims >= 0", "why_tests_cant": "arithmetic over all shapes", "anchors": ["src/core/tensor.cpp:Tensor::flatten"]}
{"id": "C10", "title": "Row-major indexing is a bijection", "statement": "HypeShape::to_index and to_coordinate are mutually inverse between in-range coordinates and [0, count), for every shape of positive sizes; a coordinate with missing leading entries addresses index 0 of the missing axes.", "quantifier": "all shapes, coordinates and indices", "why_tests_cant": "must hold for every shape and index", "anchors": ["include/core/tensor_iterator.h:HypeShape"]}
{"id": "C11", "title": "ShapeIterator visits every coordinate exactly once in row-major order", "statement": "Starting from zero, the k-th increment of ShapeIterator yields the coordinate of index k; after count increments it is back at zero; decrement undoes increment.", "quantifier": "all shapes, any number of steps", "why_tests_cant": "unbounded number of steps and shapes", "anchors": ["include/core/tensor_iterator.h:ShapeIterator"]}
{"id": "C12", "title": "Packed tensors give back the tensors that were packed", "statement": "After Tensor::pack(ts) with non-empty ts of simple tensors, fields_count is |ts| and field(i) (also with negative i) is ts[i]; repacking, refield and field-assignment follow list semantics.", "quantifier": "all lists of tensors, all indices, all histories of pack/refield/field-set calls", "why_tests_cant": "history-dependent state (stale fields)", "anchors": ["src/core/tensor.cpp:Tensor::pack", "src/core/tensor.cpp:Tensor::field", "src/core/tensor.cpp:Tensor::refield", "src/core/tensor.cpp:Tensor::unpack"]}
{"id": "C13", "title": "Tensor serialisation round-trips", "statement": "Writing any (packed or plain) tensor to a stream and reading it back yields an equal tensor and consumes exactly the written bytes, whatever follows in the stream.", "quantifier": "all tensors (dtype, shape, data, any number of fields), any trailing bytes", "why_tests_cant": "must hold for all shapes/dtypes/contents", "anchors": ["src/core/tensor.cpp:Tensor::serialize", "src/core/tensor.cpp:Tensor::externalize"]}
{"id": "C14", "title": "Bubble (node attribute) serialisation round-trips", "statement": "Serialising a node's attributes and reading them back yields the same op, name, output count, shape and parameters, consuming exactly the written bytes.", "quantifier": "all bubbles with any number of parameters, any trailing bytes", "why_tests_cant": "all parameter maps", "anchors": ["src/module/bubble.cpp:Bubble::serialize", "src/module/bubble.cpp:Bubble::externalize"]}
{"id": "C15", "title": "Module save/load round-trips", "statement": "Saving a module to a stream and loading it back yields an isomorphic graph: same nodes with the same attributes, the same edges in the same order, the same inputs and outputs, hence computing the same function.", "quantifier": "all modules (finite graphs with shared nodes)", "why_tests_cant": "graph isomorphism over all graphs", "anchors": ["src/module/module.cpp:Module::Save", "src/module/module.cpp:Module::Load", "src/module/header.cpp:Header"]}
{"id": "C16", "title": "Loading rejects malformed files", "statement": "Loading a file that is truncated or whose node references are out of range reports an error and never yields a module or reads outside the node table.", "quantifier": "all byte strings", "why_tests_cant": "all malformed inputs", "anchors": ["src/module/module.cpp:Module::Load", "src/core/tensor.cpp:Tensor::externalize"]}
{"id": "C17", "title": "AES block decryption inverts encryption", "statement": "For every key of any length and every 16-byte block, AES_ECB_decrypt(AES_ECB_encrypt(b)) = b and vice versa.", "quantifier": "all keys, all 2^128 blocks", "why_tests_cant": "astronomically many inputs", "anchors": ["src/encryption/aes.cpp:Cipher", "src/encryption/aes.cpp:InvCipher", "src/encryption/aes.cpp:KeyExpansion", "src/encryption/aes.cpp:AES_init_ctx"]}
{"id": "C18", "title": "Encrypted stream round-trips under any chunking", "statement": "A file written through the AES stream writer with any sequence of write sizes and closed, then read through the reader with the same key with any sequence of read sizes, delivers exactly the written bytes in order, then end of file.", "quantifier": "all byte sequences, all keys, all ways to chunk writes and reads", "why_tests_cant": "chunking interacts with 16-byte buffering at every boundary", "anchors": ["src/encryption/aes_fstream.cpp"]}
{"id": "C19", "title": "Corrupt encrypted files are never over-read", "statement": "Reading an encrypted file with a wrong key or corrupt padding reports an error or delivers some bytes but never reads outside the block buffer.", "quantifier": "all byte strings as file content, all keys", "why_tests_cant": "all malformed inputs", "anchors": ["src/encryption/aes_fstream.cpp"]}
{"id": "C20", "title": "Pooled allocator never hands out overlapping live blocks", "statement": "For any history of malloc/free calls on a Vat, live blocks are pairwise distinct, each has at least the requested capacity, and every freed block is either recycled or released exactly once; dispose releases everything.", "quantifier": "all finite histories of malloc(size)/free(ptr)/deprecated/dispose", "why_tests_cant": "history-dependent invariant", "anchors": ["src/memory/orz/vat.cpp:Vat", "src/memory/orz/pot.cpp:Pot"]}
{"id": "C21", "title": "Pooled allocator keeps its idle list ordered", "statement": "After any history, the idle list is ordered by capacity so that binary search finds the smallest sufficient block.", "quantifier": "all histories", "why_tests_cant": "order breaks only for specific free sequences", "anchors": ["src/memory/orz/vat.cpp:Vat::free", "src/memory/orz/vat.cpp:binary_find"]}
{"id": "C22", "title": "Pattern memset fills the whole destination with repetitions", "statement": "ts::memset with a pattern of n>0 bytes fills dst[i] with pattern[i mod n] for every i below the destination size, and touches nothing else; it terminates.", "quantifier": "all sizes, patterns, memories", "why_tests_cant": "doubling copy over all sizes", "anchors": ["src/core/memory.cpp:memset"]}
{"id": "C23", "title": "Cross-device memory views are coherent", "statement": "For any interleaving of sync/view/broadcast calls on a synchronised memory, a view obtained on a device holds the latest broadcast value; only one conversion per device happens until the next broadcast.", "quantifier": "all histories of operations over any set of devices", "why_tests_cant": "history-dependent cache invariant", "anchors": ["include/core/sync/sync_block.h:SyncBlock", "include/core/sync/sync_memory.h"]}
{"id": "C24", "title": "Thread pool runs every task exactly once and join waits for all", "statement": "For every interleaving of submitters and workers, each task handed to the pool is executed exactly once, and join returns only when all tasks handed out before have finished.", "quantifier": "all schedules, any number of threads and tasks", "why_tests_cant": "all interleavings", "anchors": ["src/runtime/inside/thread_pool.cpp:ThreadPool", "src/runtime/inside/thread_pool.cpp:Thread"]}
{"id": "C25", "title": "Readers/writer lock excludes", "statement": "Under every interleaving of lock_read/release_read/lock_write/release_write, a writer holds the lock alone and readers never overlap a writer.", "quantifier": "all schedules, any number of threads", "why_tests_cant": "all interleavings", "anchors": ["include/utils/mutex.h:rwmutex"]}
{"id": "C26", "title": "Readers/writer lock never loses a wakeup", "statement": "Under every interleaving, whenever nobody holds the lock and some thread waits for it, at least one waiting thread can proceed (its wait condition is true and it has been notified or has not blocked).", "quantifier": "all schedules, any number of threads", "why_tests_cant": "all interleavings", "anchors": ["include/utils/mutex.h:rwmutex"]}
{"id": "C27", "title": "Parallel loops execute every index exactly once", "statement": "split_bins partitions [first, second) into at most `bins` non-empty, consecutive, nearly equal ranges, so that parallel_run executes every index exactly once whatever the number of threads.", "quantifier": "all ranges and bin counts", "why_tests_cant": "arithmetic over all ranges", "anchors": ["src/utils/box.cpp:split_bins", "src/utils/box.cpp:lsplit_bins", "include/runtime/inside/parallel.h"]}
{"id": "C28", "title": "Scan loops unroll to the flat step sequence", "statement": "Driving a Loop over any nested Iteration yields exactly the flattened sequence of steps the nesting denotes, then stops; rewinding restarts it; a clone denotes the same sequence.", "quantifier": "all iteration trees", "why_tests_cant": "all nestings and repeat counts", "anchors": ["include/core/scan.h", "src/core/scan.cpp"]}
{"id": "C29", "title": "sort_inputs covers every parameter or reports an error", "statement": "Module::sort_inputs(nodes|names) succeeds only if every parameter of the module is covered, and then the module's inputs are exactly those requested, in that order; otherwise the module is unchanged.", "quantifier": "all modules and request lists", "why_tests_cant": "all lists", "anchors": ["src/module/module.cpp:Module::sort_inputs"]}
{"id": "C30", "title": "Reference listing is a topological order", "statement": "list_reference_nodes / graph walk orders every node after (before) all nodes it depends on, lists each reachable node once, and lists only reachable nodes.", "quantifier": "all DAGs", "why_tests_cant": "all graphs", "anchors": ["src/module/module.cpp:list_reference_nodes", "src/module/module.cpp:graph_walker"]}
{"id": "C31", "title": "Translation with no applicable rule is the identity", "statement": "Translator/Zipper with no applicable option return a graph denoting the same function with the same parameters, with sharing preserved; with semantics-preserving options the function is preserved.", "quantifier": "all DAGs, all option sets whose local rewriting preserves meaning", "why_tests_cant": "all graphs and rule orders", "anchors": ["src/compiler/translater.cpp", "src/compiler/zipper.cpp"]}
{"id": "C32", "title": "Concat places every input element at its documented position", "statement": "The concat kernel's output at coordinate (..., k, ...) on the concat axis is the element of the unique input that covers k, for all ranks, axes and numbers of inputs; every output element is written exactly once.", "quantifier": "all shapes, axes, input counts, element values", "why_tests_cant": "index arithmetic over all shapes", "anchors": ["src/kernels/cpu/concat.cpp:cpu_concat_run", "src/backend/base/base_concat.cpp:Concat::infer"]}
{"id": "C33", "title": "Chunk then concat is the identity", "statement": "Splitting a tensor into n chunks along an axis and concatenating the chunks along the same axis gives back the tensor.", "quantifier": "all shapes, axes and chunk counts accepted by chunk", "why_tests_cant": "index arithmetic over all shapes", "anchors": ["src/kernels/cpu/chunk.cpp:cpu_chunk_run", "src/backend/base/base_chunk.cpp", "src/kernels/cpu/concat.cpp"]}
{"id": "C34", "title": "Transpose moves every element to the permuted coordinate", "statement": "Transpose accepts exactly the permutations, its result satisfies out[c_{p0},...,c_{pn}] = x[c] for every coordinate, including the specialised NHWC/NCHW 3-channel paths.", "quantifier": "all shapes, permutations, data", "why_tests_cant": "index arithmetic over all shapes", "anchors": ["src/kernels/cpu/transpose.cpp", "src/backend/base/base_transpose.cpp"]}
{"id": "C35", "title": "Transpose without a permutation swaps the last two axes", "statement": "When no permute attribute is given, transpose swaps the last two axes.", "quantifier": "all tensors of rank >= 2", "why_tests_cant": "claimed default behaviour for all shapes", "anchors": ["src/backend/base/base_transpose.cpp:Transpose::get_permute"]}
{"id": "C36", "title": "Strided slice follows the Python/TensorFlow slice semantics", "statement": "For one axis of size n, the computed begin/end/stride produce exactly the index sequence of Python's slice(begin, end, stride), for every begin, end and non-zero stride, with and without masks; all produced indices are inside [0, n).", "quantifier": "all sizes n >= 1, all begin/end/stride integers, all masks", "why_tests_cant": "all integers", "anchors": ["src/backend/base/base_strided_slice.cpp:infer_output", "src/kernels/cpu/strided_slice.cpp"]}
{"id": "C37", "title": "Tile repeats the tensor", "statement": "The tile kernel's output at coordinate c is x at coordinate c mod shape; all output elements are written.", "quantifier": "all shapes and repeats", "why_tests_cant": "index arithmetic", "anchors": ["src/kernels/cpu/tile.cpp", "src/backend/base/base_tile.cpp"]}
{"id": "C38", "title": "Gather picks the indexed slices", "statement": "gather's output at (pre, i, post) is x at (pre, indices[i], post) for in-range indices, with negative indices counting from the end of the gathered axis.", "quantifier": "all shapes, axes (also negative), indices", "why_tests_cant": "index arithmetic", "anchors": ["src/kernels/cpu/gather.cpp", "src/backend/base/base_gather.cpp"]}
{"id": "C39", "title": "Pad surrounds or crops the tensor", "statement": "Padding the axes of a tensor yields a tensor whose sides are the input's plus both paddings, showing the input shifted by the leading paddings and the padding value elsewhere, for positive and negative (cropping) paddings, writing every output element and nothing outside.", "quantifier": "all shapes, paddings", "why_tests_cant": "many sign combinations", "anchors": ["src/kernels/cpu/pad_cpu.cpp", "src/kernels/cpu/pad2d_algorithm.cpp", "src/backend/base/base_pad.cpp"]}
{"id": "C40", "title": "Batch-to-space inverts space-to-batch", "statement": "batchtospace4d with crop = padding applied to the result of spacetobatch4d gives back the input.", "quantifier": "all shapes with at least one image, all blocks, all non-negative paddings the block divides evenly (negative paddings are accepted by the code and leave the buffers: see the note)", "why_tests_cant": "index arithmetic", "anchors": ["src/kernels/cpu/spacetobatch4d.cpp", "src/kernels/cpu/batchtospace4d.cpp"]}
{"id": "C41", "title": "Element-wise broadcasting is numpy broadcasting", "statement": "The inferred output shape of element-wise operators is the numpy broadcast of the operand shapes, fails exactly when numpy does, is symmetric, and each output element combines the broadcast operand elements; type promotion is symmetric.", "quantifier": "all pairs of shapes of positive sizes; all dtype pairs", "why_tests_cant": "all shapes", "anchors": ["src/backend/base/element_wise_reduce.cpp", "include/kernels/cpu"]}
{"id": "C42", "title": "NMS selects a greedy maximal non-suppressed set", "statement": "non_max_suppression_v3 returns at most max_output distinct box indices with score above the threshold, in non-increasing score order, no two of which suppress each other, and every rejected candidate considered is suppressed by an earlier selected one.", "quantifier": "all boxes, scores, thresholds, suppression predicates", "why_tests_cant": "all inputs", "anchors": ["src/kernels/cpu/non_max_suppression_v3.cpp"]}
{"id": "C43", "title": "ArgMax returns the position of the maximum", "statement": "argmax along an axis returns the smallest index at which the maximum is attained, for every element type.", "quantifier": "all shapes, axes, data", "why_tests_cant": "all data and dtypes", "anchors": ["src/kernels/cpu/argmax.cpp", "src/backend/base/base_argmax.cpp"]}
{"id": "C44", "title": "Static shape inference agrees with run time", "statement": "Whenever the shape inferer yields a type and shape for a node from types and shapes that describe its inputs (a negative size stands for an unknown one), executing the operator yields that type, that rank and every size that was given as known.", "quantifier": "all shapes and attribute values for the modelled operators", "why_tests_cant": "two independently written functions must agree on all inputs", "anchors": ["src/runtime/inferer/factory.cpp", "src/backend/base"]}
{"id": "C45", "title": "String split and join are inverse", "statement": "Join(Split(s, sep), sep) = s and Split(Join(xs, sep), sep) = xs for every separator character and list of separator-free strings.", "quantifier": "all strings and lists", "why_tests_cant": "all strings", "anchors": ["src/utils/box.cpp:Split", "src/utils/box.cpp:Join"]}
{"id": "C46", "title": "Option parsing: last flag wins, defaults otherwise", "statement": "For any sequence of command flags, the parsed value of an option is that of its last occurrence, or its default when it does not occur; unrelated flags do not influence it.", "quantifier": "all flag sequences", "why_tests_cant": "all sequences", "anchors": ["src/compiler/argparse.cpp:ArgParser"]}
{"id": "C47", "title": "Context binding is properly nested", "statement": "For any well-nested sequence of context bindings on a thread, reading the context gives the innermost binding and leaving a scope restores the previous one.", "quantifier": "all nestings", "why_tests_cant": "all nestings", "anchors": ["include/utils/ctxmgr_lite.h"]}
{"id": "C48", "title": "Fixed capacity vectors behave like lists within their capacity", "statement": "For every sequence of operations that keeps the size within the capacity, otl::vector behaves like a list; exceeding the capacity is reported as an error, never silently writing outside the buffer.", "quantifier": "all operation sequences", "why_tests_cant": "boundary at capacity", "anchors": ["include/utils/otl.h:vector"]}
{"id": "C49", "title": "Half precision conversion round-trips", "statement": "Converting any finite half-precision value to single precision and back is the identity, and conversion from single to half is monotone and never produces NaN codes for finite inputs.", "quantifier": "all float16 and float32 bit patterns", "why_tests_cant": "2^32 inputs, with rounding and subnormals", "anchors": ["include/core/ieee754_float.h"]}
{"id": "C50", "title": "Fixed point numbers order and multiply like the reals they denote", "statement": "Comparison and arithmetic on fixed point (sink) values agree with the denoted rationals up to truncation.", "quantifier": "all raw values", "why_tests_cant": "all pairs of raw values", "anchors": ["include/core/sink.h"]}
{"id": "C51", "title": "Each operator runs exactly once per run, after its operands", "statement": "The program Compiler::compile produces contains exactly one computing instruction per operator node the outputs depend on (however often the node is shared), none for nodes they do not depend on, and each comes after those of its operands.", "quantifier": "all acyclic graphs, inputs and outputs for which compilation succeeds", "why_tests_cant": "sharing patterns are unbounded; duplicated evaluation is invisible to value tests", "anchors": ["src/compiler/compiler.cpp:Compiler::compile"]}
{"id": "C52", "title": "Folding keeps nodes shared", "statement": "An operator node evaluated once by the unfolded program is evaluated once by the program Compiler::compile produces after constant folding, however often it is shared or asked for as an output.", "quantifier": "all acyclic graphs and output lists (with repetitions)", "why_tests_cant": "depends on memo table states reached by particular output lists", "anchors": ["src/compiler/compiler.cpp:run_const_node", "src/compiler/compiler.cpp:Compiler::run_const_nodes"]}
{"id": "C53", "title": "Running one operator does not disturb or read the caller's stack", "statement": "Running a single operator through the workbench (online_run, offline_run, intime::run) gives it exactly the tensors passed and leaves the values already on the stack as they were, also when the operator fails.", "quantifier": "all operators, inputs and stacks", "why_tests_cant": "all stack contents and failure points", "anchors": ["src/runtime/workbench.cpp:Workbench::online_run", "src/runtime/workbench.cpp:Workbench::offline_run", "src/frontend/intime.cpp:run", "src/runtime/operator.cpp:RunOperator"]}
{"id": "C54", "title": "A run depends only on the current program and inputs", "statement": "After any history of setup, input, run and output calls on a workbench, including runs that failed, run() stores exactly the outputs of the current program on the current inputs, or reports an error and changes nothing; the internal stack is as at the start.", "quantifier": "all call histories", "why_tests_cant": "histories of calls, failing runs included, are unbounded", "anchors": ["src/runtime/workbench.cpp:Workbench::run", "src/runtime/workbench.cpp:Workbench::setup", "src/runtime/workbench.cpp:Workbench::input"]}
{"id": "C55", "title": "Setting up another program discards old values", "statement": "After Workbench::setup of another program, inputs and outputs set under the previous program can no longer be observed.", "quantifier": "all histories", "why_tests_cant": "all histories", "anchors": ["src/runtime/workbench.cpp:Workbench::setup"]}
{"id": "C56", "title": "Slices are contiguous blocks of the batch axis", "statement": "Tensor::slice(b, e) with 0 <= b < e <= n yields shape (e-b, rest) and exactly the elements of rows b..e-1; a range outside the tensor is an error.", "quantifier": "all shapes, data and ranges", "why_tests_cant": "all shapes and ranges", "anchors": ["src/core/tensor.cpp:Tensor::slice"]}
{"id": "C57", "title": "Shape matching treats negative entries as wildcards", "statement": "Tensor::has_shape(s) holds exactly when the tensor has as many dimensions as s and every non-negative entry of s equals the size of that dimension.", "quantifier": "all shapes and requests", "why_tests_cant": "all shapes", "anchors": ["src/core/tensor.cpp:Tensor::has_shape"]}
{"id": "C58", "title": "Loading a graph by output names is unambiguous", "statement": "Module::load(graph, names) succeeds only if every name belongs to exactly one node of the graph, and then the module's outputs are those nodes in the order of the names (a name may be repeated); an unknown or ambiguous name is an error.", "quantifier": "all graphs and all name lists", "why_tests_cant": "depends on all names of all nodes of arbitrary graphs", "anchors": ["src/module/module.cpp: Module::load"]}
{"id": "C59", "title": "Loading a module finds exactly its parameters", "statement": "Module::load(graph, outputs) terminates on every graph (also cyclic), makes exactly the parameters the outputs depend on (through operators) the module's inputs, each once, and fails exactly when the outputs need a node outside the graph or an operator without inputs.", "quantifier": "all graphs, shared nodes and cycles included, and all output lists", "why_tests_cant": "requires a worklist invariant over arbitrary graphs", "anchors": ["src/module/module.cpp: Module::graph_walker, Module::load"]}
{"id": "C60", "title": "Writers go first", "statement": "While a thread holds an rwmutex for writing or waits to do so, no other thread newly acquires it for reading, so a stream of readers cannot starve a writer.", "quantifier": "all schedules and numbers of threads", "why_tests_cant": "all interleavings", "anchors": ["include/utils/mutex.h: rwmutex"]}
{"id": "C61", "title": "Joining one thread of the pool waits for its tasks", "statement": "When Thread::join on the thread returned by ThreadPool::run returns, every task whose run() returned that thread before has been executed on it.", "quantifier": "all schedules, all numbers of threads, clients and tasks", "why_tests_cant": "all interleavings", "anchors": ["src/runtime/inside/thread_pool.cpp: Thread::join, Thread::run, Thread::operating"]}
{"id": "C62", "title": "busy() reports work in progress", "statement": "Thread::busy answers true exactly while a task handed to the thread has not been completed, and ThreadPool::busy answers true exactly while some task is outstanding.", "quantifier": "all schedules", "why_tests_cant": "a race between busy() and the worker", "anchors": ["src/runtime/inside/thread_pool.cpp: Thread::busy, ThreadPool::busy"]}
{"id": "C63", "title": "Destroying a thread terminates", "statement": "The destructor of Thread (and so of ThreadPool) returns in every schedule.", "quantifier": "all schedules and crash points of the worker loop", "why_tests_cant": "a lost wake-up in a window of a few instructions", "anchors": ["src/runtime/inside/thread_pool.cpp: Thread::~Thread, Thread::operating"]}
{"id": "C64", "title": "No handed-over task is dropped by destruction", "statement": "A task handed to a Thread is executed even if the Thread is destroyed right afterwards.", "quantifier": "all schedules", "why_tests_cant": "race between destructor and worker", "anchors": ["src/runtime/inside/thread_pool.cpp: Thread::~Thread, Thread::operating"]}
{"id": "C65", "title": "The block cipher is AES-256", "statement": "With any 32-byte key, AES_ECB_encrypt computes the cipher defined by FIPS 197 (key schedule, S-box as inversion in GF(2^8) plus the affine map, MixColumns as polynomial product); a shorter key is completed from the built-in default key and a longer one cut after 32 bytes.", "quantifier": "all keys, all blocks", "why_tests_cant": "test vectors cover a handful of the 2^384 inputs", "anchors": ["src/encryption/aes.cpp: KeyExpansion, Cipher, AES_init_ctx"]}
{"id": "C66", "title": "Chained modes invert", "statement": "AES_CBC_decrypt_buffer inverts AES_CBC_encrypt_buffer for every whole number of blocks and leaves the same vector; encrypting in several calls equals encrypting at once; every block encrypted by CBC is the encryption of the plain block added to the previous encrypted block (the vector for the first); AES_CTR_xcrypt_buffer applied twice is the identity for every length, and adds to byte i the byte i mod 16 of the encryption of the vector, as a 128-bit big-endian number, plus i/16.", "quantifier": "all keys, vectors, buffers", "why_tests_cant": "all lengths and contents", "anchors": ["src/encryption/aes.cpp: AES_CBC_encrypt_buffer, AES_CBC_decrypt_buffer, AES_CTR_xcrypt_buffer"]}
{"id": "C67", "title": "Short keys are completed in every mode", "statement": "AES_init_ctx_iv completes short keys like AES_init_ctx and never reads beyond the caller's key.", "quantifier": "all keys and vectors", "why_tests_cant": "all lengths", "anchors": ["src/encryption/aes.cpp: AES_init_ctx_iv"]}
{"id": "C68", "title": "An idle block large enough is always reused", "statement": "When some block given back to a Vat and still idle has at least the requested capacity, malloc hands out such a block and does not ask the system allocator (so it succeeds even when the system has no memory left); the block is the smallest sufficient one among the idle blocks, except possibly for one misplaced block.", "quantifier": "all histories of malloc/free/reset/clean/dispose/deprecated, all request sizes, all correct system allocators", "why_tests_cant": "the idle list is not kept sorted, so which block is found depends on the whole history", "anchors": ["src/memory/orz/vat.cpp:Vat::malloc", "src/memory/orz/vat.cpp:binary_find"]}
{"id": "C69", "title": "summary() counts what is held from the system", "statement": "After any history, Vat::summary() is the total size of the regions obtained from the system allocator and not given back to it.", "quantifier": "all histories, all correct system allocators", "why_tests_cant": "accounting over histories with shared ownership", "anchors": ["src/memory/orz/vat.cpp:Vat::summary"]}
{"id": "C70", "title": "A pooled memory owns its block", "statement": "A HardMemory created on a pooled allocator owns, after any sequence of resize/expect/shrink/dispose and any calls of other users of the pool, capacity() bytes at data(), and its destruction succeeds.", "quantifier": "all histories of one memory among other users of the pool", "why_tests_cant": "depends on failing allocations and on the order of calls", "anchors": ["src/core/hard_memory.cpp:HardMemory", "src/memory/flow.cpp:VatMemoryController::alloc"]}
{"id": "C71", "title": "Trimming a scan keeps its sequence and counts it", "statement": "Scan::update returns the number of steps of the loop and removes everything that is run zero times, without changing the sequence of steps.", "quantifier": "all nested iterations", "why_tests_cant": "nesting of any depth, counts of any size", "anchors": ["include/core/scan.h:update_iteration"]}
{"id": "C72", "title": "The distance between names", "statement": "edit_distance is symmetric, is zero on equal names and bounded by the sum of the lengths; only equal names are at distance zero.", "quantifier": "all pairs of strings", "why_tests_cant": "a dynamic programme over strings of any length", "anchors": ["src/utils/box.cpp:edit_distance"]}
{"id": "C73", "title": "Device mapping follows the map to its end", "statement": "ArgParser::map_device returns, for every device name, the name the chain of -v:from:to mappings ends at, normalised.", "quantifier": "all argument strings and device names", "why_tests_cant": "chains of any length, possibly cyclic", "anchors": ["src/compiler/argparse.cpp:ArgParser::map_device"]}
{"id": "C74", "title": "Short strings compare like the texts they hold", "statement": "otl::string<8> values (device ids) compare equal exactly when they hold the same text of at most 7 characters, are totally ordered, and longer texts are rejected.", "quantifier": "all texts", "why_tests_cant": "all byte strings", "anchors": ["include/utils/otl.h:sso::string"]}
{"id": "C75", "title": "Split cuts a tensor into the requested sizes", "statement": "Splitting a tensor along an axis into a list of sizes that add up to the size of the axis yields, in order, tensors of these sizes whose concatenation is the tensor; sizes that do not add up are refused.", "quantifier": "all tensors, axes and lists of sizes", "why_tests_cant": "the sizes are run-time data; a request that does not add up reads other memory and may look plausible", "anchors": ["src/backend/base/base_split.cpp:infer_split", "src/kernels/cpu/split.cpp:cpu_split_compute_run"]}
{"id": "C76", "title": "Transposing back gives the tensor", "statement": "Transposing a tensor with a permutation and the result with the inverse permutation yields the original tensor; in particular NHWC to NCHW and back, for every element type and every mixture of specialised and generic code paths.", "quantifier": "all tensors, all permutations, both element type paths", "why_tests_cant": "needs the composition of two index maps for all shapes, including widths that are not a multiple of the vector size", "anchors": ["src/backend/base/base_transpose.cpp:Transpose::run", "src/kernels/cpu/transpose.cpp:NC3HWToNHWC3", "src/kernels/cpu/transpose.cpp:NHWC3ToNC3HW"]}
{"id": "C77", "title": "Ellipsis, new-axis and shrink masks behave like the indexing notation", "statement": "strided_slice with ellipsis, new-axis and shrink bits gives what x[..., newaxis, 3] style indexing with the same entries gives: an ellipsis stands for zero or more whole axes, a new axis has size one whatever begin and end are, a shrunk axis selects the element begin and disappears.", "quantifier": "all shapes, slices and masks", "why_tests_cant": "all combinations of three masks with all shapes", "anchors": ["src/backend/base/base_strided_slice.cpp:infer_output"]}
{"id": "C78", "title": "GatherNd reads the slices its index rows point at", "statement": "gatherv2's output at (i, q) is x at (indices[i, :], q) for in-range index rows; rows longer than the rank are refused; every output element is written.", "quantifier": "all shapes and index tensors with in-range rows", "why_tests_cant": "index arithmetic over all ranks", "anchors": ["src/backend/base/base_gatherv2.cpp", "src/kernels/cpu/gatherv2.cpp"]}
{"id": "C79", "title": "gather_elements takes along an axis", "statement": "gather_elements' output at (p, i, q) is x at (p, indices[p, i, q], q), with negative indices and negative axes counted from the end, as in ONNX; every output element is written.", "quantifier": "all shapes, axes, index tensors", "why_tests_cant": "index arithmetic over all shapes", "anchors": ["src/backend/base/base_gather_elements.cpp", "src/kernels/cpu/gather_elements.cpp"]}
{"id": "C80", "title": "scatter_nd replaces exactly the indexed slices", "statement": "scatter_nd's output is data with the slice each index row points at replaced by the corresponding update slice, the last update winning, and everything else copied.", "quantifier": "all data, indices and updates of matching shapes", "why_tests_cant": "all index lists, with repetitions", "anchors": ["src/backend/base/base_scatter_nd.cpp", "src/kernels/cpu/scatter_nd.cpp"]}
{"id": "C81", "title": "Equality compares element by element", "statement": "The equal operator gives, at every coordinate of the broadcast shape, whether the two operands' elements there are equal, with the type BOOLEAN, for every pair of shapes the other element-wise operators accept.", "quantifier": "all shapes that broadcast, all data", "why_tests_cant": "all pairs of shapes and ranks", "anchors": ["src/backend/base/base_equal.cpp: Equal::run", "src/kernels/cpu/equal.cpp: compute_run"]}
{"id": "C82", "title": "Type promotion keeps the operands' values", "statement": "The common type of two integer operands of an element-wise operator can hold every value of both operand types.", "quantifier": "all pairs of integer types, all values of them", "why_tests_cant": "the claim ranges over all values", "anchors": ["src/backend/base/element_wise_reduce.cpp: upcast_dtype"]}
{"id": "C83", "title": "Max along an axis", "statement": "Running the max operator on a tensor with an axis in [-rank, rank) yields, at every place outside that axis, a value that occurs along the axis and that no value along the axis exceeds; the axis is removed, or kept with length 1 if keep_dims is set; an axis out of range is refused.", "quantifier": "all shapes, axes (negative ones included), keep_dims, element values and orders", "why_tests_cant": "The loop walks memory with strides computed from the shape; a test fixes a shape.", "anchors": ["src/kernels/cpu/max.cpp: cpu_max_compute_run", "src/backend/base/base_max.cpp: Max::run"]}
{"id": "C84", "title": "Sum and mean over axes", "statement": "reduce_sum and reduce_mean yield, at every place outside the reduced axes, the sum of all values over those axes (added in index order from zero) and that sum divided by their number; each input value is used once; the axes are removed or kept with length 1; axes out of range or not consecutive are refused.", "quantifier": "all shapes, all axes or runs of axes written from the front or the back, all values", "why_tests_cant": "Depends on the strides of an arbitrary shape and on how negative axes are resolved.", "anchors": ["src/kernels/cpu/reduce_sum.cpp", "src/kernels/cpu/reduce_mean.cpp", "src/backend/base/base_reduce_sum.cpp", "src/backend/base/base_reduce_mean.cpp: checkout, check_dims_continue"]}
{"id": "C85", "title": "Half-float comparisons follow the values", "statement": "For any two finite software floating point numbers (float16, and the same template for other formats), ==, !=, <, <=, >, >= agree with the order of the numbers they denote; the two zeros are equal.", "quantifier": "all pairs of finite bit patterns, all formats", "why_tests_cant": "2^32 pairs for halves alone; the code compares integers with a sign case distinction", "anchors": ["include/core/ieee754_float.h: operator==, operator>=, operator<=, operator>, operator<"]}
{"id": "C86", "title": "Half precision compilation keeps the type of the outputs", "statement": "Compiling with --float16 may run operators in half precision inside, but every output whose operator has a half precision version is cast back to 32-bit floats, wherever it stands in the output list and whatever else uses it.", "quantifier": "all graphs, output lists (with repetitions and outputs feeding other outputs), device capabilities", "why_tests_cant": "depends on the order in which shared nodes are first visited", "anchors": ["src/compiler/option/fp16_translator_option.cpp:Fp16TranslatorOption::translate", "src/compiler/translater.cpp:translate_node"]}
{"id": "C87", "title": "Matrix product", "statement": "math::gemm leaves alpha * op(A) * op(B) + beta * C in C: for row and column major storage, for every choice of transposes, sizes (also zero) and leading dimensions not smaller than a line, with the vectorised and the scalar inner product; memory of C outside the matrix keeps its contents, with beta = 0 the old C is not read, and a leading dimension that is too small is refused.", "quantifier": "all sizes M, N, K, both storage orders, all transposes, leading dimensions, factors and contents", "why_tests_cant": "unrolled and vectorised loops have remainders for every residue of K; a test tries a few sizes and never looks at the memory between the lines", "anchors": ["src/kernels/cpu/math_cpu.cpp: inline_dot, inline_scal, inline_gemm_row_major, math::gemm", "include/kernels/common/math.h: near"]}
{"id": "C88", "title": "Packed matrix product", "statement": "The packed product used by convolution and inner product (8x8 blocks, eight columns at a time, remainder rows and columns) stores every entry of A * B, whether the operands are packed by the call or were packed before by the packing functions; factors other than alpha = 1, beta = 0 are refused.", "quantifier": "all sizes M, N, K, all matrices, packed or not", "why_tests_cant": "the kernel has sixteen kinds of remainder (M mod 8, N mod 8, K mod 4); each needs its own sizes to be exercised", "anchors": ["src/kernels/cpu/math_cpu.cpp: pack8_A, pack8_B, kernel_8x8_run, math::gemm"]}
{"id": "C89", "title": "Convolution", "statement": "conv2d on a float NCHW tensor gives, for every image, output channel and position, the sum over channels and kernel positions of the weight times the padded input at position * stride + kernel index * dilation - padding, with padding_value outside the image; the output size is floor((size + paddings - dilated kernel) / stride) + 1; the 1x1 shortcut and weights packed in advance (kernel_packed) make no difference; attributes on the batch or channel axis, wrong ranks, element types or channel numbers are refused.", "quantifier": "all batch sizes, channels, image and kernel sizes, paddings (uneven, negative), strides, dilations, padding values and contents", "why_tests_cant": "the result goes through im2col, packing and a blocked product with remainders; tests use a handful of shapes", "anchors": ["src/kernels/cpu/conv2d_core.cpp", "src/kernels/cpu/im2col.cpp: im2col_cpu", "src/backend/base/base_conv2d.cpp", "include/backend/common_function.h: conv2d_forward"]}
{"id": "C90", "title": "gemm operator", "statement": "The gemm operator on two float or double matrices gives alpha * A' * B' + beta * C, where A' and B' are the operands transposed as the attributes say and C (a scalar, a vector, a row, a column or a matrix) is broadcast to the result; the result is m by n and of A's element type; operands that are not matrices, whose element types differ or whose inner sizes disagree, and a C that cannot be broadcast, are refused.", "quantifier": "all sizes, contents, factors alpha and beta, both transposition flags and every broadcastable C", "why_tests_cant": "broadcast fill, transposition and the blocked product interact; tests only try a handful of sizes", "anchors": ["src/kernels/cpu/cpu_gemm.cpp: CpuGemm::gemm", "src/backend/base/base_gemm.cpp: Gemm::infer, Gemm::run", "src/kernels/cpu/math_cpu.cpp: math::gemm"]}
{"id": "C91", "title": "inner product operator", "statement": "inner_prod takes its left operand as a matrix (first axis by the product of the others) and multiplies it with the right matrix, transposed if the attribute says so; a right operand packed in advance gives the same result.", "quantifier": "all ranks and sizes of the left operand, all contents, both transposition flags, packed or not", "why_tests_cant": "flattening, packing and blocking meet; the packed path leaves remainders for sizes that are no multiple of eight", "anchors": ["src/kernels/cpu/inner_prod.cpp", "src/backend/base/base_inner_prod.cpp", "src/kernels/cpu/math_cpu.cpp: math::gemm"]}
{"id": "C92", "title": "matmul operator", "statement": "matmul multiplies along the last axis of the left operand, of any rank, with a right matrix and keeps the leading axes; two operands of rank four that each hold one matrix are multiplied; rank-four batches of more than one matrix are refused.", "quantifier": "all ranks, sizes and contents", "why_tests_cant": "the operator reshapes its operands twice around inner_prod; tests cover a few ranks", "anchors": ["src/kernels/cpu/matmul.cpp", "src/backend/base/base_matmul.cpp: MatMul::infer, MatMul::run"]}
{"id": "C93", "title": "Pooling", "statement": "pooling2d on an NCHW float or double tensor gives, for every image, channel and output position, the greatest (MAX) or the mean (AVG) of the image elements in the window at position * stride - padding; black padding divides by the number of elements in the image, white padding by the kernel size; the number of windows is the least that covers the padded image; attributes on the batch and channel axes and other ranks are refused. The vectorised kernels for stride two give the same as the plain loops.", "quantifier": "all sizes, paddings, kernels, strides, contents and both padding types", "why_tests_cant": "the stride-two kernels split rows into first column, vectors of four, remainder and last column, and rows into top, centre and bottom; tests try few sizes", "anchors": ["src/kernels/cpu/pooling2d_core.cpp", "src/kernels/cpu/pooling_algorithm.cpp: max_pooling_k3s2, max_pooling_k2s2", "src/backend/base/base_pooling2d.cpp", "include/backend/common_function.h: pooling2d_forward"]}
{"id": "C94", "title": "Global pooling", "statement": "global_pooling2d on an NCHW float or double tensor gives one value per image and channel: the greatest element or the mean of the whole image.", "quantifier": "all batch sizes, channel numbers, image sizes and contents", "why_tests_cant": "ranges over all sizes and contents", "anchors": ["src/backend/base/base_global_pooling2d.cpp", "src/kernels/cpu/pooling2d_core.cpp"]}
{"id": "C95", "title": "Parameters as inputs", "statement": "pooling2d_v2, conv2d_v2 and depthwise_conv2d_v2, which take padding, kernel size and stride (or padding) as inputs, give on every run what pooling2d, conv2d and depthwise_conv2d give with the parameters of that run, whatever was run before on the same object; unsupported parameters are refused every time.", "quantifier": "all sequences of earlier runs, accepted or refused, and all parameters and inputs", "why_tests_cant": "the object keeps the last parameters and an inner operator, so a result may depend on the history of runs", "anchors": ["src/kernels/cpu/pooling2d_v2.cpp: Pooling2DV2::run", "src/kernels/cpu/conv2d_v2.cpp: Conv2DV2::run", "src/kernels/cpu/depthwise_conv2d_v2.cpp: DepthwiseConv2DV2::run", "src/backend/base/base_pooling2d.cpp: Pooling2D::init", "src/backend/base/base_conv2d.cpp: Conv2D::init"]}
{"id": "C96", "title": "Transposed convolution", "statement": "conv2d_transpose adds, for every input element and every place of the kernel, weight times element to the output place they meet in, and nothing else; its output has (x-1)*stride + dilation*(k-1)+1 - padding rows and columns; with zero padding value it is the adjoint of conv2d with the same weights and parameters.", "quantifier": "all tensors, image counts, channels, kernel sizes, paddings, strides and dilations", "why_tests_cant": "sums over all sizes; the scatter-add and the buffer reused between images must not mix places or images for any parameters", "anchors": ["src/kernels/cpu/transpose_conv2d_core.cpp: cpu_transpose_conv2d_nchw_compute_run", "src/kernels/cpu/im2col.cpp: col2im_cpu", "src/backend/base/base_conv2d_transpose.cpp: Conv2DTranspose::infer", "include/backend/common_function.h: conv2d_backward"]}
{"id": "C97", "title": "Depthwise convolution computes, for every channel, the weights times the window of that channel", "statement": "Running depthwise_conv2d on an NCHW float or double tensor and weights of shape (1, channels, kernel height, kernel width) gives for every image, channel and output position the sum over the kernel of weight times the padded input of the same channel at stride * position + dilation * offset - padding; the vectorised 3x3 kernels agree with the general one and nothing but the two inputs influences the result. The 3x3 float kernels read one number behind the last weight, mishandle negative paddings and planes of fewer than two rows or columns. More than one kernel per channel, packed weights, other layouts and other types are refused.", "quantifier": "all tensors, sizes, paddings, strides, dilations, padding values and all contents of the memory behind the weights", "why_tests_cant": "which path runs depends on kernel size, strides, dilation, paddings and the remainder of the width by four and height by two; a test settles one combination, and the read behind the weights is invisible unless the allocator faults", "anchors": ["src/kernels/cpu/depthwise_conv2d_algorithm.cpp: depthwise_3x3_s1, depthwise_3x3_s2, depthwise_general, inner_kernel", "src/kernels/cpu/depthwise_conv2d_core.cpp: cpu_depthwise_conv2d_nchw_compute_run", "src/backend/base/base_depthwise_conv2d.cpp"]}
{"id": "C98", "title": "Operators that change only the shape keep the elements and give exactly the documented shape", "statement": "reshape, reshape_v2, flatten, flatten2d, squeeze, unsqueeze and expand return the input's elements in the same order and of the same type, with a shape of as many elements: reshape gives the requested sizes (0 keeps a size, one negative number stands for what is left) and finds the shape whenever one exists; flatten joins the axes from dim on; squeeze drops exactly the listed (or all) axes of size one and undoes unsqueeze; expand adds ones within its limits, and fails exactly when they leave too little room. Two wildcards are refused. Not so for empty tensors (division by zero), for flatten below the first axis, and for axes that are not listed in increasing order.", "quantifier": "all shapes, requests, axes and limits", "why_tests_cant": "shapes and requests are unbounded and interact (zeros, wildcard, rank differences, order of axes); tests try a handful", "anchors": ["src/backend/base/base_new_shape.cpp: NewShape::run, NewShape::infer", "src/backend/base/base_reshape.cpp: Reshape::newshape", "src/backend/base/base_reshape_v2.cpp: newshape", "src/backend/base/base_flatten.cpp: Flatten::newshape", "src/backend/base/base_unsqueeze.cpp: Unsqueeze::newshape", "src/kernels/cpu/squeeze.cpp: Squeeze::newshape", "src/kernels/cpu/flatten2d.cpp: Flatten2D::newshape", "src/kernels/cpu/expand.cpp: Expand::expand"]}
{"id": "C99", "title": "dimshuffle takes exactly the slices listed", "statement": "For every tensor, axis and list of slice numbers, the dimshuffle operator returns the tensor whose slice k along the axis is slice shuffle[k] of the input, with every element written once, and refuses an empty list, a negative axis and slice numbers that do not exist; two shuffles in a row equal the shuffle by the composed list.", "quantifier": "all shapes, contents, axes and lists of slice numbers", "why_tests_cant": "Ranges over all shapes, axes and lists; the memcpy offsets depend on products of arbitrary sizes, and the accesses outside the shape only show for particular ranks.", "anchors": ["src/backend/base/base_dimshuffle.cpp Dimshuffle::init Dimshuffle::infer", "src/kernels/cpu/dimshuffle.cpp Dimshuffle::dimshuffle"]}
{"id": "C100", "title": "stack puts equal-shaped tensors side by side along a new axis", "statement": "For every list of tensors and every axis, the stack operator succeeds exactly when the tensors have one data type and one shape and the axis names a place for a new axis, and then slice i of the result along the new axis is argument i.", "quantifier": "all lists of tensors, shapes, contents and axes", "why_tests_cant": "Ranges over any number of arguments of any rank; an argument of smaller rank is not refused but leads to an insertion past the end of a shape.", "anchors": ["src/kernels/cpu/stack_tensor.cpp StackTensor::run", "src/backend/base/base_stack_tensor.cpp StackTensor::infer"]}
{"id": "C101", "title": "crop_to cuts the requested window, and running it leaves no trace", "statement": "For every tensor, reference shape, axis and offsets, the crop_to operator returns the window of the input starting at the offsets with the reference's sizes from the axis on, with zeros outside the input; and the result of a run depends only on its attributes and arguments, not on earlier runs of the same operator.", "quantifier": "all shapes, contents, axes, offsets and all sequences of runs of one operator", "why_tests_cant": "The second half ranges over all histories of calls; a test of single runs never sees the axis that the first run overwrites.", "anchors": ["src/kernels/cpu/crop_to.cpp CropTo::run CropTo::infer", "src/kernels/cpu/pad_cpu.cpp"]}
{"id": "C102", "title": "where picks each element from one of its two operands", "statement": "For every condition and two operands of one type whose shapes broadcast together, the where operator gives at every coordinate of the broadcast shape the second argument's element if the condition is true there and the third's otherwise; shapes that do not broadcast and operands of different types are refused.", "quantifier": "all shapes of any ranks, all conditions and contents", "why_tests_cant": "ranges over all triples of shapes; a test tries a handful of them", "anchors": ["src/backend/base/base_where.cpp: reduce, Where::infer, Where::run", "src/kernels/cpu/where.cpp: compute_run_broadcast, compute_run_same_shape"]}
{"id": "C103", "title": "broadcast repeats along axes of size one", "statement": "For every tensor and shape that broadcast together, the broadcast operator returns the tensor of the common shape in which every element is the argument's element at the coordinate with axes of size one read at zero; every element is written, whichever of the scalar, bias and general paths runs and whatever the element width; shapes that do not broadcast are refused.", "quantifier": "all shapes and ranks, contents, element widths of 1, 2, 4 and 8 bytes", "why_tests_cant": "the path depends on the merged shape and the block fill on the element width; tests try few shapes", "anchors": ["src/backend/base/base_broadcast_v2.cpp: BroadcastV2::run, BroadcastV2::infer", "src/kernels/cpu/broadcast_v2.cpp: memset, cpu_broadcast_compute_run, cpu_broadcast_compute_run_scalar, cpu_broadcast_compute_run_bias"]}
{"id": "C104", "title": "range counts from start to limit", "statement": "For all 32-bit integers start, limit and step other than zero, the range operator returns start, start + step, ... as long as the limit is not reached, and nothing else.", "quantifier": "all starts, limits and steps, both directions", "why_tests_cant": "ranges over all triples of integers, in particular steps that do not divide the distance", "anchors": ["src/kernels/cpu/range.cpp: get_dim, Range::run"]}
{"id": "C105", "title": "Convolution by Winograd's method is the convolution", "statement": "Running conv2d_winograd on a float NCHW input of matching channels with 3x3 weights and paddings that are not negative gives exactly the tensor conv2d gives with stride 1 and dilation 1: every output element is the weights times the 3x3 window of the padded input, whichever tile size is chosen, whatever the input size, and on every run of the same operator object as long as its weights stay the same. The object keeps the first weights it has seen: given other weights later it still answers with the first ones. Kernel sizes and channel counts the method is not made for must be refused.", "quantifier": "every batch, channel and output count, every height and width, every non-negative padding and padding value, both tile sizes, every history of earlier runs with the same weights, exact arithmetic over any field in which 2, 3 and 5 are not zero", "why_tests_cant": "A test can compare two kernels on a few sizes within a float tolerance; that the transforms cancel for every tile position, remainder tile, channel count and run history is an algebraic identity over unbounded data.", "anchors": ["src/backend/base/base_conv2d_winograd.cpp", "src/kernels/cpu/conv2d_winograd.cpp", "src/kernels/cpu/winograd_algorithm.cpp", "src/kernels/common/function.cpp: in_out_pad_and_fix_size, winograd_mode_select_on_arm", "src/kernels/cpu/pad2d_algorithm.cpp: pad2d, cut2d"]}
{"id": "C106", "title": "Activations compute their function at every element", "statement": "relu, relu_max, leaky_relu, hard_sigmoid, square, sqrt, rsqrt, exp, sigmoid, tanh, softplus, ceil and floor return a tensor of the type and shape of their input whose every element is the function in the name of the operator of the element at the same place, whether the element is handled four at a time, in the remainder or in a generic loop, and for every element type they accept.", "quantifier": "all inputs of every shape and accepted type, all parameters", "why_tests_cant": "The float path has a vectorised loop and a remainder, other types another loop; a slip in one of them shows only for some sizes and types.", "anchors": ["src/kernels/cpu/relu.cpp: cpu_relu_compute_run", "src/kernels/cpu/leaky_relu.cpp", "src/kernels/cpu/hard_sigmoid.cpp", "src/kernels/cpu/softplus.cpp: cpu_softplus_compute_run", "src/kernels/cpu/sigmoid.cpp", "src/backend/base/base_activation.cpp"]}
{"id": "C107", "title": "Operators with parameters per channel use the parameter of each element's channel", "statement": "add_bias, batch_scale, batch_norm, fused_batch_norm and prelu along an axis return a tensor of the type and shape of their input in which each element is computed from the input's element and the parameters at the element's index along that axis; fused_batch_norm is batch_norm followed by batch_scale; a missing axis, parameters of another size or type, and unsupported types are refused.", "quantifier": "all inputs of every shape, every axis, all parameters", "why_tests_cant": "Index arithmetic over the blocks before and after the axis must be right for every rank, axis and size.", "anchors": ["src/kernels/cpu/batch_norm.cpp", "src/kernels/cpu/batch_scale.cpp", "src/kernels/cpu/add_bias.cpp", "src/kernels/cpu/fused_batch_norm.cpp", "src/kernels/cpu/prelu.cpp"]}
{"id": "C108", "title": "softmax divides exponentials by their sum along the axis", "statement": "softmax along an axis (counted from the end if negative) returns a tensor of the same type and shape whose every element is the exponential of the input's element divided by the sum of the exponentials of the elements in its row along the axis; so every row sums to one, adding a constant to a row changes nothing, and the smooth option, which subtracts the largest element first, does not change the result; axes the tensor does not have are refused.", "quantifier": "all inputs of every shape, every axis, both modes", "why_tests_cant": "The row walks through memory with a stride and is overwritten in two passes; the two kernels must agree for all values.", "anchors": ["src/kernels/cpu/softmax.cpp: cpu_softmax_compute_run, cpu_smooth_softmax_compute_run", "src/backend/base/base_softmax.cpp"]}
{"id": "C109", "title": "l2_norm and norm_image normalise rows and images", "statement": "l2_norm along an axis divides each element by the square root of the sum of the squares in its row plus epsilon; norm_image subtracts from each element the mean of its image and divides by its standard deviation plus epsilon, so that the mean of every image of the result is zero.", "quantifier": "all inputs of every shape, every axis, every epsilon", "why_tests_cant": "Rows are strided, images are contiguous, special cases for size one exist; must hold for every shape and value.", "anchors": ["src/kernels/cpu/l2_norm.cpp: cpu_l2_normalize_compute_run", "src/kernels/cpu/norm_image.cpp: cpu_norm_image_compute_run", "src/backend/base/base_l2_norm.cpp"]}
{"id": "C110", "title": "Parameters of an operator follow its history", "statement": "For every sequence of declarations, assignments and clearings of an operator's parameters, reading a parameter returns what the latest action that concerns it gave it, or an error if that removed it or nothing gave it; an assignment is refused exactly when the name is neither declared nor reserved while checking is strict; init succeeds exactly when, with strict checking, every required field has a non-empty value.", "quantifier": "all histories of field/set/clear/clear_params/clear_fields/mode changes, all names and values", "why_tests_cant": "the parameters depend on an unbounded history of calls; a test fixes one order of calls", "anchors": ["src/runtime/operator.cpp: Operator::has, set, get, clear, clear_params, clear_fields, field, check_params, unsatisfied_fields, init"]}
{"id": "C111", "title": "An operator made from a node has the node's parameters and its defaults", "statement": "An operator created from a node of a module has every parameter of the node and, for the other names, the defaults its constructor declared; creation fails exactly when the node has a parameter the operator does not declare or a required field is left without a non-empty value; the order in which the parameters are stored does not matter; and a copy of the operator in another workbench has the same parameters.", "quantifier": "all declaration lists of a constructor, all node parameters, all storage orders of the hash map", "why_tests_cant": "the iteration order of the hash map is not under a test's control and the parameter sets are unbounded", "anchors": ["src/runtime/workbench.cpp: Workbench::offline_create", "src/runtime/instruction.cpp: OperatorInstruction::clone", "src/runtime/operator.cpp: Operator::set, field, init"]}
{"id": "C112", "title": "cast converts every element and keeps what the target can hold", "statement": "Casting a tensor gives a tensor of the same shape whose every element is the converted element: integers modulo 2^n, fractions towards zero, floating point numbers to nearest with ties to even; values that the target type holds are kept, so casting to a type that holds all values of the source and back gives the tensor; unknown element types are refused; it is undefined exactly when some number does not fit the integer type.", "quantifier": "all shapes, all contents, all pairs of element types", "why_tests_cant": "the number of elements (the loop is unrolled by four) and their values are unbounded; a test samples a few pairs of types and values", "anchors": ["src/core/tensor_builder.cpp: tensor::cast, type_cast_template, type_cast_to, type_cast_to_from, support"]}
{"id": "C113", "title": "Values read from tensors are those the text or number denotes", "statement": "A string stored in a tensor is read back unchanged; reading an integer from a text tensor gives the integer the text starts with (after white space, with an optional sign), reading one from a number tensor gives its first element converted, empty tensors are refused; a text is true exactly if it is the word true in any mixture of cases.", "quantifier": "all strings, all numeric tensors", "why_tests_cant": "texts and tensors are unbounded; the rules for what follows the number are easy to miss in samples", "anchors": ["src/core/tensor_builder.cpp: tensor::from, to_string, to_int, to_bool"]}
{"id": "C114", "title": "slice cuts out the box it is asked for", "statement": "Running slice or slice_v2 with begin and size on a tensor, where on every axis begin is inside the axis and begin+size does not exceed it (a negative size meaning everything up to the end), gives the tensor of the same type whose element at c is the input element at c+begin, of size the requested one on each axis, every element written; anything else is refused without an output.", "quantifier": "every supported dtype, every shape, every begin/size pair of any length including values beyond 32 bits", "why_tests_cant": "a test fixes ranks and offsets; the claim ranges over all shapes and all 64-bit begin/size values", "anchors": ["src/backend/base/base_slice.cpp: slice_tensor_shape, Slice::run", "src/backend/base/base_slice_v2.cpp: SliceV2::run", "src/kernels/cpu/slice.cpp: cpu_slice_compute_run"]}
{"id": "C115", "title": "slice_v3 slices the listed axes as Python does and leaves the others alone", "statement": "Running slice_v3 with starts, ends, axes and steps selects, on each listed axis, exactly the indices Python's start:end:step selects on an axis of that length (values beyond 32 bits included) and keeps every other axis whole; omitted axes are the leading ones and omitted steps are one; negative axes count from the end; lists of different lengths are refused.", "quantifier": "every shape, every list of distinct increasing axes, all 64-bit starts and ends, every non-zero step", "why_tests_cant": "the clamping cases interact with the sign of the step and the saturation to 32 bits; examples cover a few of them", "anchors": ["src/backend/base/base_slice_v3.cpp: SliceV3::run, load_params", "src/kernels/cpu/slice_v3.cpp"]}
{"id": "C116", "title": "topkv2 finds the k greatest values", "statement": "Running topkv2 with number k on a tensor whose last axis has length W gives a pair (values, indices), both of the input's shape with last axis min(k, W): along every row the indices are distinct positions inside the row, the values are the input elements at those positions, in non-increasing order, and no element left out is greater than one listed; the values do not depend on how equal elements are ordered by the sort; unsupported element types are refused.", "quantifier": "every shape, every k >= 0, every row content without NaN, every implementation of std::partial_sort", "why_tests_cant": "the ordering claim quantifies over all rows and over all conforming sorts", "anchors": ["src/backend/base/base_topkv2.cpp: Topkv2::run", "src/kernels/cpu/topkv2.cpp: cpu_topkv2_sorted_compute_run"]}
{"id": "C117", "title": "resize2d changes two neighbouring axes to the sizes asked for", "statement": "Running resize2d with a list of sizes either refuses or gives a tensor of the input's type whose shape is the one asked for (negative entries keep an axis); that shape differs from the input's on two neighbouring axes at most; a list of the wrong length, a zero, or changes elsewhere are refused; when nothing changes the output is the input.", "quantifier": "every shape of every rank, every list of sizes, every resize method", "why_tests_cant": "the axis search has nested loops over all ranks and all mixtures of kept, repeated and changed entries", "anchors": ["src/backend/base/base_resize2d.cpp: find_resized_height_dim, check_outputs, Resize2D::run"]}
{"id": "C118", "title": "nearest and hard resizing copy the right pixel", "statement": "Resizing with method NEAREST (and resize_nearest_neighbor) makes every output pixel a copy of a source pixel whose centre is nearest to its own centre in source coordinates; method HARD copies the pixel at floor(d * source size / destination size); images, channels and all other axes stay apart; every output element is written and no pixel outside the source is read.", "quantifier": "all shapes, all source and destination sizes, all positions", "why_tests_cant": "an index computed by scaling and rounding must be right at every position for every pair of sizes", "anchors": ["src/kernels/cpu/resize2d.cpp: Resize2d_ResizeNearest, Resize2d_ResizeHard, batch_resize", "src/kernels/cpu/resize_nearest_neighbor.cpp: Resize_Nearest_Neighbor::run"]}
{"id": "C119", "title": "linear resizing interpolates between neighbouring pixels", "statement": "Resizing with method LINEAR makes every output pixel the bilinear interpolation of its image and channel at the pixel's centre in source coordinates kept inside the image (short of the last pixel by 1e-5); it never overshoots the range of the source values, so a constant image stays constant; no pixel outside the source is read.", "quantifier": "all shapes, all source and destination sizes, all pixel values", "why_tests_cant": "interpolation weights and border cases depend on both sizes and on the position", "anchors": ["src/kernels/cpu/resize2d.cpp: Resize2d_ResizeImageLinear"]}
{"id": "C120", "title": "cubic resizing is cubic convolution inside the image", "statement": "Resizing with method CUBIC makes every output pixel the cubic convolution (Keys, -3/4) of its image and channel at the pixel's centre in source coordinates; the weights add up to one; near the border the position is moved inside; no pixel outside the source is read.", "quantifier": "all shapes, all source and destination sizes, all pixel values", "why_tests_cant": "sixteen weights per pixel and two border clamps per axis", "anchors": ["src/kernels/cpu/resize2d.cpp: Resize2d_ResizeImageCubic"]}
{"id": "C121", "title": "An image filter applies the steps added since the last clear, in order", "statement": "Whatever sequence of calls was made on an image filter before (steps added, clear, compile, runs, compilations that failed), run(image) returns the image itself when no step was added since the last clear, and otherwise the result of applying exactly those steps, in the order they were added and each with the arguments it was given, to the image viewed as [batch, height, width, channels] (same elements, same number of them). When the program cannot be compiled the call throws; it never uses an outdated program.", "quantifier": "every history of calls on a filter, every step and arguments, every image shape, every outcome of compiling", "why_tests_cant": "tests run a few pipelines; a stale program or a wrongly linked node shows only after particular histories of calls", "anchors": ["src/runtime/image_filter.cpp ImageFilter::run", "src/runtime/image_filter.cpp ImageFilter::compile", "src/module/module.cpp Module::load"]}
{"id": "C122", "title": "A cloned image filter does what the original does", "statement": "The clone of an image filter gives, for every image, the result the original gives, and steps added to it extend the pipeline of the original.", "quantifier": "every history of calls on the original, every later history on the clone, every image", "why_tests_cant": "the clone of a filter that was just run behaves well; other histories lose steps or dereference null", "anchors": ["src/runtime/image_filter.cpp ImageFilter::clone", "src/runtime/image_filter.cpp ImageFilter::ImageFilter(const Implement&)"]}
{"id": "C123", "title": "force_gray turns every pixel into the weighted sum of its channels", "statement": "force_gray replaces the last axis by one element per pixel: the sum, in order, of the channels times the weights given, or times 0.114, 0.587, 0.299 when none are given and there are three channels, converted to the element type. An image with one channel is returned unchanged. Other numbers of channels, weights of another number than channels, tensors without axes and types without a kernel are refused.", "quantifier": "every tensor of every rank and size, every weights, every supported element type", "why_tests_cant": "an index error shows only for particular sizes", "anchors": ["src/backend/base/base_force_gray.cpp ForceGray::run", "src/kernels/cpu/force_gray.cpp cpu_force_gray_compute_run"]}
{"id": "C124", "title": "force_color repeats the gray channel, and force_gray undoes it", "statement": "force_color of an image with one channel has three channels all equal to it; an image with three channels is returned unchanged; other images are refused. A gray image of an integer type made coloured and then gray with the default weights is the same image.", "quantifier": "every tensor of every rank and size, every element value", "why_tests_cant": "the rounding of the weighted sum must work out for every value of the type", "anchors": ["src/backend/base/base_force_color.cpp ForceColor::run", "src/kernels/cpu/force_color.cpp cpu_force_color_compute_run", "src/kernels/cpu/force_gray.cpp cpu_force_gray_compute_run"]}
{"id": "C125", "title": "prewhiten standardises every image of a batch", "statement": "For floating-point tensors prewhiten subtracts from every element the mean of its image (the elements with the same index on the first axis) and divides by the standard deviation of that image, or by 1/sqrt(number of elements of the image) if that is larger; so the mean of each image of the result is zero. Other types and tensors without axes are refused.", "quantifier": "every tensor shape and every element values (exact arithmetic)", "why_tests_cant": "index errors and mixing of images show only for particular batch and image sizes", "anchors": ["src/backend/base/base_prewhiten.cpp PreWhiten::active", "src/kernels/cpu/prewhiten.cpp cpu_pre_whiten_compute_run"]}
{"id": "C126", "title": "Affine sampling answers every location from the image", "statement": "affine_sample2d without an outer value returns the same dtype and shape with the two named axes replaced by the size asked for; output pixel (y, x) is taken at the location the matrix maps (x, y, 1) to: by nearest, the pixel nearest to it; by hard, the pixel its fraction-free part names; by linear and cubic, the interpolation there, with locations outside of the image moved to its border. Wrong kernel numbers, axes, sizes or matrices are refused.", "quantifier": "all tensors of any rank, axis pairs (named from the front or from the end), 3x3 matrices, sizes and the four kernels", "why_tests_cant": "the locations range over all matrices and sizes; which pixels are read, and whether they are inside the image, must hold for every location", "anchors": ["src/kernels/cpu/affine_sample2d.cpp: affine_sample2d_linear, affine_sample2d_nearest, affine_sample2d_hard, affine_sample2d_cubic", "src/backend/base/base_affine_sample2d.cpp: Affine_Sample2D::infer, run"]}
{"id": "C127", "title": "Affine sampling gives the outer value exactly outside of the image", "statement": "affine_sample2d with an outer value returns the interpolated or copied pixel at every location inside of the image, and the outer value at every location outside of it; in particular the identity matrix returns the image.", "quantifier": "all tensors, matrices, sizes, outer values and kernels", "why_tests_cant": "the border between inside and outside must be right for every location, on all four sides", "anchors": ["src/kernels/cpu/affine_sample2d.cpp: affine_sample2d_linear, affine_sample2d_nearest, affine_sample2d_hard"]}
{"id": "C128", "title": "Letterboxing shows the whole image scaled to fit", "statement": "nhwc_letterbox returns images [n, H, W, c] of the size asked for (one number, or width and height); they show the input scaled by the largest factor with which it fits, starting at the first row and column, and the outer value elsewhere. Other ranks and numbers of sizes are refused.", "quantifier": "all batches of images, sizes and outer values", "why_tests_cant": "the scale, the place of every pixel and the border of the picture must be right for every pair of sizes", "anchors": ["src/backend/zoo/nhwc_letterbox.cpp: NHWCLetterBox::run", "src/kernels/cpu/affine_sample2d.cpp: affine_sample2d_linear"]}
{"id": "C129", "title": "Cropping to the middle", "statement": "nhwc_center_crop2d, crop_nd without a shift and limit return the window of the shape asked for in the middle of the input (as much left or added before as behind, or one element less), zeros where the window is outside of the input. nhwc_center_crop2d takes width and height; crop_nd keeps axes whose entry is not positive; limit only shortens the axes longer than their limit, the limits being those of the last axes.", "quantifier": "all tensors, sizes and limits (for all ranks)", "why_tests_cant": "the place of the window and every element in it must be right for every pair of sizes, odd and even, larger and smaller", "anchors": ["src/backend/zoo/nhwc_center_crop2d.cpp: NHWCCenterCrop2D::run", "src/backend/zoo/crop_nd.cpp: CropND::run", "src/backend/zoo/limit.cpp: Limit::run, if_overflow"]}
{"id": "C130", "title": "Cropping at a given place", "statement": "crop_nd with a shift returns the window of the size asked for that starts at the shift, zeros where it is outside of the input; a size that is not positive keeps that of the input. Other numbers of shifts or sizes than axes are refused.", "quantifier": "all tensors, shifts (negative too) and sizes", "why_tests_cant": "every element of every window must come from the right place", "anchors": ["src/backend/zoo/crop_nd.cpp: CropND::run"]}
{"id": "C131", "title": "Scaling the short side of images", "statement": "nhwc_scale_resize2d with one size s scales images [n, h, w, c] so that the shorter side is s and the longer one the whole part of s * long / short, with two sizes to that width and height; pixels are those of resize2d.", "quantifier": "all batches of images, sizes and kernels", "why_tests_cant": "the proportion must be kept for every pair of sizes, and the right side must be the short one", "anchors": ["src/backend/zoo/nhwc_scale_resize2d.cpp: infer_size, NHWCScaleResize2D::run"]}
{"id": "C132", "title": "Padding to multiples", "statement": "divided pads the last axes behind with the padding value up to the smallest multiple of their strides and leaves everything else as it is; more strides than axes are refused.", "quantifier": "all tensors and strides", "why_tests_cant": "the multiple is computed by a division of floats: that its rounding never gives the wrong multiple must hold for every size and stride", "anchors": ["src/backend/zoo/divided.cpp: divided_shape, Divided::run"]}
{"id": "C133", "title": "A failing C call says so", "statement": "A function of the C API that returns a handle, number or status returns its failure value (null, 0, false) exactly when something inside threw, and then ts_last_error_message() of that thread is the reason (including the reason a user's operator gave before returning null); when it succeeds the message is empty. No exception leaves a C function.", "quantifier": "every API function, every combination of null pointers, every behaviour of the function's body, including operators of the user that call the API themselves", "why_tests_cant": "bodies, nested user callbacks and exceptions combine without bound", "anchors": ["src/api/declaration.h TRY_HEAD RETURN_OR_CATCH TRY_TAIL", "src/api/errno.h", "src/api/operator.cpp APIPluginOperator", "src/api/tensor.cpp ts_new_Tensor"]}
{"id": "C134", "title": "Error messages are per thread", "statement": "What a thread reads from ts_last_error_message() depends only on its own calls, in every interleaving with the calls of other threads.", "quantifier": "all numbers of threads, all programs of API calls, all schedules of their steps", "why_tests_cant": "the schedules are unbounded", "anchors": ["src/api/errno.cpp _thread_local_last_error_message", "src/api/errno.h SetLEM ClearLEM GetLEM"]}
{"id": "C135", "title": "Null pointers are refused", "statement": "Passing null for a pointer that must not be null makes a C function return its failure value with a message naming the position of the parameter, before anything is done; it is never dereferenced.", "quantifier": "all 110 functions of src/api, all subsets of null arguments", "why_tests_cant": "subsets of arguments of all functions", "anchors": ["src/api/tensor.cpp", "src/api/workbench.cpp", "src/api/module.cpp", "src/api/program.cpp", "src/api/image_filter.cpp", "src/api/intime.cpp", "src/api/operator.cpp", "src/api/plugin.cpp"]}
{"id": "C136", "title": "The log level does not hide errors", "statement": "A failed check raises an error with its complete text at every log level; the level only decides what is printed.", "quantifier": "all levels, all checks, all messages", "why_tests_cant": "all levels and texts", "anchors": ["include/utils/log.h LogStream eject", "include/utils/assert.h TS_CHECK", "src/utils/log.cpp GlobalLogLevel"]}
{"id": "C137", "title": "A user's operator can announce its outputs", "statement": "The array an infer function of a user's operator returns in the documented format (the number of outputs, then type, number of dimensions and sizes of each) is decoded to exactly these types and shapes.", "quantifier": "all lists of types and shapes, all arrays", "why_tests_cant": "unbounded arrays", "anchors": ["src/api/operator.cpp APIPluginOperator::infer", "include/api/operator.h ts_Operator_infer", "include/api/cpp/operator.h Operator::Infer"]}
{"id": "C138", "title": "Inputs and outputs of graph nodes agree", "statement": "After any sequence of creating nodes, linking a node to inputs, replacing a node and destroying graphs, including calls that threw, every existing node A lists an existing node B among its inputs exactly as often as B lists A among its outputs; Link gives a node exactly the inputs asked for, in order, touches nobody else's inputs, and is refused only if the node or an input no longer exists; it always returns.", "quantifier": "every finite history of node creation, Link, ReplaceOutput and graph destruction, and every node and input list given to the next Link", "why_tests_cant": "The two directions are stored separately and updated by different loops; the histories (relinking, repeated inputs, partly failed links, destroyed graphs) are unbounded.", "anchors": ["include/module/graph.h: LinkedValue::Link, Node::Link, Graph::make", "src/module/graph.cpp"]}
{"id": "C139", "title": "Replacing a node redirects exactly its users", "statement": "ReplaceOutput(old, new) makes every node that had old as an input have new in the same places, changes no other input, leaves old without outputs and gives new the outputs of both; it is defined for every pair of existing nodes.", "quantifier": "every reachable collection of linked nodes and every two existing nodes", "why_tests_cant": "Needs every multiplicity and placing of the replaced input over unbounded graphs; the code replaces one occurrence per entry of the output list, which is right only by the invariant.", "anchors": ["include/module/graph.h: LinkedValue::ReplaceOutput, Node::ReplaceOutput"]}
{"id": "C140", "title": "Registries answer with the latest registration", "statement": "Asking the operator registry for a device and an operator name gives the function registered last for exactly that pair since the registry was last cleared, and nothing if there is none; restoring a saved copy gives the answers of the moment the copy was made; the listed keys are exactly the registered pairs, each once; the converter registry does the same for pairs of devices.", "quantifier": "every finite history of Register, Clear, GetCreatorFucMap and flush, every device type and operator name", "why_tests_cant": "Histories of static registrations, plug-ins and switched libraries are unbounded and their order is not under the tester's control.", "anchors": ["src/global/operator_factory.cpp: OperatorCreator::Query, Register, GetCreatorFucMap, flush, Clear, AllKeys", "src/global/hard_converter.cpp: HardConverter::Query, Register", "src/global/fp16_operator_factory.cpp", "src/global/hard_allocator.cpp", "src/global/shape_inferer_factory.cpp", "src/global/device_admin.cpp"]}
{"id": "C141", "title": "Operators are looked for on the device, its memory device, then the CPU", "statement": "Creating an operator strictly uses only the device asked for; otherwise it uses the first of the device itself, the device its memory is on and the CPU for which the operator is registered, and throws OperatorNotFoundException when none of them has it.", "quantifier": "every content of the operator and memory registries, every device and operator name, strict or not", "why_tests_cant": "The answer depends on what every other library registered; all combinations of registered and missing entries have to be covered.", "anchors": ["src/global/operator_factory.cpp: TalentQuery, OperatorCreator::Create, CreateNoException, Query", "src/global/memory_device.cpp: ComputingMemory::Query"]}
{"id": "C142", "title": "A memory keeps its bytes", "statement": "Growing a HardMemory with expect keeps all its bytes, shrinking keeps the first ones, capacity() is always the number of bytes that may be used, a refused call changes nothing, and no call changes the bytes of another memory; moving and swapping hand over exactly the bytes.", "quantifier": "every history of creating, resizing, expecting, shrinking, writing, moving, swapping and destroying any number of memories, every answer of the system allocator (in place, moved, failing), the CPU allocator and every allocator registered as a malloc/free pair", "why_tests_cant": "Whether realloc moves or fails is decided by the system; the interleavings of several memories are unbounded.", "anchors": ["src/core/hard_memory.cpp: HardMemory::resize, expect, shrink, dispose, swap, operator=", "src/kernels/cpu/memory_cpu.cpp: cpu_allocator", "src/global/hard_allocator.cpp: HardAllocator::Bind, RegisterV2"]}
{"id": "C143", "title": "Memory is given back exactly once", "statement": "Every block obtained from the system and not given back belongs to exactly one memory, so destroying the memories frees every block once: nothing is freed twice and nothing is leaked.", "quantifier": "every history of calls on any number of memories and every answer of the system allocator", "why_tests_cant": "A double free or leak shows only after the particular history, for instance an allocation refused in the middle of a resize.", "anchors": ["src/core/hard_memory.cpp: HardMemory::resize, ~HardMemory, operator=, dispose", "src/kernels/cpu/memory_cpu.cpp: cpu_allocator"]}
{"id": "C144", "title": "prior_box writes every box of every cell once", "statement": "prior_box on a feature map of H x W cells returns a tensor of shape [1, 2, H*W*P*4], where P is the number of boxes per cell: for every minimum size the square box, the box of side sqrt(min*max) if maxima are given, and one box for every aspect ratio not close to 1 or to an earlier one, together with its inverse when flipping. Row 0 holds, for every cell and box in this order, left, top, right and bottom around the centre ((w + offset) * step_w, (h + offset) * step_h), relative to the image (clipped to [0, 1] if asked for); row 1 holds the variances. Every element is written and nothing else is.", "quantifier": "all lists of sizes, ratios and variances, all feature maps and images, all ways to give image size and step", "why_tests_cant": "The number of boxes allocated and the number written are computed by different code; whether they agree depends on which ratios coincide.", "anchors": ["src/kernels/cpu/prior_box.cpp: PriorBox::init", "src/kernels/cpu/prior_box.cpp: PriorBox::run"]}
{"id": "C145", "title": "quantize rounds to the nearest byte", "statement": "Running `quantize` on a tensor with one scale per row yields an int8 tensor of the same shape whose every element is the product of the input element and the scale of its row, rounded to the nearest integer (halves away from zero) and saturated to [-128, 127]; a number of scales that differs from the first size, or an element type other than float and double, is refused.", "quantifier": "every tensor, every list of scales, every product function", "why_tests_cant": "the vector path, its scalar remainder and the several-scales path round separately, and which path an element takes depends on its position and on the number of elements", "anchors": ["src/kernels/cpu/quantize.cpp", "src/backend/base/base_quantize.cpp"]}
{"id": "C146", "title": "shape_index_patch cuts the patch centred at each landmark", "statement": "Running `shape_index_patch` on images and relative landmark positions yields, for every image, channel and landmark, the window of the image of the scaled patch size centred (up to rounding) at the landmark, with zeros where the window leaves the image; inputs of another rank, of different types or with an odd number of positions are refused.", "quantifier": "every batch of images, every set of landmark positions, every patch and origin size", "why_tests_cant": "landmarks near the border take the truncation of a negative number, which no test with central landmarks exercises", "anchors": ["src/kernels/cpu/shape_index_patch.cpp", "src/backend/base/base_shape_index_patch.cpp"]}
{"id": "C147", "title": "constant_of_shape fills the shape with its value", "statement": "`constant_of_shape` returns a tensor of the shape given by its input and the type of its value (float 0 by default), whose element i is element i modulo the number of elements of the value; a value of an unsupported type is refused.", "quantifier": "every shape and value", "why_tests_cant": "the fill doubles what it has already written, so the number of rounds and the size of the last copy depend on the ratio of the two sizes", "anchors": ["src/kernels/cpu/constant_of_shape.cpp", "src/core/memory.cpp:memset"]}
{"id": "C148", "title": "Computed paddings give the sizes the frameworks define", "statement": "The padding operators taken over from TensorFlow, ONNX, MXNet and Dragon return a padding, in the layout asked for, with which the convolution or pooling that follows has as many windows as the framework defines: with VALID (and NOTSET) as many as fit in the padded input, with SAME one for every stride, the added pixels shared evenly with the odd one at the end (SAME, SAME_UPPER) or at the start (SAME_LOWER), in Dragon's ceil mode as many as cover the input with the last one still starting inside; a padding of the batch or channels and a stride or dilation over them is refused.", "quantifier": "every input, kernel, stride, dilation and static padding, both layouts", "why_tests_cant": "the claims are about every combination of five numbers per axis, and the special cases (a stride beyond the kernel, a kernel beyond the input) are the ones that tests leave out", "anchors": ["src/backend/tf/conv2d_padding.cpp", "src/backend/tf/pooling2d_padding.cpp", "src/backend/onnx/pooling2d_auto_pad.cpp", "src/backend/mxnet/pooling2d_padding.cpp", "src/backend/dragon/conv2d_padding.cpp", "src/backend/dragon/pooling2d_auto_pad.cpp", "include/backend/common_function.h"]}
{"id": "C149", "title": "The memory of a tensor lives as long as something owns it", "statement": "In every history of making, copying, assigning, moving and destroying counted pointers (the handles through which tensors hold their memory), the use count of an object equals the number of variables that own it; the object is deleted exactly once, when the last owner goes, and is usable through every owner until then; following a weak pointer whose object is gone, or following an empty pointer, throws and does not touch freed memory.", "quantifier": "every finite history of pointer operations on any number of objects and variables; for the last clause, also schedules of several threads", "why_tests_cant": "A use-after-free or a leak depends on the whole order of copies and destructions; a test fixes one order and usually does not notice freed memory being read.", "anchors": ["include/core/threadsafe/smart.h:Counter, Smart::operator=, Smart::dispose, Smart::swap, Smart::weak, Smart::strong, Smart::operator*, Smart::operator->", "src/core/tensor.cpp:Tensor::weak, Tensor::strong"]}
{"id": "C150", "title": "A clone of a program is independent and does the same", "statement": "Cloning a program yields a new program with the same instructions, operator parameters, input and output slots, types and constants, and with clones of its filters; nothing that exists is changed, and in every later history no program is affected by parameters or filters given to another. Setting a parameter by node name sets it in every operator with that name of that program and changes nothing else (and nothing at all when it is refused). A name means the first input or output with that name. run_hook keeps the inputs under their names, also on a clone.", "quantifier": "every history of compiling, cloning, setting parameters and binding filters, over any number of programs, operators and names", "why_tests_cant": "Sharing between clones shows only in particular histories (clone, then change one, then run the other); the unit tests clone once and never change the clone.", "anchors": ["src/runtime/program.cpp:Program::Compile, Program::clone, Program::bind_filter, Program::set_operator_param, Program::input_slot, Program::output_slot", "src/runtime/instruction.cpp:OperatorInstruction::clone", "src/runtime/workbench.cpp:Workbench::run_hook"]}
{"id": "C151", "title": "The yolo operator squashes exactly the channels it should", "statement": "For a batch of images with (classes + 5) channels for every anchor the yolo operator returns a tensor of the same type and shape in which every channel of every anchor - centre x and y, objectness and the classes - has been passed through 1/(1+exp(-v)) once, the width and height channels are untouched, and the classes, mask and anchors follow as fields; another rank, channel count or element type is refused. (Images without pixels divide by zero, and for unsigned types the number is not negated.)", "quantifier": "all batches, image sizes, numbers of anchors and classes, element types and contents", "why_tests_cant": "the activation runs in place over flat ranges whose bounds depend on every size; a test fixes them", "anchors": ["src/kernels/cpu/yolo.cpp: Yolo::infer, Yolo::run, entry_index, activate_array, compute_run, neg"]}
{"id": "C152", "title": "yolo_poster reports exactly the objects left by greedy suppression", "statement": "For every image yolo_poster returns rows (left, top, width, height, score, class) such that: they are, in order of layer, row, column, anchor and class, objects whose objectness is above the threshold, with their box clipped to the unit square and score objectness times class probability above the threshold; no two rows of one class overlap more than the nms threshold; and every object left out overlaps a reported one of the same class that is no worse. Layers with different class counts are refused. (A negative threshold lets suppressed boxes through with score 0, the channel count is not checked, and the inferred shapes are not those of the report.)", "quantifier": "all numbers and sizes of layers, images, anchors, classes and thresholds >= 0, and every conforming std::sort", "why_tests_cant": "which boxes survive depends on every pair of boxes and on how the library orders ties", "anchors": ["src/kernels/cpu/yolo_poster.cpp: YoloPoster::run, get_yolo_detections, get_yolo_box, clamp, do_nms_sort, box_iou, infer"]}
{"id": "C153", "title": "Inference finds what the graph determines, once per node", "statement": "Inferring shapes over any acyclic graph gives every requested node the shape its operator's rule gives for the shapes and known values of its inputs (none when an input has none or the operator has no rule), leaves shape and type on every visited node except parameters, gives a value to exactly the visited nodes whose value the rules and the operators determine from constants, and calls each node's rule at most once however much is shared; inferring again gives the same. (A node that was given a value keeps it after its input stops being constant.)", "quantifier": "all acyclic graphs, sets of requested nodes, inference rules, operators and previously inferred states", "why_tests_cant": "sharing makes the number of paths exponential and the result must not depend on visiting order", "anchors": ["src/runtime/inferer.cpp: infer, infer_value, update_cache, get_value"]}
{"id": "C154", "title": "The groups the splitter makes can each be one module", "statement": "For every graph without cycles and every rule that says which operators are accepted and supported, Splitter::split answers after finitely many steps with groups of nodes such that: no node is in two groups; a group contains only accepted nodes and at least one supported node; no chain of uses leaves a group and enters it again; the inputs given to the group's module are exactly the nodes outside that a member uses, each once; its outputs are exactly the members used outside; every output of the graph and every input of a group is decided, and no accepted, supported node that is decided is left outside all groups. The order the main graph would need to run the groups also exists.", "quantifier": "over all finite acyclic graphs, rules, output lists and orders of links", "why_tests_cant": "the search goes down and up in alternation over arbitrary graphs; whether a group can be run as one module depends on all chains between its nodes, which tests on a few networks do not cover", "anchors": ["src/compiler/fence/splitter.cpp: explore, Splitter::split, RefCache, TopFirstQueue, BottomFirstQueue", "include/compiler/fence/splitter.h"]}
{"id": "C155", "title": "The LSTM operator computes the recurrence over its sequence", "statement": "For every sequence, weights, recurrent weights, biases and initial states of the declared shapes, the lstm operator answers three tensors: the hidden state of every step, the last hidden state and the last cell state of the standard recurrence (gates in the order input, output, forget, cell; missing initial states are zeros). With direction forward the sequence is walked from its start; with bidirectional the first half is that and the second half is the same recurrence with the second set of weights walked from the end, put back at the step it belongs to; with reverse it is walked from the end.  The stack is left as it was with only the answer added.", "quantifier": "over all sequence lengths, batch sizes, input and hidden sizes, weights and initial states, and all activation functions", "why_tests_cant": "each step runs eight kernels over a shared stack whose slots are taken by reference, dropped and refilled; that the right slots are used at every step of a sequence of any length is an invariant of the loop, not an example", "anchors": ["src/backend/base/base_lstm.cpp: LSTM::run, LSTM::init", "src/kernels/cpu/lstm.cpp: LSTM::lstm, lstm_compute, reverse_data", "src/runtime/stack.cpp: push_base, pop_base, erase"]}
{"id": "C156", "title": "Every device handle is finalised exactly once, by the device that made it", "statement": "For every history of making, initialising, moving, switching, finalising and destroying device contexts: every handle a device admin made is finalised by the admin of the same device type with the same device id, exactly once, and is never activated, synchronised or finalised after that; at every moment it belongs to exactly one context; when no context is left, no handle is left. A moved context knows the same devices as the one it was moved from.", "quantifier": "over all histories of calls on any number of contexts, all registrations of admins, memory devices and device names, and calls that throw", "why_tests_cant": "which admin sees which handle depends on the order in which members are overwritten across arbitrary histories; single calls do not show it", "anchors": ["src/core/device_context.cpp: initialize, initialize_v2, finalize, active, synchronize, Switch", "include/core/device_context.h: move constructor and assignment", "src/global/device_admin.cpp: Query", "src/global/memory_device.cpp: Query"]}
{"id": "C157", "title": "Runtime contexts have their own thread pool of the size asked for, and so have their clones", "statement": "For every history of making, configuring, cloning, moving and destroying runtime contexts: the thread number is positive and is the one asked for (0 means 1, negative means all processors); the context has a pool of exactly that many threads which no other context shares; a clone has the same number, a pool and memory controllers of its own, and cloning changes nothing for anybody else; when no context is left, no pool is left. A new bench's runtime has two new memory controllers, and the one for flow memory is the one the bench's stack allocates from. Cloning a bench keeps the pool bound to the thread alive and leaves the clone's runtime with the controllers of the clone.", "quantifier": "over all histories of calls, thread numbers, environment variables and numbers of processors", "why_tests_cant": "sharing and lifetime of pools after arbitrary moves and clones is a property of histories", "anchors": ["src/runtime/runtime.cpp: RuntimeContext, set_computing_thread_number, clone, operator=", "src/runtime/workbench.cpp: Workbench::Workbench, Workbench::clone, BindWorkbenchRuntime"]}
{"id": "C158", "title": "detection_output reports the decoded boxes that survive greedy suppression, the best keep_top of them", "statement": "For location predictions, confidences and priors that fit together, the detection_output operator answers a [1,1,n,7] tensor whose rows are, image by image and label by label, (image, label, score, xmin, ymin, xmax, ymax) of the reported detections. For each label that is not the background the candidates are the predictions scoring above confidence_threshold, best first, ties by number, at most top_k of them; a candidate is kept exactly when its box overlaps no box kept before it by more than the current limit, which starts at nms_threshold and is multiplied by eta after each kept box while it is above one half. If more than keep_top_k are kept in an image, keep_top_k of them are reported, none scoring less than one that is not. Every box is the prior decoded by code_type (corner, centre-size or corner-size) from the prediction, scaled by the variance unless variance_encoded_in_target. If nothing is kept in any image there is one row (image, -1, ..., -1) for each. The shape it announces is the shape it computes, the missing background label (-1) is accepted, and priors too short are refused.", "quantifier": "every number of images, priors and classes, every code_type, every threshold, every number of the three inputs, every sort", "why_tests_cant": "which boxes survive depends on every score and every pairwise overlap together; a test sees a handful of boxes", "anchors": ["src/kernels/cpu/detection_output.cpp: DetectionOutput::run/infer", "src/kernels/cpu/caffe/bbox_util.cpp: GetLocPredictions, GetConfidenceScores, GetPriorBBoxes, DecodeBBoxesAll, ApplyNMSFast, GetMaxScoreIndex, JaccardOverlap"]}
{"id": "C159", "title": "The proposal operator answers, for each image, the greedy survivors of its best candidate boxes", "statement": "With one stride and scores [n,A,h,w] and deltas [n,4A,h,w] that fit together, the proposal operator gives for every image the boxes chosen from its candidates: a candidate per cell of the map and per pair of a ratio and a scale is the anchor of that pair (of whole-pixel size near the square root of the stride squared over the ratio, then scaled, centred on the cell), moved and stretched by its deltas and cut to the image; its score is its own, or 0 if it is narrower or lower than min_size in the image's scale. Of the pre_nms_top_n best candidates, best first, one is kept exactly when it overlaps no kept one by more than nms_thresh (in whole pixels), until post_nms_top_n are kept. So no row has a box outside its image, no image has more than post_nms_top_n rows and no two of an image overlap by more than the threshold. Rows are (image, box); with several levels every row goes to the level its area says, held between min_level and max_level, and a level with none has one row (0,0,0,1,1).", "quantifier": "every map size, ratios, scales, scores, deltas, images, thresholds and numbers of boxes; every square root, exponential and level function", "why_tests_cant": "the sort is a hand-written partial quicksort and the suppression depends on every pair of boxes; a test sees a few orders", "anchors": ["src/kernels/cpu/dragon/proposal_op.cpp: RunWithType/run", "src/kernels/cpu/dragon/bbox_utils.h: SortProposals, GenerateAnchors, BBoxTransform, CollectRoIs, DistributeRoIs", "src/kernels/cpu/dragon/bbox_utils.cpp: GenerateProposals, iou, ApplyNMS"]}
{"id": "C160", "title": "With several strides the proposal operator's candidates are every map's, each with its own scale", "statement": "With several strides, scores [n,total] and deltas [n,4,total], the candidates are numbered map by map, ratio by ratio, row by row: the anchor of number k has the stride of its map, its ratio and the scale given for its map. The best are chosen as with one stride. If total is not the number of cells times ratios of all the maps the call fails with an error.", "quantifier": "every number and size of maps, every ratios, scales, scores, deltas, images, thresholds and totals", "why_tests_cant": "the numbering of four nested loops over every map has to agree with the layout of two tensors; a test sees one pyramid", "anchors": ["src/kernels/cpu/dragon/proposal_op.cpp: RunWithType", "src/kernels/cpu/dragon/bbox_utils.h: GenerateGridAnchors", "src/kernels/cpu/dragon/bbox_utils.cpp: GenerateProposals_v2"]}
{"id": "C161", "title": "roi_align answers the mean of interpolated samples of every bin of every region", "statement": "For a float32 batch of maps [N,C,H,W] and a float32 table of regions [R,5] (image, x1, y1, x2, y2), roi_align answers a [R,C,pool_h,pool_w] tensor with every element written. The region, scaled by spatial_scale and at least 1 wide and high, is cut into pool_h times pool_w equal bins; element (r,c,i,j) is the mean of the samples of bin (i,j) of map c of the region's image: sampling_ratio samples a side, or as many as the bin has cells, rounded up, at the middles of equal parts; a sample is the linear interpolation of the map at the nearest place of the map, or 0 more than a cell outside it. A region whose image number is -1 or less has only zeros. Nothing outside the inputs is read: an image the batch does not have and a table with fewer than five columns are refused, bins there are none of are refused, and what shape inference announces is what is computed.", "quantifier": "every map size and values, every region inside or outside the map, every scale, bin count and sampling ratio", "why_tests_cant": "the samples fall on, between and off the cells in every way as the region moves; a test sees a few regions", "anchors": ["src/kernels/cpu/dragon/roi_align_op_kernel.cpp: _ROIAlignInterpolate, ROIAlign", "src/kernels/cpu/dragon/roi_align_op.cpp: RunOnDevice", "src/backend/base/base_roi_align.cpp: ROIAlign::infer"]}
{"id": "C162", "title": "dcn_v2_forward answers the convolution of the displaced, masked taps plus the bias", "statement": "For float32 NCHW maps [N,C,H,W], weights [O,C,KH,KW], bias [O], offsets [N,2*G*KH*KW,OH,OW] and masks [N,G*KH*KW,OH,OW], with G dividing C, dcn_v2_forward answers an [N,O,OH,OW] tensor with every element written: element (n,o,i,j) is bias o plus the sum over channels c and taps (p,q) of the weight times the mask times map c of image n linearly interpolated at (i*stride_h + p*dilation_h - pad_h, j*stride_w + q*dilation_w - pad_w) displaced by the two offsets of tap (p,q) of the group of c at (i,j); the map is zero outside its cells. Nothing outside the inputs is read; the announced shape is the one answered.", "quantifier": "every batch, number of channels, filters and groups, map, window, stride, dilation and even padding, and all offsets (inside, between and outside the cells)", "why_tests_cant": "offsets move every tap independently across cell and map borders; a test tries a few offsets at one size", "anchors": ["src/kernels/cpu/dcn/dcn_v2_im2col_cpu.cpp: modulated_deformable_im2col_cpu, dmcn_im2col_bilinear", "src/kernels/cpu/dcn/dcn_v2_cpu.cpp: dcn_v2_cpu_forward", "src/kernels/cpu/dcn/utils.h: CBlas_SgemmBatched, adjustLdLevel3", "src/kernels/cpu/dcn_v2_forward.cpp: DCNV2Forward::forward", "src/backend/torch/base_dcn_v2_forward.cpp: init, infer, run"]}
{"id": "C163", "title": "Quantized convolution multiplies exact integer sums by the scale of the channel", "statement": "Running conv2d_quantized on NCHW byte tensors gives, for every image, channel and output position, the integer sum over channels and kernel of weight times padded input (padding value without its fraction), converted to float and multiplied by the channel's dequantize scale, whatever the number of threads; the sums fit 32 bits. Inputs that are not bytes, mismatched channels and a number of scales other than the number of kernels are refused.", "quantifier": "all tensors, sizes, paddings, strides, dilations, padding values and scales; all orders in which threads take the channels", "why_tests_cant": "sums over all sizes, a special path for 1x1 kernels, and an output pointer shared by the threads of the dequantising loop; overflow needs inputs of more than a hundred thousand taps", "anchors": ["src/kernels/cpu/quantized/conv2d_quantized_core.cpp: cpu_conv2d_nchw_compute_run", "src/backend/base/base_conv2d_quantized.cpp: init, infer, run", "src/kernels/cpu/math_cpu.cpp: gemm, inline_dot"]}
{"id": "C164", "title": "Replacing a 3x3 convolution by Winograd's at compile time keeps the answer", "statement": "On the platforms where the compiler has this rule, compiling replaces exactly the CPU conv2d and conv2d_v2 nodes in NCHW with constant 3x3 kernels, at least 32 input and 32 output channels, stride 1 and dilation 1; the new node has the old one's padding, format and padding value, and gives the same answer on every input.", "quantifier": "all conv2d nodes with their attributes, all kernels, all inputs the window fits, all histories of earlier inputs", "why_tests_cant": "a test can try a few nodes; which attribute combinations are replaced and whether the answer stays the same for all weights and inputs is a statement over all of them", "anchors": ["src/compiler/option/winograd_zipper_option.cpp: Conv2dZipperOption::zip", "src/kernels/common/function.cpp: winograd_check", "src/compiler/zipper.cpp"]}
{"id": "C165", "title": "Random numbers stay in their ranges", "statement": "Whatever the seed and whatever calls follow, the random generator never leaves its table, next() is in [0, 2^31-1], u() in [0,1], next(min,max) in [min,max] (bounds in order), binomial(p) false for p<=0 and true for p>1; setting a seed makes everything that follows independent of what came before.", "quantifier": "all int seeds, all histories of calls, all roundings to double that keep the order and the ints", "why_tests_cant": "a test sees a few seeds; that shifts and exclusive ors never give a negative number or an index outside the table is a statement over all 2^32 seeds and all lengths of history", "anchors": ["src/utils/random.cpp: MT19937::srand, MT19937::rand, Random::next, Random::u, Random::binomial", "include/utils/random.h"]}
{"id": "C166", "title": "Packing a gemm at compile time keeps its answer", "statement": "The inner_prod, mul and add that the pack option puts in the place of a gemm give the gemm's answer for every input, whichever operands are constant or transposed and whatever alpha and beta are.", "quantifier": "all matrices of all sizes, all gemm nodes (transposed or not, constant or not, alpha, beta), all third operands that can be broadcast", "why_tests_cant": "a test runs a few models; that the rewriting keeps the meaning for every combination of attributes, sizes and values is a statement over all of them", "anchors": ["src/compiler/option/pack_translator_option.cpp: PackTranslatorOption::translate", "src/kernels/cpu/math_cpu.cpp: matrix_transpose"]}
{"id": "C167", "title": "Half precision translation keeps a batch_norm's answer", "statement": "When the half precision translation adds a batch_norm's epsilon to its constant variance and sets the epsilon to zero, the batch_norm gives, up to the rounding of half precision, the answer it gave before, for every input, and no other node's answer changes.", "quantifier": "all inputs, means, axes and epsilons; all ways in which the variance is computed from a constant", "why_tests_cant": "a test compiles a few models; what else uses the constant, and what lies between it and the batch_norm, is not bounded", "anchors": ["src/compiler/option/fp16_translator_option.cpp: Fp16TranslatorOption::translate (batch_norm)", "src/kernels/cpu/batch_norm.cpp"]}
{"id": "C168", "title": "Resampling by factors samples every axis where its factor says", "statement": "An output of sample2d_v2 has every axis of the size asked for, its size times its factor rounded down, and (cut-off sampling, its default) the element at a coordinate is that of the input at the coordinate times the ratio of the two sizes, rounded down, along every axis; the dtype and shape announced are those of the output; a wrong number of factors and an axis that would vanish are refused; a factor is honoured whatever it is.", "quantifier": "all tensors, ranks, sizes, factors, roundings of float, kinds of sampling (shapes), cut-off sampling (elements)", "why_tests_cant": "the axes resampled are found by searching the shape for a pair that changes, and the sizes are rounded products; a test fixes one picture and one factor", "anchors": ["src/kernels/cpu/sample2d_v2.cpp: ts::cpu::Sample2DV2", "src/backend/base/base_resize2d.cpp: ts::base::Resize2D"]}
{"id": "C169", "title": "Resampling by one factor keeps the picture", "statement": "sample2d multiplies two neighbouring axes by its factor, rounded down, and each pixel of the result is the pixel of the input (or the value interpolated there) at the coordinates divided by the factor; with the factor 1 it gives the picture back.", "quantifier": "all tensors, ranks, sizes, pairs of axes, factors, roundings of float", "why_tests_cant": "border pixels are decided by comparisons of rounded coordinates, for every size and factor; a test looks at one picture", "anchors": ["src/kernels/cpu/sample2d.cpp: ts::cpu::Sample2D", "src/kernels/cpu/affine_sample2d.cpp"]}
{"id": "C170", "title": "A graph built by calls named like operators computes those operators", "statement": "Each function that appends an operator to the graph makes one node, with the name given, that computes the operator the function is named after on the nodes given, in order and with the parameters given, leaves all other nodes alone, and carries every field that operator requires and none it does not know.", "quantifier": "all graphs, all functions of symbol.h, all inputs and parameters, whatever the operators compute", "why_tests_cant": "the wrong operator shows only when the graph runs, and for some inputs not even then; tests build a few graphs", "anchors": ["include/frontend/symbol.h: ts::symbol", "src/frontend/symbol.cpp", "src/frontend/desc.cpp: ts::desc", "src/module/menu.cpp: ts::bubble::bubble"]}
{"id": "C171", "title": "A stream in memory gives back what was written", "statement": "What is written to a stream in memory is read once, in order, whatever the interleaving of reads and writes and however reads cut it; a reader gives its string back, a writer holds what was written since it was emptied; setting or clearing the string makes a stream usable again.", "quantifier": "all byte strings, all histories of reads, writes, resets", "why_tests_cant": "the flags of the underlying stream carry over between calls; tests write once and read once", "anchors": ["include/module/io/sstream.h", "src/module/io/sstream.cpp: ts::StringStream, ts::StringStreamReader, ts::StringStreamWriter"]}
{"id": "C172", "title": "The profiler records every duration under its operator", "statement": "Operators under one profiler are numbered in the order they first run, the number, the operator and its name make a label no other shares, every duration is recorded once under its label in order, the log has one line per label with the mean of its durations, and clearing a label or the profiler forgets what it says.", "quantifier": "all histories of operators, timers and clearings; all names", "why_tests_cant": "the numbering and the tables depend on the whole history, and names come from models; tests time a few operators", "anchors": ["include/board/profiler.h: ts::Profiler", "src/board/profiler.cpp: ts::profiler_serial_timer", "include/board/board.h: ts::Statistics, ts::Board", "src/runtime/instruction.cpp"]}
{"id": "C173", "title": "The operators run only instructions the machine has", "statement": "The features found are those the processor has and the system saves registers for; the first library whose instructions the machine has is loaded once, when the main library does not fit; its operators are then the ones in use, whatever number of workbenches is made; the machine can run all that this library, or a main library that is kept, was compiled for; when none fits or is installed the workbench is refused and nothing changes; at the end of the process the first operators are back.", "quantifier": "all processor feature registers, all sets of installed libraries, all main libraries, all numbers of workbenches", "why_tests_cant": "tests run on one machine, which has what it has", "anchors": ["src/utils/cpu_info.cpp: CPUIDInfo, check_cpu_feature", "src/runtime/switcher.cpp: Switcher, SwitchControll", "src/runtime/workbench.cpp: check_cpu_features", "src/api/plugin.cpp", "cmake/tools.cmake: ts_add_instruction_support"]}
