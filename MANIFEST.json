{
 "claims": [
  {
   "property": "C01",
   "status": "proved",
   "theorems": [
    "C01_compile_correct",
    "C01_fold_and_compile_correct"
   ],
   "note": "also covers failure: an error leaves the caller's stack part untouched and happens only if some output has no value"
  },
  {
   "property": "C02",
   "status": "proved",
   "theorems": [
    "C02_compile_terminates",
    "C02_compile_succeeds_iff_acceptable"
   ],
   "note": "termination for every acyclic graph, and success exactly on acceptable graphs"
  },
  {
   "property": "C03",
   "status": "proved",
   "theorems": [
    "C03_constant_folding_preserves_meaning",
    "C03_constant_folding_terminates",
    "C03_constant_pack_refuted"
   ],
   "note": "meaning preserved in both directions and termination; additionally a witness that folding rejects _pack/_field over constants, which the unfolded compiler accepts"
  },
  {
   "property": "C04",
   "status": "proved",
   "theorems": [
    "C04_operator_instruction",
    "C04_operator_instruction_too_few"
   ],
   "note": ""
  },
  {
   "property": "C05",
   "status": "partial",
   "theorems": [
    "C05_nullary_operator_refuted",
    "C05_nullary_operator_partial"
   ],
   "note": "false of the code: with 0 inputs push_base(-0) keeps the caller's values in the operator's frame and erase(0,-1) drops them; holds for an empty frame"
  },
  {
   "property": "C06",
   "status": "partial",
   "theorems": [
    "C06_all_constant_outputs_refuted",
    "C06_all_constant_outputs_partial"
   ],
   "note": "false of the code when there are inputs: erase(0,-0) keeps the inputs; holds when there are none"
  },
  {
   "property": "C07",
   "status": "partial",
   "theorems": [
    "C07_launch_offline",
    "C07_launch_online",
    "C07_compiled_program_launch",
    "C07_launch_online_no_inputs_refuted"
   ],
   "note": "launch_offline (what run() uses) holds for every program, argument list and stack, filters and casts included, and errors restore the stack; launch_online of a program with no inputs on a non-empty frame is refuted"
  },
  {
   "property": "C08",
   "status": "partial",
   "theorems": [
    "C08_reshape_ok_iff",
    "C08_reshape_unique",
    "C08_reshape_error_partial",
    "C08_reshape_error_refuted"
   ],
   "note": "success characterised exactly; the 'error in all other cases' part is false: a wildcard together with a zero divides by zero"
  },
  {
   "property": "C09",
   "status": "proved",
   "theorems": [
    "C09_flatten"
   ],
   "note": ""
  },
  {
   "property": "C10",
   "status": "proved",
   "theorems": [
    "C10_to_index_is_position",
    "C10_to_coordinate_inverse",
    "C10_to_index_inverse",
    "C10_short_coordinate",
    "C10_count"
   ],
   "note": ""
  },
  {
   "property": "C100",
   "status": "partial",
   "theorems": [
    "C100_stack_partial",
    "C100_accepted",
    "C100_rank_refuted"
   ],
   "note": "Complete characterisation of success and refusal; refuted only for arguments with fewer axes than the first, where the new axis is inserted past the end of the shape."
  },
  {
   "property": "C101",
   "status": "partial",
   "theorems": [
    "C101_crop_to_partial",
    "C101_refused",
    "C101_no_memory",
    "C101_memory_refuted",
    "C101_repeat_refuted"
   ],
   "note": "Window proved for all ranks under the limits inherited from pad (C39); no memory for non-negative axes; refuted for negative axes, which the first run makes absolute (also: an out-of-range axis is refused once and accepted on the next identical call)."
  },
  {
   "property": "C102",
   "status": "partial",
   "theorems": [
    "C102_where_partial",
    "C102_accepted",
    "C102_types",
    "C102_low_byte_refuted",
    "C102_empty_refuted"
   ],
   "note": "Proved for positive sizes and conditions that are bytes. Refuted: a condition of 256 counts as false (only the low byte is kept), a size of zero broadcast with one leads to a remainder by zero."
  },
  {
   "property": "C103",
   "status": "partial",
   "theorems": [
    "C103_broadcast_partial",
    "C103_width",
    "C103_idempotent",
    "C103_empty_refuted"
   ],
   "note": "Proved for positive sizes. Refuted for size zero against one: the result has size one, or memory is read outside."
  },
  {
   "property": "C104",
   "status": "partial",
   "theorems": [
    "C104_range_partial",
    "C104_down_refuted",
    "C104_edges_refuted"
   ],
   "note": "Proved for positive steps with start below limit + step and for negative steps that divide the distance. Refuted: for every negative step that does not divide the distance the last number is missing; step zero divides by zero; some empty ranges fail or are not empty. INT32 only."
  },
  {
   "property": "C105",
   "status": "partial",
   "theorems": [
    "C105_winograd_partial",
    "C105_same_as_conv2d",
    "C105_first_weights",
    "C105_rationals",
    "C105_example",
    "C105_weights_refuted",
    "C105_negative_padding_refuted",
    "C105_kernel_size_refuted",
    "C105_after_refusal_refuted"
   ],
   "note": "Proved for every size, history and both tile sizes, over exact arithmetic. Refuted: other weights on a later run are ignored; negative paddings whose sum is zero are ignored; kernels that are not 3x3 and wrong channel counts are not refused; after a refused first run with the transformed attribute the kernel is uninitialised. Float rounding is not modelled."
  },
  {
   "property": "C106",
   "status": "partial",
   "theorems": [
    "C106_relu",
    "C106_relu_max",
    "C106_leaky_relu",
    "C106_hard_sigmoid",
    "C106_square",
    "C106_sqrt",
    "C106_rsqrt",
    "C106_exp",
    "C106_tanh",
    "C106_ceil",
    "C106_floor",
    "C106_sigmoid_partial",
    "C106_softplus_partial",
    "C106_softplus_first",
    "C106_sigmoid_unsigned",
    "C106_types",
    "C106_integers",
    "C106_softplus_refuted",
    "C106_sigmoid_refuted"
   ],
   "note": "Proved for all shapes for the named operators, for sigmoid of signed types and softplus of float. Refuted: softplus of any type but float repeats the function of the first element (C106_softplus_refuted); sigmoid of unsigned types does not negate its argument (C106_sigmoid_refuted). Numbers are exact and totally ordered; erf, elu and selu are not modelled."
  },
  {
   "property": "C107",
   "status": "proved",
   "theorems": [
    "C107_add_bias",
    "C107_batch_scale",
    "C107_batch_norm",
    "C107_prelu",
    "C107_fused",
    "C107_fused_is_norm_then_scale",
    "C107_refused"
   ],
   "note": "Over abstract exact numbers; the conversion to the element type and the square root are arbitrary functions."
  },
  {
   "property": "C108",
   "status": "partial",
   "theorems": [
    "C108_softmax_partial",
    "C108_smooth_does_not_matter",
    "C108_rows_sum_to_one",
    "C108_shift",
    "C108_refused",
    "C108_softmax_reals_partial",
    "C108_empty_refuted",
    "C108_integers_refuted"
   ],
   "note": "Proved for the two floating-point types with exact arithmetic, any field and any exponential obeying the listed laws (the real numbers are an instance). Refuted: integer types cut the quotients off (C108_integers_refuted); an axis of size zero is read in smooth mode (C108_empty_refuted)."
  },
  {
   "property": "C109",
   "status": "partial",
   "theorems": [
    "C109_l2_norm_partial",
    "C109_l2_rows",
    "C109_norm_image",
    "C109_image_mean",
    "C109_image_refused",
    "C109_single",
    "C109_single_refuted",
    "C109_image_empty_refuted",
    "C108_refused"
   ],
   "note": "Proved for floating-point types with exact arithmetic. Refuted: l2_norm along an axis of size one returns 1 for every element, also negative ones and zero (C109_single_refuted); norm_image of a tensor without images divides by zero (C109_image_empty_refuted)."
  },
  {
   "property": "C11",
   "status": "proved",
   "theorems": [
    "C11_iterator_visits_in_order",
    "C11_iterator_wraps",
    "C11_decrement_undoes"
   ],
   "note": ""
  },
  {
   "property": "C110",
   "status": "proved",
   "theorems": [
    "C110_history",
    "C110_refused",
    "C110_init",
    "C110_clear_params_loses_defaults",
    "C110_clear_fields_keeps_values"
   ],
   "note": "values abstract; two consequences shown by witness: clear_params also drops defaults, clear_fields keeps values of optional fields"
  },
  {
   "property": "C111",
   "status": "partial",
   "theorems": [
    "C111_create",
    "C111_order",
    "C111_defaults",
    "C111_clone",
    "C111_cleared_default_refuted"
   ],
   "note": "copies of operators made from a node are faithful; a default cleared afterwards comes back in a copy (refuted by witness)"
  },
  {
   "property": "C112",
   "status": "partial",
   "theorems": [
    "C112_cast_partial",
    "C112_refused",
    "C112_same",
    "C112_exact",
    "C112_embeds",
    "C112_round_trip",
    "C112_int_to_float_refuted",
    "C112_to_boolean_refuted"
   ],
   "note": "half floats only for refusal (their conversion is C49); not every integer survives float32 (2^24+1) and a non-zero number may become boolean false (256, 0.5): witnesses"
  },
  {
   "property": "C113",
   "status": "partial",
   "theorems": [
    "C113_string",
    "C113_to_int",
    "C113_to_int_number",
    "C113_to_int_empty",
    "C113_to_bool",
    "C113_silent_refuted"
   ],
   "note": "to_float/to_double/to_uint not modelled; texts out of range wrap, texts that are no number read as zero (witness)"
  },
  {
   "property": "C114",
   "status": "partial",
   "theorems": [
    "C114_slice",
    "C114_refused_partial",
    "C114_huge_size_refuted"
   ],
   "note": "C114_slice is the positive half, C114_refused_partial the negative one except where begin+size overflows a 32-bit integer; C114_huge_size_refuted shows that overflow is reachable (undefined instead of refused)."
  },
  {
   "property": "C115",
   "status": "partial",
   "theorems": [
    "C115_slice_v3_partial",
    "C115_defaults",
    "C115_negative_axis_refuted",
    "C115_short_ends_refuted"
   ],
   "note": "Proved for non-negative increasing axes, except an end equal to minus the axis length with a negative step (the inherited strided_slice defect, C36). The negative-axis half is false of the code (the axis is validated as negative and then used as an index) and lists of ends shorter than starts are read past their end: both refuted."
  },
  {
   "property": "C116",
   "status": "proved",
   "theorems": [
    "C116_topkv2",
    "C116_values_determined",
    "C116_scalar",
    "C116_refused"
   ],
   "note": "std::partial_sort enters as a function meeting its contract (insertion_contract shows one exists); a negative number is outside the claim."
  },
  {
   "property": "C117",
   "status": "proved",
   "theorems": [
    "C117_shape",
    "C117_unchanged",
    "C117_refused"
   ],
   "note": ""
  },
  {
   "property": "C118",
   "status": "partial",
   "theorems": [
    "C118_nearest",
    "C118_hard",
    "C118_resize_nearest_neighbor",
    "C118_empty_refuted",
    "C118_one_axis_refuted"
   ],
   "note": "Exact arithmetic stands for double/float (stated in ResizeModel.v). Reading outside the source happens for sources without pixels, and resize_nearest_neighbor writes outside its size list for one-axis tensors: both refuted."
  },
  {
   "property": "C119",
   "status": "partial",
   "theorems": [
    "C119_linear_partial",
    "C119_within",
    "C119_thin_refuted",
    "C119_repeated_size_refuted"
   ],
   "note": "Proved for sources of at least 2x2 in exact arithmetic. For a source one pixel high or wide, or when the request repeats a batch size of one and changes one axis only, the kernel reads outside the image: refuted."
  },
  {
   "property": "C12",
   "status": "partial",
   "theorems": [
    "C12_packed_tensor_histories_partial",
    "C12_pack_nothing_refuted",
    "C12_pack_packed_first_refuted"
   ],
   "note": "all histories without pack({}) ; pack({}) keeps stale fields, and a packed tensor in first position loses its fields"
  },
  {
   "property": "C120",
   "status": "partial",
   "theorems": [
    "C120_cubic_partial",
    "C120_weights",
    "C120_border_refuted",
    "C120_small_refuted"
   ],
   "note": "Proved for sources of at least 4x4 in exact arithmetic, with the code's positions. The border rule samples one pixel inside, so the outermost rows are lost, and smaller sources are read outside: refuted."
  },
  {
   "property": "C121",
   "status": "proved",
   "theorems": [
    "image_filter_runs_added_steps",
    "image_filter_view"
   ],
   "note": "Layers and constants are parameters of the theorem; the program denotes the graph it was compiled from (C01-C07 relate programs and graphs)."
  },
  {
   "property": "C122",
   "status": "partial",
   "theorems": [
    "image_filter_clone_partial",
    "image_filter_clone_refuted",
    "image_filter_clone_refuted_null",
    "image_filter_clone_refuted_stale",
    "image_filter_clone_refuted_append"
   ],
   "note": "Holds for filters with steps that were run or compiled after the last step, as long as nothing is added to the clone. Refuted: a filter without steps or never compiled dereferences a null program; a step added after the last run is lost; a step added to the clone replaces all earlier ones."
  },
  {
   "property": "C123",
   "status": "proved",
   "theorems": [
    "C123_force_gray",
    "C123_gray_unchanged",
    "C123_refused"
   ],
   "note": "The arithmetic of a pixel is a parameter, undefined conversions excluded; examples use IEEE single precision."
  },
  {
   "property": "C124",
   "status": "partial",
   "theorems": [
    "C124_force_color",
    "C124_color_unchanged",
    "C124_refused",
    "C124_colour_then_gray",
    "C124_colour_then_gray_refuted"
   ],
   "note": "The round trip is proved for both 8-bit types in IEEE single precision (all 256 values of each are decided by computation); refuted for 32-bit integers, whose sums have only 24 bits."
  },
  {
   "property": "C125",
   "status": "partial",
   "theorems": [
    "C125_prewhiten_partial",
    "C125_mean",
    "C125_refused",
    "C125_prewhiten_reals_partial",
    "C125_empty_refuted"
   ],
   "note": "Exact arithmetic over any field with any square root function (the reals are an instance). Refuted: a batch without images divides by zero."
  },
  {
   "property": "C126",
   "status": "partial",
   "theorems": [
    "C126_nearest",
    "C126_hard",
    "C126_linear_partial",
    "C126_cubic_partial",
    "C126_refused"
   ],
   "note": "nearest and hard for all images with pixels; linear and cubic in exact arithmetic, for images of at least 2 and 4 pixels each way; locations are exact rationals, negative sizes are not modelled"
  },
  {
   "property": "C127",
   "status": "partial",
   "theorems": [
    "C127_linear_partial",
    "C127_cubic_partial",
    "C127_point",
    "C127_identity_refuted",
    "C127_outside_refuted"
   ],
   "note": "what is computed is characterised exactly; the claim is false of the code: the last row and column are given the outer value even by the identity matrix, and hard sampling takes locations up to one pixel left of or above the image as inside. cubic likewise never samples near the border"
  },
  {
   "property": "C128",
   "status": "partial",
   "theorems": [
    "C128_letterbox_partial",
    "C128_refused",
    "C128_same_size_refuted"
   ],
   "note": "linear kernel, exact arithmetic, non-empty images; the last row and column of the image are never shown (a box of the size of the image does not return the image)"
  },
  {
   "property": "C129",
   "status": "partial",
   "theorems": [
    "C129_center_crop2d",
    "C129_crop_nd_partial",
    "C129_limit_partial",
    "C129_first_axis_refuted",
    "C129_empty_refuted"
   ],
   "note": "on the supported dtypes and non-empty tensors; false of the code: cropping the first of four axes accesses memory outside of the tensors (crop_nd, limit), and a crop to height 0 returns one row"
  },
  {
   "property": "C13",
   "status": "partial",
   "theorems": [
    "C13_tensor_round_trip_partial",
    "C13_nested_pack_refuted",
    "C13_fields_survive"
   ],
   "note": "Plain tensors and packs of plain tensors round-trip exactly. A tensor packed from packed tensors loses the inner fields (Tensor::serialize writes only each field's own head): witness."
  },
  {
   "property": "C130",
   "status": "partial",
   "theorems": [
    "C130_shift_partial",
    "C130_refused",
    "C130_first_axis_refuted"
   ],
   "note": "as C129: not when the first of four axes is cropped, which is undefined"
  },
  {
   "property": "C131",
   "status": "partial",
   "theorems": [
    "C131_sizes_partial",
    "C131_two",
    "C131_linear_partial",
    "C131_overflow_refuted"
   ],
   "note": "s * long must fit an int (otherwise undefined, not refused); pixels via C117-C120, shown for linear in exact arithmetic"
  },
  {
   "property": "C132",
   "status": "partial",
   "theorems": [
    "C132_divided_partial",
    "C132_refused",
    "C132_float_refuted",
    "C132_zero_refuted"
   ],
   "note": "sizes and strides up to 2^24, with the float conversion and division as IEEE binary32 round-to-nearest-even; above that refuted (2^24 + 1 stays short of the multiple); stride 0 is undefined"
  },
  {
   "property": "C133",
   "status": "partial",
   "theorems": [
    "C133_protocol_partial",
    "C133_failure",
    "C133_reason",
    "C133_operator_clean",
    "C133_new_tensor_partial",
    "C133_stale_refuted",
    "C133_silent_refuted",
    "C133_escapes_refuted"
   ],
   "note": "holds of functions with a return value whose bodies throw only ts::Exception and, for the empty message, run no init function of the user; refuted: a message left by a user's init function, void functions fail silently, other exceptions (a shape of negative length) leave the C function"
  },
  {
   "property": "C134",
   "status": "proved",
   "theorems": [
    "C134_isolated",
    "C134_same_result"
   ],
   "note": "the life time of the returned char pointer is not modelled"
  },
  {
   "property": "C135",
   "status": "partial",
   "theorems": [
    "C135_refused",
    "C135_defined_partial",
    "C135_position_partial",
    "C135_careless_refuted",
    "C135_position_refuted"
   ],
   "note": "refuted for 12 functions that use a pointer unchecked (ts_Tensor_reshape, ts_Module_LoadFromStreamV2, ...) and two whose message names the wrong position; elements of arrays of pointers and device->type are not modelled"
  },
  {
   "property": "C136",
   "status": "partial",
   "theorems": [
    "C136_checked_partial",
    "C136_level_refuted",
    "C136_api_refuted"
   ],
   "note": "holds up to the level ERROR; at FATAL no failed check throws any more and a failing C call succeeds"
  },
  {
   "property": "C137",
   "status": "partial",
   "theorems": [
    "C137_rounds_partial",
    "C137_refuted",
    "C137_documented_refuted"
   ],
   "note": "false of the code: every array is refused, because the loop runs once for each number instead of once for each output; the rounds themselves read what was sent"
  },
  {
   "property": "C138",
   "status": "partial",
   "theorems": [
    "C138_consistent_partial",
    "C138_link",
    "C138_defined",
    "C138_diverges_refuted"
   ],
   "note": "Agreement holds over all histories, and every call returns while no graph is destroyed and no node is replaced by itself. Refuted part: after a graph that shares inputs with another is destroyed, Link on the survivor loops for ever on the expired output."
  },
  {
   "property": "C139",
   "status": "partial",
   "theorems": [
    "C139_replaced_partial",
    "C139_self_refuted"
   ],
   "note": "Proved for different nodes; replacing a node that has outputs by itself appends to the vector being iterated, undefined behaviour."
  },
  {
   "property": "C14",
   "status": "partial",
   "theorems": [
    "C14_bubble_round_trip_partial",
    "C14_moved_refuted"
   ],
   "note": "Proved for every construction history that neither writes reserved '#' parameters directly nor moves the object. After a move (Bubble move constructor drops m_shape) the reloaded shape differs: witness."
  },
  {
   "property": "C140",
   "status": "proved",
   "theorems": [
    "C140_latest",
    "C140_keys_unique",
    "C140_converters"
   ],
   "note": ""
  },
  {
   "property": "C141",
   "status": "partial",
   "theorems": [
    "C141_strict",
    "C141_fallback_partial",
    "C141_unknown_device_refuted"
   ],
   "note": "Proved for every device with a registered memory device. Refuted part: for a device without one, the exception of ComputingMemory::Query leaves a noexcept function and the process terminates."
  },
  {
   "property": "C142",
   "status": "partial",
   "theorems": [
    "C142_bytes_partial",
    "C142_capacity",
    "C142_dispose_refuted"
   ],
   "note": "Refinement to a store of byte rows, for histories without dispose, without a refused resize and without moving onto bytes. Refuted part: dispose keeps the capacity, so a later resize to the same size leaves a null pointer with a positive capacity."
  },
  {
   "property": "C143",
   "status": "partial",
   "theorems": [
    "C143_owned_partial",
    "C143_refused_resize_refuted",
    "C143_move_refuted"
   ],
   "note": "Proved for the same histories. Refuted parts: a resize refused by the system frees the block and leaves the pointer (freed again by the destructor); move assignment onto a memory with bytes leaks them."
  },
  {
   "property": "C144",
   "status": "partial",
   "theorems": [
    "C144_prior_box_partial",
    "C144_flipped_float",
    "C144_init_twice_refuted",
    "C144_fraction_refuted"
   ],
   "note": "Proved for one init and any arithmetic in which the inverse of a ratio not close to one is not close to one (proved of binary32 numbers). Refuted: a second init appends to the variances, which are then read out of range; fractional sizes, step_h and step_w are cut off to integers."
  },
  {
   "property": "C145",
   "status": "partial",
   "theorems": [
    "C145_rows_partial",
    "C145_one_scale_partial",
    "C145_refused",
    "C145_ties_refuted",
    "C145_saturate_refuted",
    "C145_scale_of_row_refuted"
   ],
   "note": "proved for several scales or doubles, up to 2^24 elements and products that fit an int; with one scale and floats the result is a nearest integer, but halves go to even in the vector part and away from zero in the remainder (refuted); products beyond an int give -128 or are undefined (refuted); beyond 2^24 elements the scale of another row may be used (refuted); floats are rationals, the product is an arbitrary function"
  },
  {
   "property": "C146",
   "status": "partial",
   "theorems": [
    "C146_patches_partial",
    "C146_refused",
    "C146_corner_refuted",
    "C146_positions_refuted"
   ],
   "note": "proved for positions in [0, 1], one row of positions per image and exact arithmetic; the first row and column are the nearest ones unless the window starts above or left of the image: then they are rounded towards the image (refuted); fewer rows of positions than images are read out of bounds (refuted)"
  },
  {
   "property": "C147",
   "status": "partial",
   "theorems": [
    "C147_constant_partial",
    "C147_refused",
    "C147_hangs_refuted"
   ],
   "note": "proved for every non-empty value, on bytes; a value without elements never terminates (refuted); negative sizes are not modelled"
  },
  {
   "property": "C148",
   "status": "partial",
   "theorems": [
    "C148_tf_conv_partial",
    "C148_tf_pool_partial",
    "C148_onnx_pool_partial",
    "C148_mx_pool_partial",
    "C148_dragon_pool",
    "C148_dragon_conv_partial",
    "C148_stride_refuted",
    "C148_nhwc_refuted",
    "C148_checks_refuted",
    "C148_too_large_refuted",
    "C148_dragon_conv_refuted"
   ],
   "note": "the sizes and the sharing are proved for all sizes; refuted: with a stride two beyond the kernel SAME shifts the windows, NHWC convolutions are refused unless the kernel is as high as the image, a padding or stride over batch and channels is dropped instead of refused, NOTSET pads an input smaller than the kernel, Dragon's convolution interchanges SAME_UPPER and SAME_LOWER and forgets the dilation; float divisions are exact (proved up to 2^24)"
  },
  {
   "property": "C149",
   "status": "partial",
   "theorems": [
    "C149_counts",
    "C149_owner_uses",
    "C149_safe_partial",
    "C149_weak_refuted",
    "C149_dispose_refuted",
    "C149_threads_refuted"
   ],
   "note": "proved for all histories from one thread without explicit dispose(), except following a dangling weak pointer; refuted: a weak pointer to a dead object reads the deleted counter (C149_weak_refuted), an explicit dispose() counts the same owner twice (C149_dispose_refuted), and since use_count is a plain int two threads copying and destroying lose a count (C149_threads_refuted)"
  },
  {
   "property": "C15",
   "status": "partial",
   "theorems": [
    "C15_save_load_round_trip_partial"
   ],
   "note": "Full isomorphism and equality of the computed functions for modules whose attributes are as in C14; excluded: nested packed constants (C13) and moved attributes (C14)."
  },
  {
   "property": "C150",
   "status": "partial",
   "theorems": [
    "C150_clone_partial",
    "C150_clone_ends",
    "C150_clone_answers",
    "C150_independent",
    "C150_set",
    "C150_slots",
    "C150_hook_partial",
    "C150_names_refuted",
    "C150_lock_refuted",
    "C150_refused_refuted"
   ],
   "note": "proved for all histories, except: a clone has no input and output names, so run_hook on it reads outside of an empty vector (C150_names_refuted, for every program with inputs); a program with a clone of itself as a filter cannot be cloned, it waits for its own lock (C150_lock_refuted); a parameter that init refuses stays set (C150_refused_refuted)"
  },
  {
   "property": "C151",
   "status": "partial",
   "theorems": [
    "C151_yolo_partial",
    "C151_refused",
    "C151_empty_images_refuted",
    "C151_unsigned_refuted"
   ],
   "note": "Proved for signed and float types and images with pixels; refuted: empty images divide by zero, unsigned types are squashed without negation."
  },
  {
   "property": "C152",
   "status": "partial",
   "theorems": [
    "C152_poster_partial",
    "C152_inside",
    "C152_classes_refused",
    "C152_negative_threshold_refuted",
    "C152_channels_refuted",
    "C152_infer_refuted"
   ],
   "note": "Proved for layers that fit, thresholds >= 0 and exact arithmetic, for every conforming sort; refuted: negative threshold, unchecked channel count, inferred shapes."
  },
  {
   "property": "C153",
   "status": "partial",
   "theorems": [
    "C153_infer_partial",
    "C153_meaning_exists",
    "C153_meaning_unique",
    "C153_stale_refuted"
   ],
   "note": "Proved when the values already on the nodes are missing or right; refuted: a stale value survives relinking."
  },
  {
   "property": "C154",
   "status": "partial",
   "theorems": [
    "C154_groups_partial",
    "C154_ends",
    "C154_refs",
    "C154_order_refuted",
    "C154_lone_refuted",
    "C154_routes_refuted",
    "C154_single_output_refuted"
   ],
   "note": "Proved for single_output = single_input = false: termination, disjointness, convexity, exact inputs and outputs, decided outputs and inputs. The model refutes: two groups may need each other, so that no order to run them exists (order_refuted); a group of one node without inputs gets no outputs (lone_refuted); below a group of routes nothing is explored (routes_refuted); with single_output every group gets no inputs and outputs (single_output_refuted). Building the modules and single_input are not modelled."
  },
  {
   "property": "C155",
   "status": "partial",
   "theorems": [
    "C155_forward_partial",
    "C155_both",
    "C155_reverse_refuted",
    "C155_direction_refuted",
    "C155_references_refuted",
    "C155_empty_refuted"
   ],
   "note": "Proved: forward and bidirectional equal the recurrence and leave the stack as it was, when references into the deque survive the erasure in its middle (as in the usual libraries). Refuted: direction reverse computes the forward pass (m_direction is only ever 0 or 2); by the rules of std::deque the references ft and ot are dangling after the erase inside RunOperator, so strictly every run is undefined; an empty sequence is undefined. Activation functions, sums and products are parameters; clip and input_forget are not read by the code."
  },
  {
   "property": "C156",
   "status": "partial",
   "theorems": [
    "C156_handles_partial",
    "C156_all_finalised",
    "C156_bench",
    "C156_reinitialise_refuted",
    "C156_move_refuted",
    "C156_moved_from_refuted",
    "C156_function_refuted",
    "C156_origin_refuted",
    "C156_bound_refuted"
   ],
   "note": "Proved for histories that never initialise a context holding the handle of another device and never move onto one that holds a handle; the life of a bench is such a history (C156_bench). Refuted: re-initialising finalises the old handle with the new admin and id; move assignment leaks; a moved-from context keeps its pointer; where a moved-from std::function keeps its target a move leads to a double finalisation; origin_device is not moved; a context destroyed while bound makes the next Switch undefined."
  },
  {
   "property": "C157",
   "status": "partial",
   "theorems": [
    "C157_contexts_partial",
    "C157_new_bench",
    "C157_no_pool_left",
    "C157_clone",
    "C157_number",
    "C157_blas_refuted",
    "C157_moved_refuted",
    "C157_bench_refuted",
    "C157_one_thread_refuted",
    "C157_variable_refuted",
    "C157_stale_refuted"
   ],
   "note": "Proved for histories in which no moved-from context is cloned. Refuted: every construction or clone sets the process-wide BLAS thread count to the default; Workbench::clone destroys the pool it has just bound while it goes on to clone the desktop, and leaves the clone with a flow controller that its stack does not use; moved-from contexts have a null pool; an unreadable TENNIS_NUMBER_THREADS makes every construction throw."
  },
  {
   "property": "C158",
   "status": "partial",
   "theorems": [
    "C158_detections_partial",
    "C158_background_refuted",
    "C158_infer_refuted",
    "C158_priors_refuted"
   ],
   "note": "proved: for inputs that fit, the rows, their order, the survivors, the limit shrinking with eta, the choice of keep_top_k, the decoding of every box and the answer for nothing found, for every sort; numbers are exact rationals and exp is a parameter. Refuted in the code: with share_location and background_label_id = -1 every run fails; the announced shape [1,1,1,7] is not the computed one; a prior tensor without variances is read past its end"
  },
  {
   "property": "C159",
   "status": "partial",
   "theorems": [
    "C159_proposals_partial",
    "C159_images_refuted"
   ],
   "note": "proved: for one stride, that the call ends, stays inside its buffers and answers the survivors of the candidates, sorted, suppressed, cut and distributed as stated; numbers are exact rationals, sqrt, exp and the level are parameters, integer overflow is left out. Refuted in the code: scores and deltas are not moved on from image to image, every image uses the first image's (candidates read only the first image's numbers; appending others changes nothing)"
  },
  {
   "property": "C16",
   "status": "partial",
   "theorems": [
    "C16_format_code_checked_partial",
    "C16_truncated_after_header_refuted",
    "C16_truncated_in_node_refuted",
    "C16_bad_index_refuted"
   ],
   "note": "Only the format code is checked. Every saved file cut after the header loads as an empty module; a cut inside a node uses uninitialised values; an out-of-range node index reads outside the table."
  },
  {
   "property": "C160",
   "status": "partial",
   "theorems": [
    "C160_levels_partial",
    "C160_count",
    "C160_scales_refuted",
    "C160_overflow_refuted"
   ],
   "note": "proved: the numbering, the anchors and the choice when all the scales are the same, and the error for a total too large. Refuted in the code: only the first scale is ever used, and a total too small is written past the end of the row buffer before it is counted"
  },
  {
   "property": "C161",
   "status": "partial",
   "theorems": [
    "C161_aligned_partial",
    "C161_pools",
    "C161_image_refuted",
    "C161_columns_refuted",
    "C161_dtype_refuted"
   ],
   "note": "proved: shape, every element and its value for regions whose images exist, with exact rational arithmetic and no overflow of a conversion to int. Refuted in the code: an image number past the batch is read past the end of the maps, a table of fewer than five columns is read past its end, and other dtypes are announced but fail to run"
  },
  {
   "property": "C162",
   "status": "partial",
   "theorems": [
    "C162_dcn_partial",
    "C162_uneven_padding_refuted",
    "C162_dtype_refuted",
    "C162_mixed_types_refused",
    "C162_no_groups_refuted",
    "C162_offsets_refuted",
    "C162_group_refuted",
    "C162_nhwc_refuted"
   ],
   "note": "proved: shape, every element and its value when the offsets and masks have the sizes needed and the groups divide the channels, with exact rational arithmetic, on the modelled matrix product (both its scalar and vector form). Refuted in the code: offsets, masks and biases of other sizes are read past their ends, with channels not divisible by the groups the last channels use a group that does not exist, no groups divide by zero, and uneven padding, other dtypes and NHWC are announced but fail to run"
  },
  {
   "property": "C163",
   "status": "partial",
   "theorems": [
    "C163_quantized_partial",
    "C163_refused",
    "C163_sums_fit",
    "C163_overflow_refuted",
    "C163_threads_refuted",
    "C163_example"
   ],
   "note": "Proved for the build without OpenMP and sums that fit int32 (which up to 131071 taps of bytes always do). Refuted with OpenMP: the threads store through one shared pointer, so channels change places (C163_threads_refuted); refuted beyond 131071 taps (C163_overflow_refuted). Conversion to float and its product are left abstract, so rounding is not hidden."
  },
  {
   "property": "C164",
   "status": "partial",
   "theorems": [
    "C164_when",
    "C164_same_answer_partial",
    "C164_packed_refuted",
    "C164_stride_refuted"
   ],
   "note": "C164_when is the exact condition; C164_same_answer_partial: the same answer for conv2d with unpacked weights, no negative paddings and stride and dilation [1;1;1;1], over every field in which 2, 3 and 5 are not zero. Refuted: packed weights (kernel_packed is not looked at) and a stride over the images, which conv2d refuses, is forgotten. The rule is registered on ARM only (zipper.cpp). Not covered: that conv2d_winograd_v2 agrees with conv2d_v2; weights changed between runs and negative paddings are C105's refuted cases"
  },
  {
   "property": "C165",
   "status": "partial",
   "theorems": [
    "C165_ranges_partial",
    "C165_reseed",
    "C165_overflow_refuted",
    "C165_bounds_refuted",
    "C165_twister_refuted",
    "C165_uniform_refuted"
   ],
   "note": "Positive half, for ints that wrap around: no access outside the table and every answer in the documented range, for all seeds and histories (next(min,max) when max-min is an int); seeding starts afresh. Refuted: in standard C++ every seed overflows an int while the table is filled; bounds further apart than an int give numbers outside them; the numbers are not those of MT19937 as published (signed shifts), compared with a reference written out; next(0,1) is 1 for one draw in 2^31. Not modelled: exp, ray, weibull, normal (logarithms of doubles)"
  },
  {
   "property": "C166",
   "status": "partial",
   "theorems": [
    "C166_same_answer_partial",
    "C166_variable_refuted",
    "C166_one_constant_refuted",
    "C166_type_refuted",
    "C166_double_refuted",
    "C166_refusal_refuted"
   ],
   "note": "Positive half, over every commutative semiring: float gemm, whose second operand is constant if it is transposed, two different nodes if one is transposed, alpha and beta float and 1 or 0 exactly when near to it. Refuted: a second operand that is an input is not transposed; a constant that is both operands is transposed for both; a double alpha makes the answer double; a double gemm with a transposed constant is a compile error; inputs that gemm refuses are computed. That the constants are changed in place for the module that is compiled too is C31_pack_alters_the_module_refuted"
  },
  {
   "property": "C167",
   "status": "partial",
   "theorems": [
    "C167_same_answer_partial",
    "C167_operator_refuted",
    "C167_shared_refuted",
    "C167_module_refuted"
   ],
   "note": "Positive half in exact numbers: with only casts between the constant and the batch_norm it answers or refuses what it did before, for all inputs. Refuted: any other operator in between is taken for a cast; two batch_norms that share a constant both add their epsilon to it; the module that is compiled is changed. Not covered: the rounding to half precision (C46 has the conversion)"
  },
  {
   "property": "C168",
   "status": "partial",
   "theorems": [
    "C168_hard",
    "C168_accepted",
    "C168_announced",
    "C168_refused",
    "C168_vanishing_refused",
    "C168_whole_factor",
    "C168_reciprocal_refuted",
    "C168_negative_refuted",
    "C168_height_refuted"
   ],
   "note": "Shapes for every kind of sampling, elements for cut-off sampling, whatever the factors and whatever the rounding of float; the interpolating kinds are those of C117-C120. Refuted: the float nearest to 1/41 takes 41 pixels to none; a negative factor is ignored; doubling only the height of a single picture resamples the first two axes and, interpolating, reads outside of the image (witnesses)."
  },
  {
   "property": "C169",
   "status": "partial",
   "theorems": [
    "C169_point",
    "C169_linear_partial",
    "C169_refused",
    "C169_announced",
    "C169_identity_refuted"
   ],
   "note": "Positive half: shape, and every pixel whose place is before the last row and column, for the nearest, cut-off and linear kinds (coordinates in exact numbers, the reciprocal of the factor and the sizes rounded). Refuted: places in the last row or column become zero, so with the factor 1 every picture loses its last row and column (theorem for all pictures)."
  },
  {
   "property": "C17",
   "status": "proved",
   "theorems": [
    "C17_ecb_inverse",
    "C17_ecb_injective"
   ],
   "note": ""
  },
  {
   "property": "C170",
   "status": "partial",
   "theorems": [
    "C170_symbol_partial",
    "C170_linked",
    "C170_fields",
    "C170_concat_is_gather",
    "C170_broadcast_is_matmul",
    "C170_concat_refuted",
    "C170_broadcast_refuted",
    "C170_default_dim_refuted"
   ],
   "note": "Holds for every function but two: symbol::concat builds a gather (witness with the kernels: (5,6,7) and (2,0) give (7,5)) and symbol::broadcast a matrix product. The default axis -1 of affine_sample2d is refused for every input."
  },
  {
   "property": "C171",
   "status": "partial",
   "theorems": [
    "C171_queue_partial",
    "C171_reader",
    "C171_reader_all",
    "C171_writer_partial",
    "C171_dead_refuted",
    "C171_writer_str_refuted",
    "C171_overwrite_refuted"
   ],
   "note": "Positive half: a queue until a read asks for more than there is; readers and writers without that condition. Refuted: after one short read every write reports success and is lost, for good, whatever is done to the string; StringStreamWriter::str(buffer) does nothing; a stream made with a string is overwritten from its start."
  },
  {
   "property": "C172",
   "status": "partial",
   "theorems": [
    "C172_number",
    "C172_distinct",
    "C172_recorded_partial",
    "C172_mean",
    "C172_clear_refuted",
    "C172_percent_refuted",
    "C172_clean_refuted"
   ],
   "note": "Positive half: every history without Board::clean of operators whose names have no percent sign. Refuted: Board::clear clears a copy, so nothing; a name with a percent sign is read as a format (undefined for %s, and for a lone %); Profiler::clean keeps the times and forgets the numbers, so two operators share one."
  },
  {
   "property": "C173",
   "status": "partial",
   "theorems": [
    "C173_features",
    "C173_choice",
    "C173_switch_partial",
    "C173_instructions_partial",
    "C173_instructions_refuted",
    "C173_refusal_refuted"
   ],
   "note": "Positive half: detection, choice, switching; what libraries are compiled for is safe on machines that have AVX2 whenever they have AVX. Refuted: the sandy_bridge and haswell libraries are compiled with -mavx2 but AVX2 is not checked, so a Sandy Bridge (AVX only) or a Piledriver (AVX, FMA) is given instructions it lacks; a refused workbench leaves a switcher whose destructor dereferences a null table."
  },
  {
   "property": "C18",
   "status": "proved",
   "theorems": [
    "C18_stream_round_trip",
    "C18_file_contents"
   ],
   "note": "Read sizes that fit in an int; once the data is exhausted a read reports 0 bytes or an exception."
  },
  {
   "property": "C19",
   "status": "partial",
   "theorems": [
    "C19_no_overread_partial",
    "C19_corrupt_file_refuted"
   ],
   "note": "No over-read when the padding byte is at most 16; otherwise witness: the padding byte is not checked."
  },
  {
   "property": "C20",
   "status": "proved",
   "theorems": [
    "C20_blocks_do_not_overlap",
    "C20_free_answers",
    "C20_dispose_releases_all"
   ],
   "note": "Above any correct system allocator (which may fail at any call), including undefined behaviour (index outside the idle list, region given back twice) as a distinct outcome that is shown not to occur."
  },
  {
   "property": "C21",
   "status": "partial",
   "theorems": [
    "C21_idle_ordered_refuted",
    "C21_idle_ordered_partial"
   ],
   "note": "The full property is false of the code: freeing 5 then 10 bytes leaves the idle list 10,5. Proved: all but the last entry is ordered; C68 shows that this suffices for reuse."
  },
  {
   "property": "C22",
   "status": "proved",
   "theorems": [
    "C22_memset_fills",
    "C22_empty_pattern_refuted"
   ],
   "note": "For n = 0 (outside the property) the call never returns."
  },
  {
   "property": "C23",
   "status": "partial",
   "theorems": [
    "C23_coherent_partial",
    "C23_one_copy_per_device",
    "C23_on_the_device",
    "C23_stale_handle_refuted"
   ],
   "note": "Proved for all histories in which a handle is not used after another handle's broadcast; such a use reads freed memory: witness."
  },
  {
   "property": "C24",
   "status": "proved",
   "theorems": [
    "C24_at_most_once",
    "C24_join_waits",
    "C24_everything_completes"
   ],
   "note": ""
  },
  {
   "property": "C25",
   "status": "proved",
   "theorems": [
    "C25_writer_is_alone",
    "C25_counters_exact"
   ],
   "note": ""
  },
  {
   "property": "C26",
   "status": "proved",
   "theorems": [
    "C26_no_lost_wakeup"
   ],
   "note": ""
  },
  {
   "property": "C27",
   "status": "partial",
   "theorems": [
    "C27_split_bins_partial",
    "C27_split_bins_below_2_30",
    "C27_balanced",
    "C27_split_bins_refuted",
    "C27_parallel_ranges",
    "C27_parallel_run"
   ],
   "note": "Exact for all ranges where anchor+step does not overflow int (in particular all non-negative ranges below 2^30); near INT_MAX signed overflow: witness."
  },
  {
   "property": "C28",
   "status": "proved",
   "theorems": [
    "C28_loop_is_flat",
    "C28_steps_in_order",
    "C28_clone",
    "C28_moved_from_refuted"
   ],
   "note": "For iterations without null pointers; a moved-from descriptor in a group puts one there and the loop reads it. Ownership of the nodes by descriptors is not modelled."
  },
  {
   "property": "C29",
   "status": "proved",
   "theorems": [
    "C29_sort_inputs_nodes",
    "C29_sort_inputs_names",
    "C29_permutation_refuted"
   ],
   "note": "Exact characterisation of success and of the resulting inputs for both overloads; the stronger reading 'permutation of the parameters' is refuted (duplicates and foreign nodes accepted)."
  },
  {
   "property": "C30",
   "status": "proved",
   "theorems": [
    "C30_reference_nodes_topological",
    "C30_reference_nodes_terminates",
    "C30_node_refs_exact"
   ],
   "note": ""
  },
  {
   "property": "C31",
   "status": "partial",
   "theorems": [
    "C31_translate_preserves_meaning",
    "C31_translate_without_rules_is_a_copy",
    "C31_zip_preserves_meaning",
    "C31_zip_without_rules_is_identity",
    "C31_existing_node_rule_refuted",
    "C31_pack_alters_the_module_refuted",
    "C31_pack_shared_constant_refuted"
   ],
   "note": "Proved for every list of rules satisfying the small local soundness condition of TransSpec.v, for every graph; identity/isomorphism for rules that never apply. Refuted for the packing rule the code installs by default: it rewrites the constant of the original graph in place, so a shared constant or a second compilation of the same module gets a wrong kernel; and for rules that return an existing node. The gemm rewriting of the packing rule is not modelled."
  },
  {
   "property": "C32",
   "status": "proved",
   "theorems": [
    "C32_concat",
    "C32_unique",
    "C32_once"
   ],
   "note": "model of base_concat.cpp and concat.cpp; success, refusal and all output elements"
  },
  {
   "property": "C33",
   "status": "partial",
   "theorems": [
    "C33_chunk",
    "C33_chunk_concat_partial",
    "C33_divisor",
    "C33_five_in_four_refuted"
   ],
   "note": "holds whenever chunk succeeds; chunk reads past the bin list for accepted requests such as 5 elements in 4 chunks"
  },
  {
   "property": "C34",
   "status": "proved",
   "theorems": [
    "C34_transpose",
    "C34_unique",
    "C34_once"
   ],
   "note": "model of base_transpose.cpp and transpose.cpp incl. the vectorised three channel loops"
  },
  {
   "property": "C35",
   "status": "partial",
   "theorems": [
    "C35_default_refuted",
    "C35_vector_partial"
   ],
   "note": "false for the code: both last entries of the default permutation become the last axis"
  },
  {
   "property": "C36",
   "status": "partial",
   "theorems": [
    "C36_axis_partial",
    "C36_axis_refuted",
    "C36_determined",
    "C36_tensor_partial",
    "C36_refused",
    "C36_zero_step_refuted"
   ],
   "note": "Proved for all sizes, bounds, masks and non-zero steps, on one axis and for whole tensors (including trailing axes that are not sliced), except an unmasked end equal to minus the size with a negative step, where the code includes element 0 (refuted with a witness). A zero step is only logged."
  },
  {
   "property": "C37",
   "status": "proved",
   "theorems": [
    "C37_tile",
    "C37_refused",
    "C37_once",
    "C37_ones"
   ],
   "note": "All shapes (empty ones included), all repeats (zero included), both operators; element types the kernel does not implement are refused."
  },
  {
   "property": "C38",
   "status": "partial",
   "theorems": [
    "C38_gather_partial",
    "C38_axis_refused",
    "C38_negative_refuted",
    "C38_range_refuted"
   ],
   "note": "Proved for in-range indices; refuted for negative indices combined with a negative axis (reads outside the shape). Indices out of range are not refused but read outside the tensor (proved)."
  },
  {
   "property": "C39",
   "status": "partial",
   "theorems": [
    "C39_pad_partial",
    "C39_crop_undoes",
    "C39_wrong_rank",
    "C39_unsupported",
    "C39_crop_batch_refuted",
    "C39_crop_batch_always_undefined",
    "C39_crop_everything_refuted"
   ],
   "note": "Proved for every rank, size and padding (negative included) with result sides of at least one and a type with a kernel; for rank 4 the first axis must not be cropped: there the code leaves its buffers (proved for all sizes). A crop of a whole axis yields side one instead of an empty tensor or an error."
  },
  {
   "property": "C40",
   "status": "proved",
   "theorems": [
    "C40_round_trip",
    "C40_other_order",
    "C40_space_to_batch",
    "C40_batch_to_space",
    "C40_refused",
    "C40_negative_padding_refuted",
    "C40_empty_batch_refuted"
   ],
   "note": "Both orders, all shapes, blocks and non-negative paddings; the two operators are also related element by element to the TensorFlow definition. Outside: negative paddings are not refused and store outside the buffer (refuted by witness), an empty batch is refused by batch-to-space."
  },
  {
   "property": "C41",
   "status": "partial",
   "theorems": [
    "C41_broadcasting_partial",
    "C41_broadcasting_commutative_partial",
    "C41_refused",
    "C41_shape_unique",
    "C41_shape_symmetric",
    "C41_promotion_symmetric",
    "C41_exchange",
    "C41_modulus_refuted",
    "C41_half_refuted"
   ],
   "note": "proved for subtraction, division, maximum, addition and multiplication, all shapes including empty ones and the shape-merging, scalar, bias and vector paths; refuted for the modulus with the smaller operand on the left (operands exchanged) and for half floats (promoted but not supported)"
  },
  {
   "property": "C42",
   "status": "proved",
   "theorems": [
    "C42_greedy_selection",
    "C42_determined",
    "C42_overlap"
   ],
   "note": "boxes and scores are the rationals the finite floats denote, arithmetic exact; the priority queue is any function meeting the library's contract (list_top_ok shows one exists)"
  },
  {
   "property": "C43",
   "status": "partial",
   "theorems": [
    "C43_int32_partial",
    "C43_float32_partial",
    "C43_negative_floats_refuted",
    "C43_int64_refuted",
    "C43_short_types_refuted",
    "C43_axis_refused"
   ],
   "note": "Proved for INT32 and for FLOAT32 without negative numbers. False for the rest: the kernel is chosen by the type of the output (always INT32), so the input is read as int32 whatever its type: of -1.0 and -2.0 it chooses -2.0, of the INT64 values 5 7 1 the smallest, and for types of fewer than four bytes it reads outside its input."
  },
  {
   "property": "C44",
   "status": "partial",
   "theorems": [
    "C44_gather",
    "C44_gatherv2",
    "C44_argmax",
    "C44_max",
    "C44_reduce_sum",
    "C44_batch_to_space",
    "C44_space_to_batch",
    "C44_tile",
    "C44_transpose_partial",
    "C44_transpose_default_refuted",
    "C44_eltwise_partial",
    "C44_eltwise_type_refuted",
    "C44_concat_partial",
    "C44_concat_refuted",
    "C44_chunk_partial",
    "C44_chunk_refuted",
    "C44_reduce_mean_partial",
    "C44_reduce_mean_refuted",
    "C44_pad_partial",
    "C44_pad_refuted",
    "C44_nms_partial",
    "C44_nms_refuted"
   ],
   "note": "Proved without restriction for gather, gatherv2, argmax, max, reduce_sum, batch_to_space4d, space_to_batch4d and tile. Refuted in the code for transpose without a permutation, the type of element-wise operators on mixed types, concat and chunk with an unknown size, reduce_mean with axes counted from both ends, pad that leaves nothing of an axis and non_max_suppression_v3 with few boxes; proved for the remaining cases of these. The other operators' inferers are not modelled."
  },
  {
   "property": "C45",
   "status": "partial",
   "theorems": [
    "C45_split",
    "C45_join_split",
    "C45_split_join",
    "C45_empty_list_refuted"
   ],
   "note": "Proved in full except for the empty list, which comes back as a list of one empty string."
  },
  {
   "property": "C46",
   "status": "proved",
   "theorems": [
    "C46_last_word_wins"
   ],
   "note": "For options with distinct spellings, down to the argument string (splitting at blanks, device words skipped)."
  },
  {
   "property": "C47",
   "status": "proved",
   "theorems": [
    "C47_nested_contexts"
   ],
   "note": ""
  },
  {
   "property": "C48",
   "status": "partial",
   "theorems": [
    "C48_behaves_like_a_list_partial",
    "C48_push_back_refuted",
    "C48_range_refuted",
    "C48_resize_refuted"
   ],
   "note": "Within the capacity, without resize on a non-empty vector. False otherwise: push_back, insert and the range constructor write past the buffer without an error; resize drops the contents."
  },
  {
   "property": "C49",
   "status": "partial",
   "theorems": [
    "C49_round_trip",
    "C49_always_finite",
    "C49_value_partial",
    "C49_monotone_partial",
    "C49_monotone_refuted",
    "C49_subnormal_refuted"
   ],
   "note": "The round trip and the absence of infinities and NaNs are proved in full, for all pairs of formats; value and monotonicity for numbers that are normal in both formats. Subnormal numbers are converted wrongly: the code treats exponent 0 as a normal exponent, so 2^-15 becomes 0 while 2^-16 becomes 2^-24, and the smallest half becomes a number 512 times as large."
  },
  {
   "property": "C50",
   "status": "partial",
   "theorems": [
    "C50_add",
    "C50_sub",
    "C50_neg",
    "C50_mul_partial",
    "C50_div_partial",
    "C50_div_zero",
    "C50_order_partial",
    "C50_equal",
    "C50_integer",
    "C50_to_integer",
    "C50_negative_refuted",
    "C50_negative_product_undefined_refuted"
   ],
   "note": "Sum, difference, negation, equality and integer conversion are proved for all words; product, quotient and order only for operands that are not negative (order: of the same sign). False otherwise: the operators use the unsigned word, so -1 < 1 is false, -1 / 2 is 7.5, and the product of two small negative numbers overflows a signed integer."
  },
  {
   "property": "C51",
   "status": "proved",
   "theorems": [
    "C51_each_operator_once"
   ],
   "note": ""
  },
  {
   "property": "C52",
   "status": "partial",
   "theorems": [
    "C52_each_operator_once_partial",
    "C52_sharing_partial",
    "C52_folding_keeps_sharing_refuted"
   ],
   "note": "False of the code when an output is asked for twice or is needed by a later output: run_const_nodes passes the same variable as key and result, so the node is duplicated. Proved for every other list of outputs (in particular a single output): the instructions of the folded program evaluate pairwise different operators of the original graph."
  },
  {
   "property": "C53",
   "status": "partial",
   "theorems": [
    "C53_offline_run_isolated",
    "C53_offline_run_error_restores_stack",
    "C53_intime_run_isolated",
    "C53_online_run_isolated_refuted"
   ],
   "note": "holds for offline_run and intime::run; false for online_run, which passes the size of the whole frame as the argument count"
  },
  {
   "property": "C54",
   "status": "proved",
   "theorems": [
    "C54_run_after_any_history",
    "C54_input_sets_one_slot"
   ],
   "note": ""
  },
  {
   "property": "C55",
   "status": "partial",
   "theorems": [
    "C55_inputs_given_partial",
    "C55_slots_partial",
    "C55_setup_discards_old_values_refuted"
   ],
   "note": "False of the code before the new inputs are given: setup resizes the input and output vectors instead of clearing them. Proved: once every input of the new program is given, run answers and leaves everything as if the past had never been; setting up no program forgets everything; slots above the old count are empty."
  },
  {
   "property": "C56",
   "status": "partial",
   "theorems": [
    "C56_slice",
    "C56_slice_out_of_range_refuted"
   ],
   "note": "in-range slices proved; out-of-range slices are not rejected by the code"
  },
  {
   "property": "C57",
   "status": "proved",
   "theorems": [
    "C57_has_shape"
   ],
   "note": ""
  },
  {
   "property": "C58",
   "status": "proved",
   "theorems": [
    "C58_load_by_names"
   ],
   "note": "iff characterisation"
  },
  {
   "property": "C59",
   "status": "proved",
   "theorems": [
    "C59_load_finds_parameters"
   ],
   "note": "iff characterisation, with termination"
  },
  {
   "property": "C60",
   "status": "proved",
   "theorems": [
    "C60_writers_go_first"
   ],
   "note": ""
  },
  {
   "property": "C61",
   "status": "proved",
   "theorems": [
    "C61_thread_join_waits"
   ],
   "note": ""
  },
  {
   "property": "C62",
   "status": "partial",
   "theorems": [
    "C62_busy_refuted",
    "C62_busy_partial"
   ],
   "note": "Thread::busy answers false while the worker executes (try_lock fails); answers true only for outstanding tasks; a non-busy pool has executed everything."
  },
  {
   "property": "C63",
   "status": "partial",
   "theorems": [
    "C63_destructor_returns_refuted",
    "C63_destructor_returns_partial"
   ],
   "note": "Lost wake-up: running=false and notify without holding the mutex; otherwise returns within 7 steps."
  },
  {
   "property": "C64",
   "status": "partial",
   "theorems": [
    "C64_begun_partial",
    "C64_at_most_last_partial",
    "C64_task_survives_destruction_refuted"
   ],
   "note": "Witness schedule in which the task is dropped. Proved for all schedules: tasks are executed in order, at most the last one handed over is missing, and none is missing if the worker has begun or finished it when the destructor is called."
  },
  {
   "property": "C65",
   "status": "proved",
   "theorems": [
    "C65_fips197",
    "C65_any_key"
   ],
   "note": ""
  },
  {
   "property": "C66",
   "status": "proved",
   "theorems": [
    "C66_cbc_chain",
    "C66_ctr_key_stream",
    "C66_ctr_vector",
    "C66_cbc_inverse",
    "C66_cbc_pieces",
    "C66_ctr_involution"
   ],
   "note": ""
  },
  {
   "property": "C67",
   "status": "partial",
   "theorems": [
    "C67_whole_key_partial",
    "C67_short_key_refuted"
   ],
   "note": "AES_init_ctx_iv passes the caller's key, not the completed one, to KeyExpansion."
  },
  {
   "property": "C68",
   "status": "proved",
   "theorems": [
    "C68_idle_blocks_are_reused"
   ],
   "note": ""
  },
  {
   "property": "C69",
   "status": "proved",
   "theorems": [
    "C69_summary"
   ],
   "note": ""
  },
  {
   "property": "C70",
   "status": "partial",
   "theorems": [
    "C70_memory_owns_its_block_partial",
    "C70_dispose_refuted",
    "C70_failed_resize_refuted"
   ],
   "note": "Proved without dispose() and with a system allocator that answers; false with them (dispose keeps the capacity; a failed resize keeps the pointer it gave back and the destructor throws)."
  },
  {
   "property": "C71",
   "status": "partial",
   "theorems": [
    "C71_update_partial",
    "C71_update_empty_group_refuted",
    "C71_update_overflow_refuted"
   ],
   "note": "Proved when every group that is run has something to run and the count fits 64 bits; false otherwise (use after free; the whole loop is dropped)."
  },
  {
   "property": "C72",
   "status": "partial",
   "theorems": [
    "C72_symmetric",
    "C72_equal_is_zero",
    "C72_bounded",
    "C72_zero_means_equal_refuted",
    "C72_one_edit_refuted"
   ],
   "note": "The last part is false: ab and abb are at distance 0."
  },
  {
   "property": "C73",
   "status": "partial",
   "theorems": [
    "C73_map_device",
    "C73_map_device_only",
    "C73_cyclic_map_refuted"
   ],
   "note": "Proved whenever the chain ends; -v:gpu:cuda makes it run for ever."
  },
  {
   "property": "C74",
   "status": "proved",
   "theorems": [
    "C74_equal_iff_same",
    "C74_total_order",
    "C74_order_transitive",
    "C74_too_long",
    "C74_dictionary_refuted"
   ],
   "note": ""
  },
  {
   "property": "C75",
   "status": "partial",
   "theorems": [
    "C75_split_partial",
    "C75_split_concat_partial",
    "C75_too_large_refuted",
    "C75_too_small_refuted"
   ],
   "note": "holds for sizes that add up; other sizes are not refused"
  },
  {
   "property": "C76",
   "status": "proved",
   "theorems": [
    "C76_back",
    "C76_nhwc"
   ],
   "note": "from C34 and uniqueness"
  },
  {
   "property": "C77",
   "status": "partial",
   "theorems": [
    "C77_shrink_partial",
    "C77_new_axis_partial",
    "C77_ellipsis_partial",
    "C77_ellipsis_refuted",
    "C77_ellipsis_undefined",
    "C77_new_axis_refuted",
    "C77_shrink_refuted"
   ],
   "note": "Proved for every tensor: axes with the shrink bit that keep one index are removed and others are refused; new axes slice the tensor with axes of size one inserted; an ellipsis covering at least one axis stands for whole axes. Refuted: an ellipsis covering no axis leaves an axis of size one; too few axes around an ellipsis read outside the shape; the new-axis bit does not ignore begin and end; x[-1] encoded as (-1, 0) with the shrink bit is refused."
  },
  {
   "property": "C78",
   "status": "proved",
   "theorems": [
    "C78_gather_nd",
    "C78_refused"
   ],
   "note": "All shapes and in-range index rows."
  },
  {
   "property": "C79",
   "status": "partial",
   "theorems": [
    "C79_take_along_partial",
    "C79_elements_refuted",
    "C79_negative_axis_refuted"
   ],
   "note": "Proved when the index tensor has size one on the axis and the axis is not negative. Refuted otherwise: with more indices along the axis elements are never written, and every negative axis reads outside the shape."
  },
  {
   "property": "C80",
   "status": "partial",
   "theorems": [
    "C80_scatter_partial",
    "C80_rows_refuted"
   ],
   "note": "Proved for one index per row (rows of the first axis). Refuted for longer index rows."
  },
  {
   "property": "C81",
   "status": "partial",
   "theorems": [
    "C81_equal_partial",
    "C81_equal_ranks_refuted"
   ],
   "note": "proved for operands of one rank, or the same shape up to leading ones, or one of them a single element; refuted for all other pairs of different ranks: the kernel reads past the shorter shape"
  },
  {
   "property": "C82",
   "status": "partial",
   "theorems": [
    "C82_promotion_keeps_values_iff",
    "C82_promotion_refuted"
   ],
   "note": "the exact set of pairs for which it holds is proved; refuted for the others, e.g. INT8 with UINT8, UINT8 with UINT16"
  },
  {
   "property": "C83",
   "status": "proved",
   "theorems": [
    "C83_max",
    "C83_axis_refused"
   ],
   "note": ""
  },
  {
   "property": "C84",
   "status": "partial",
   "theorems": [
    "C84_sum",
    "C84_axis_refused",
    "C84_mean_partial",
    "C84_wrapped_axes_refuted"
   ],
   "note": "Sum in full; mean for runs of axes written all from the front or all from the back. The check that axes are consecutive runs before negative axes are resolved: [-1, 0] is accepted and the input read outside its memory, while [0, -1] of a matrix is refused."
  },
  {
   "property": "C85",
   "status": "proved",
   "theorems": [
    "C85_comparisons"
   ],
   "note": "For finite numbers; C85_nan records that NaN equals itself."
  },
  {
   "property": "C86",
   "status": "partial",
   "theorems": [
    "C86_first_output_is_cast_partial",
    "C86_inputs",
    "C86_output_type_refuted"
   ],
   "note": "Holds for the first output; false in general: an output already visited as an inner node is left in half precision (the memo table is keyed by node only)."
  },
  {
   "property": "C87",
   "status": "partial",
   "theorems": [
    "C87_gemm",
    "C87_leading_dimensions",
    "C87_small_alpha_refuted",
    "C87_example"
   ],
   "note": "Proved over any commutative semiring with exact arithmetic (rounding is not modelled), for factors that the code's near() does not confuse with 0 or 1. Refuted for the float type and 0 < |alpha| < 2^-23, which is taken for zero: the product is dropped."
  },
  {
   "property": "C88",
   "status": "partial",
   "theorems": [
    "C88_packed_partial",
    "C88_pack",
    "C88_factors",
    "C88_double_refuted",
    "C88_example"
   ],
   "note": "Proved for float with exact arithmetic over any commutative semiring. Refuted for double: the generic kernel body is empty, so nothing is stored."
  },
  {
   "property": "C89",
   "status": "partial",
   "theorems": [
    "C89_conv2d_partial",
    "C89_kernel_packed",
    "C89_refused",
    "C89_double_refuted",
    "C89_too_large_refuted",
    "C89_example"
   ],
   "note": "Proved for float32 with exact arithmetic (any commutative semiring), when a window fits. Refuted for double (the output is never written) and for windows that do not fit with a stride above one (integer division rounds towards zero, so one output element appears)."
  },
  {
   "property": "C90",
   "status": "partial",
   "theorems": [
    "C90_gemm_partial",
    "C90_refused",
    "C90_example"
   ],
   "note": "Proved with exact arithmetic over any commutative semiring, for factors that near() does not confuse with 0 or 1 (C87 refutes the others); rounding is not modelled."
  },
  {
   "property": "C91",
   "status": "partial",
   "theorems": [
    "C91_inner_prod_partial",
    "C91_kernel_packed",
    "C91_double_refuted",
    "C91_example"
   ],
   "note": "Proved for float with exact arithmetic; refuted for double, whose output is never written."
  },
  {
   "property": "C92",
   "status": "partial",
   "theorems": [
    "C92_matmul_partial",
    "C92_batch",
    "C92_single",
    "C92_example"
   ],
   "note": "Proved for float with exact arithmetic; relies on inner_prod, so it is refuted for double like C91."
  },
  {
   "property": "C93",
   "status": "partial",
   "theorems": [
    "C93_max_partial",
    "C93_average",
    "C93_windows_meet",
    "C93_refused",
    "C93_outside_refuted",
    "C93_one_refuted",
    "C93_double_refuted",
    "C93_example"
   ],
   "note": "Average proved in the element arithmetic itself (the order of additions included); maximum proved for every order without NaN when all windows meet the image. Refuted: a window wholly in the padding reads outside the image; the 3x3 stride-2 kernel reads past one-row or one-column images with padding one; for double the 2x2 and 3x3 stride-2 kernels are empty. Sizes are computed exactly in the model (float in the code)."
  },
  {
   "property": "C94",
   "status": "proved",
   "theorems": [
    "C94_global"
   ],
   "note": ""
  },
  {
   "property": "C95",
   "status": "partial",
   "theorems": [
    "C95_pooling_partial",
    "C95_convolution_partial",
    "C95_refused_partial",
    "C95_repeated_refuted",
    "C95_depthwise_partial",
    "C95_depthwise_refused_partial",
    "C95_depthwise_repeated_refuted",
    "C95_depthwise_example",
    "C95_example"
   ],
   "note": "Supported parameters: proved for every history. Unsupported parameters are refused unless they are those of the run before: refuted for a repeated run, which is accepted and ignores the unsupported part."
  },
  {
   "property": "C96",
   "status": "partial",
   "theorems": [
    "C96_conv2d_transpose_partial",
    "C96_adjoint",
    "C96_refused",
    "C96_double_refuted",
    "C96_example"
   ],
   "note": "Proved over an arbitrary commutative semiring (exact numbers, no rounding). Missing: rounding; double, where the claim is false (C96_double_refuted: nothing is computed). kernel_packed and NHWC are always refused by the code."
  },
  {
   "property": "C97",
   "status": "partial",
   "theorems": [
    "C97_depthwise_partial",
    "C97_refused",
    "C97_never",
    "C97_overread_refuted",
    "C97_negative_padding_refuted",
    "C97_low_plane_refuted",
    "C97_example"
   ],
   "note": "Arithmetic is over any commutative semiring, so rounding differences between the vector and the scalar order of summation are not in the model. Not so for the 3x3 float kernels: they read one weight too many (C97_overread_refuted), and store out of bounds for negative paddings and planes of one row. NEON paths and the uncalled in-place kernel are not modelled."
  },
  {
   "property": "C98",
   "status": "partial",
   "theorems": [
    "C98_elements_kept",
    "C98_reshape_result",
    "C98_reshape_found",
    "C98_reshape_refused",
    "C98_reshape_v2",
    "C98_empty_refuted",
    "C98_flatten",
    "C98_flatten_refuted",
    "C98_flatten2d",
    "C98_unsqueeze_squeeze",
    "C98_squeeze",
    "C98_squeeze_all",
    "C98_order_refuted",
    "C98_expand",
    "C98_example"
   ],
   "note": "The positive parts are complete characterisations for non-empty tensors and increasing axes; the code fails the full statement in the refuted cases."
  },
  {
   "property": "C99",
   "status": "partial",
   "theorems": [
    "C99_shuffle_partial",
    "C99_accepted",
    "C99_compose",
    "C99_axis_refuted"
   ],
   "note": "Complete for axes below the rank (success, result, refusals, composition). Refuted for axes at or beyond the rank: the size is read before the rank is checked (undefined behaviour in the model)."
  }
 ]
}