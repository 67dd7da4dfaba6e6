# Formal model of ampas/CLF (python/aces)

Prover: Rocq/Coq 8.16.1. Sources under `rocq/theories`, built with `-Q theories Verif`.
The code in /repo is Python 2 + numpy and is read as text only; nothing of it is run.

`properties.jsonl` states the claims in English, `MANIFEST.json` maps each to its theorems, `seeded/LOG.jsonl` records
the wrong programs the theorems were tried against. `tools/` generates the first two and the table of axioms below.

## Shape of the model

* **Exceptions are values.** Every modelled function that can raise returns `res A := Ok a | Err e` with
  `e` naming the Python exception class. Error branches are written out, never hidden behind defaults.
* **Arithmetic is a parameter.** Model functions are written once over a type class of operations `Num T`
  (conversion from integers, + - * /, comparisons, floor/ceil, pow, logarithms, rounding to float32/float16, half-float bit
  patterns; `NumText` adds number formatting and parsing). A plain Coq record; no functors or module types. Instances:
  * `realNum` (exact arithmetic, rounding to float32 = identity): algebraic claims such as inverses, interpolation, monotonicity;
  * `ieeeNum L` (Flocq's `binary_float 53 1024`, with NaN, infinities, signed zeros; float32/float16 stores round): claims
    about special values, bit patterns, text round trips and rounding errors. `L : libm` is an arbitrary pair of functions for
    pow and the logarithms, because their last bits depend on the C library; theorems hold for every `L`;
  * `intNum` (integers), only for concrete examples beside theorems about every arithmetic.

  Structural claims (pixel independence, aliasing, ordering, lengths, gating, composition) are proved for *every* `Num T`.
* **numpy buffers.** A node's `process` takes the float32 buffer contents and returns a record: the contents of the caller's
  buffer afterwards, the returned contents, and whether both are the same object. numpy slices are views, so
  `outValue[i] = ...` in the code writes the caller's buffer: the model does the same.
* **XML** is an element tree (tag, attributes, text, children); MXmlText adds its text, printed and parsed.
* **Files, thread pool**: small state machines (MFiles, MFilter).

Files: `M*.v` the model (definitions only, each with the lines of /repo it follows), `Spec*.v` the vocabulary theorems are
stated in, written without the model's helpers, `P*.v` lemmas, `Thm_*.v` the property theorems with their cases and
`Print Assumptions`. `Py.v`, `Num*.v`, `MText.v`, `MNumText.v` model Python, numpy and number text rather than /repo.

## What is modelled

| model file | code |
|---|---|
| MCommon | clf/Common.py; ProcessNode.py bit-depth helpers |
| MArray | clf/Array.py lookups (1D linear, cubic, half-domain; 3D trilinear and tetrahedral) |
| MIndexMap, MIndexCache | clf/IndexMap.py evaluation; the object with its optional cache |
| MProcess | `process` of Range, Matrix, LUT1D, LUT3D, ASCCDL, ColorCorrection, Gamma, Log, ExposureContrast, Reference, Group, ProcessList (bypass, depth rescaling between nodes) |
| MBuild | constructors and setters, simpleSampledLUT, simpleSampledLUTHalfDomain, simple3DLUT |
| MListApi | accessors of ProcessList, ProcessNode and Group |
| MMains | main of clfinfo and of convertOCIOtoCLF |
| MBuilt | getters of LUT nodes; LUT3D.setArray with one size list for several nodes |
| MXml | `read` and `write` of Array, IndexMap, Comment, Info, every node and ProcessList, against element trees; array encodings (string, integer and half text, hexadecimal, base64 classes of numbers) |
| MFiles | ProcessList.readFile/writeFile, References to other files, gzip and plain paths |
| MXmlText | ProcessList.xmlPrettify and etree.parse: ElementTree's tostring, minidom's toprettyxml, and an XML parser for ASCII without DOCTYPE |
| MInfo | the printInfo methods (as captions and data) |
| MRegistry | lutFormats/Registry.py, LutFormat.py, capability tables |
| MLut | LutSPI.py, LutCSP.py, LutCTL.py |
| MSampling | lutFormats/Sampling.py, LutCLF.writeCLF1D3D1D |
| MConvert | convertCLFtoLUT.py, convertLUTtoCLF.py, convertOCIOtoCLF.py after option parsing |
| MFilter, MFilterTool | filterImageWithCLF.py: rows, worker pool, depth adaption, packing of samples, of halfs for OpenImageIO; reading the image, the whole call and main |
| MOcio | OCIO transform conversion of convertOCIOtoCLF.py |

## What is not modelled

* XML outside ASCII, with a DOCTYPE, with a reserved namespace declared, or printed with namespace prefixes; the sorting of attributes by `tostring` (C95_order: of no importance when reading). Except in
  MXmlText and C89, C93, C94, the XML libraries are a parameter: they keep a document up to white space in the text of elements with children.
* gzip's bytes (a file is its text), file permissions, what an exception leaves in a half-written file.
* OpenImageIO and PyOpenColorIO: an image is its size, depth and samples; an OCIO transform is its fields.
* `if pixels == None` (filterImageWithCLF.py 495), which compares element by element in some versions of numpy: taken to be
  false for an image that was read. Halfs are passed to OpenImageIO as of version 1.8; the packing before is modelled apart.
* optparse and the text of `--help`; messages printed by the tools (printInfo is modelled as data).
* Values of pow and the logarithms beyond being functions (`libm`); `OverflowError` of `pow` on Python floats.
* `process` of a node called on a Python list instead of a numpy buffer; scipy interpolation (switched off in the code).
* The order in which Python 2 walks dictionaries: the model uses insertion order.
* Side effects on the lists a caller passes (simple3DLUT, convertMatrixToProcessNode), except for C90's shared size list.
* `python/aces/filterImageWithCLF.py` timing and OCIO-based image conversion; memory limits.

Each definition's comment says which lines it follows and any further simplification.

## Trusted base

Coq's kernel (the development also passes `coqchk`); the standard library axioms listed below; the statement vocabulary in
`Spec*.v`; and the faithfulness of the model to the cited lines. No axioms, functors, module types, plugins or disabled checks
of our own. Flocq's lemmas bring only standard library axioms.

## Findings about the code

Claims that fail are stated as theorems ending in `_refuted`, or as theorems about the actual behaviour:

* saving a list moves matrix entries by a last float32 bit (C45), a table entry beyond float32 makes the second save raise
  OverflowError (C77); reading is otherwise stable;
* a CTL export repeats red three times; spi3d loses the input range; .csp drops output shapers, ignores the outputs of
  two-point shapers, raises ZeroDivisionError for shapers starting at different inputs, misplaces non-cubic tables (C53-C56, C70, C71);
* asking for the inverse of a .csp or .spi3d file has no effect (C72); `--lutResolution3d` and `--format` do nothing (C73);
* 3D lookups of non-cubic tables read wrong entries (C31); the noClamp CDL reverse style clamps (C35);
* the reverse-sampled LUT is an inverse only at its own sample points (C69); exported 1D-3D-1D lists are right only for the unit range (C60, C61);
* a cached IndexMap gives infinity from 65520 on and never notices new values; setValues on it raises AttributeError (C76);
* printInfo prints the exposure in place of the contrast (C80); `getIndexMapDimensions` calls a missing method; LUT3Ds built with one
  size list spoil each other's size (C90); simple3DLUT with unequal resolutions misplaces colours (C91);
* 16 bit samples tagged with, say, 14 bits darken; a missing image raises ValueError instead of the message intended; two codes round up (C83);
* codes of a deeper depth do not survive a shallower one although nothing is rounded to integers (C82);
* an identity Matrix spreads NaN from an infinite sample to the other channels; identity LUTs whose size is not 2^j + 1 change samples (C84);
* halfs written for integer codes are rounded twice and need not be the nearest, nor give the codes back; an image with a
  bits-per-sample attribute cannot be written at a float depth (C86);
* a LUT1D marked rawHalfs after it was given its table is saved as a file that cannot be read (C85); so is one with an empty IndexMap (C89), or with an IndexMap that was read without a dim attribute (C77);
* line breaks in attributes are saved as blanks, carriage returns in texts as line feeds, empty texts as none; a control
  character or one outside ASCII makes saving raise (C89).

## Axioms per theorem

Output of `Print Assumptions`, collected by `tools/gen_assumptions.py`.

<!-- assumptions -->
376 theorems.

**No axioms (closed under the global context)** (175)

* Thm_ArrayText: C43_integer_flag_ignored, C43_nonfinite_raises, C44_set_encoding, C44_writing_refused, C44_empty_written, C44_reading_ungated
* Thm_Broken: C94_refused, C94_cut
* Thm_Built: C90_cdl, C90_color_correction, C90_range, C90_gamma, C90_log, C90_exposure_contrast, C90_lut1d, C90_lut3d, C90_shared_size
* Thm_Convert: C70_two_points, C71_output_shaper_dropped, C72_inverse_ignored, C72_read_only, C73_options_that_count, C73_nothing_written, C73_how_it_ends, C75_nothing_written, C75_how_it_ends, C78_nodes, C78_files, C78_transforms, C78_search_path, C78_nothing_written
* Thm_Curves: C40_video_always_fails, C40_log_fails
* Thm_Depth: C79_depths_are_set, C79_empty_list, C79_get_process, C79_input_depth_unused, C79_output_depth_unused
* Thm_Files: C49_gzip_alike, C49_feature_off, C49_plain, C50_untouched, C50_emptied_first, C50_crash, C52_cycle, C52_acyclic, C52_acyclic_opens
* Thm_FilterTool: C83_no_image, C83_other_types, C83_too_many_bits, C83_unknown_depth, C83_main_unknown_depth, C83_main_missing_path, C83_main_unread_list, C83_main_runs
* Thm_FloatImage: C86_tagged
* Thm_IndexCache: C76_late_cache, C76_new_values_ignored, C76_set_values_fails, C76_no_values, C76_constructor, C76_constructor_succeeds
* Thm_Info: C80_succeeds, C80_types, C80_blocks, C80_table, C80_index_map, C80_comments, C80_cdl, C80_contrast_shown, C80_contrast_refuted
* Thm_LUT1D: C22_one_sample_fails
* Thm_Lists: C10_list_pixels_independent, C10_node_pixels_independent, C12_list_length, C12_node_length, C12_leftover_is_zero, C13_list_leaves_input, C13_node_overwrites_input, C13_matrix_leaves_input, C14_list_is_composition, C14_empty_list, C15_bypassed_node_is_skipped, C15_bypass_without_feature, C17_group_is_inline, C18_resolved_reference, C18_missing_reference_is_silent
* Thm_Lut: C53_blank_line, C53_line_ends, C53_trailing_blanks, C54_range_lost, C56_lost, C56_program
* Thm_Mains: C80_tool, C78_main
* Thm_Meta: C85_metadata_is_inert, C85_metadata_setters, C85_set_and_get, C85_list_names, C85_order_added, C85_elements_added, C85_items, C85_add_process, C85_group_add, C85_group_find
* Thm_Nodes: C05_range_elementwise, C06_range_fails, C09_matrix_fails, C11_extra_channels, C11_extra_channels_exposure_contrast, C21_channels_independent, C21_flat_table, C23_lut1d_never_fails, C24_cubic_never_works, C24_cubic_name_error, C32_lut3d_never_fails, C32_unknown_interpolation, C36_style_gate, C36_unknown_style, C36_color_correction_fails, C41_needs_three_channels, C41_cdl_accepts_short_pixels, C41_matrix_accepts_short_pixels
* Thm_Ocio: C66_rejected, C67_dropped_parts, C67_groups_flatten
* Thm_Range: C01_unknown_depth
* Thm_Read: C46_lenient_skips_unknown, C46_strict_rejects_unknown, C46_group_skips_unknown, C47_strict_features, C47_lenient_features, C47_dynamic_dropped, C47_dynamic_refused, C48_namespace_ignored, C48_separators_ignored, C48_plain_tag_kept, C48_read_alike
* Thm_Sampling: C58_range_not_used, C59_uneven_resolution_fails, C59_one_sample_fails, C60_other_shapers_are_empty, C68_default_stride, C68_default_stride_node
* Thm_Spelling: C93_parsed, C93_line_ends, C93_opened, C48_documents_alike
* Thm_Stable: C77_without_dimension
* Thm_Tools: C62_read_dispatch, C62_write_dispatch, C62_extension_of_path, C62_extension_of_file, C63_rows, C63_pixels, C63_every_run, C63_pool_terminates, C64_single_thread_one_row, C64_single_thread_short, C64_one_row_fails, C64_same_result_refuted, C65_tagged_float_fails
* Thm_Write: C51_self_contained, C51_unresolved, C51_grouped_reference
* Thm_Written: C95_attributes, C95_limits, C95_parameters, C95_cdl, C95_tables, C95_order, C95_order_files
* Thm_XmlText: C89_text_back, C89_saved, C89_refused

**`ClassicalDedekindReals.sig_forall_dec`, `ClassicalDedekindReals.sig_not_dec`, `Classical_Prop.classic`, `FunctionalExtensionality.functional_extensionality_dep`** (199)

* Thm_ArrayText: C42_array_round_trip, C42_writable
* Thm_Bounds: C96_lut1d, C96_lut3d, C96_outside, C96_list_end, C96_order, C96_steps, C96_lut1d_local, C96_lut3d_local, C96_doubles_refuted
* Thm_CDL: C33_in_range, C33_ieee_in_range, C34_luma, C34_neutral, C35_rev_undoes_fwd, C35_noclamp_clamps, C35_noclamp_refuted
* Thm_Close: C81_matrix, C81_lut1d, C81_lut3d, C81_depth_change, C81_range_order
* Thm_Code: C82_codes_kept, C82_codes_survive, C82_8_to_16, C82_narrower_refuted
* Thm_Convert: C70_expanded, C70_starts_differ, C71_round_trip, C71_no_shaper, C71_close_inputs_refuted, C74_spi1d, C74_spi3d, C74_csp_1d, C74_csp_3d, C73_spi1d, C73_spi3d, C73_clf, C75_converted, C75_spi1d, C78_written
* Thm_Curves: C37_basic_gamma, C38_moncurve, C38_forward_curve, C39_log_antilog, C39_cineon, C40_linear, C40_pivot, C40_video_fails
* Thm_Depth: C79_range, C79_input_depth, C79_output_depth
* Thm_Errors: C88_list, C88_matrix, C88_lut1d, C88_lut3d, C88_range, C88_cdl, C88_group, C88_reference
* Thm_Files: C45_save_and_open
* Thm_FilterTool: C83_integer_images, C83_same_depth, C83_other_bits, C83_rounds_down_refuted
* Thm_FloatImage: C86_kept, C86_float_to_half, C86_codes_to_float, C86_float_and_back, C86_half_and_back_refuted, C86_nearest_half_refuted, C86_numbers_to_codes, C86_no_code, C86_packing, C86_pairs
* Thm_Half: C26_half_domain, C26_exact_halfs, C26_exact_halfs_refuted, C23_ieee_nonfinite
* Thm_Identity: C84_matrix, C84_lut1d, C84_lut3d, C84_lut1d_refuted
* Thm_IndexCache: C76_cached_values, C76_exact_halfs, C76_same_results_refuted
* Thm_Info: C80_gamma, C80_log
* Thm_LUT1D: C19_entries_at_samples, C19_single_entry, C19_entries_at_mapped_positions, C20_between_and_monotone, C22_sampled_function, C25_index_map
* Thm_LUT3D: C27_entries_at_lattice_points, C27_mapped_positions, C28_within_corners, C29_affine_tables, C29_sampled_function, C30_tetrahedra_agree, C31_address_read, C31_noncubic_refuted
* Thm_Lists: C14_ieee_list_is_composition, C17_group_is_inline_without_feature_refuted
* Thm_Lut: C53_numbers, C53_round_trip, C53_inverse, C54_round_trip, C55_1d, C55_1d_one, C55_1d_two, C55_3d, C55_noncubic_refuted, C56_tables, C56_cube
* Thm_Mains: C80_tool_on_saved
* Thm_Matrix: C07_matrix_is_affine, C08_matrices_compose, C08_identity_matrix, C16_bypassed_run_in_list, C16_bypassed_run_in_group, C16_rescale_is_linear
* Thm_Meta: C85_order_of_setters_refuted
* Thm_Nodes: C23_ieee_lut1d_never_fails, C32_ieee_lut3d_never_fails
* Thm_Ocio: C66_reduced, C66_reduced_exact, C66_kept, C66_small, C67_logs
* Thm_Picture: C92_floats, C92_codes, C88_depth_change, C92_saved
* Thm_Range: C01_normalize_roundtrip, C01_full_scale, C02_range_stays_inside, C02_ieee_range_stays_inside, C03_affine, C03_clamping, C03_exchanged_is_inverse, C03_reversed_clamp_is_constant, C04_only_minimum, C04_only_maximum, C04_no_pair_only_converts, C04_default_range
* Thm_ReadBack: C87_twelve_digits, C87_spi1d, C87_spi3d, C87_spi1d_and_back, C87_spi3d_and_back
* Thm_Sampled: C91_half_table, C91_half_sampled, C91_half_identity, C91_linear_table, C91_sampled_error, C91_identity_error, C91_cube_table, C91_cube_error, C91_cube_identity_error, C91_uneven_place_refuted, C91_uneven_length_refuted
* Thm_Sampling: C57_index_map_inverse, C58_entries_are_positions, C58_one_range_at_most, C59_samples_1d, C59_samples_3d, C60_shapers_undone, C60_tables, C60_output_table_right_iff_same, C61_exported_linear, C61_unit_range_agrees, C61_other_range_refuted, C69_resampled_inverse, C69_between_points_refuted
* Thm_Stable: C77_saved_again, C77_numbers_again, C77_decimals_again, C77_can_save_again, C77_always_again_refuted, C77_first_file_refuted, C77_opened_refuted
* Thm_Tools: C65_codes_round_trip, C65_stored_round_trip, C65_truncates_and_wraps, C65_no_rounding, C65_nonfinite_fails
* Thm_Write: C45_round_trip, C45_writable, C45_numbers, C45_processing, C45_matrix_refuted, C51_processes_the_same
* Thm_XmlText: C89_save_and_open, C89_attribute_refuted, C89_return_refuted, C89_empty_text_refuted, C89_empty_map_refuted

**`ClassicalDedekindReals.sig_forall_dec`, `FunctionalExtensionality.functional_extensionality_dep`** (1)

* Thm_Sampling: C59_grid_covers_interval

**`Classical_Prop.classic`** (1)

* Thm_Info: C80_saved_can_be_shown
<!-- end assumptions -->
