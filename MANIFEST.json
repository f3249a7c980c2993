{
 "claims": [
  {
   "property": "C01",
   "status": "proved",
   "theorems": [
    "C01_sorted_range_list_canonical",
    "C01_sort_idempotent",
    "C01_canonical_unbounded_refuted"
   ],
   "note": "Bounds: every pushed range must end at least 16 below 2^64; the unbounded version is refuted (the padding sum overflows)."
  },
  {
   "property": "C02",
   "status": "proved",
   "theorems": [
    "C02_no_address_lost",
    "C02_only_alignment_padding_added"
   ],
   "note": ""
  },
  {
   "property": "C03",
   "status": "proved",
   "theorems": [
    "C03_size_counts_addresses"
   ],
   "note": ""
  },
  {
   "property": "C04",
   "status": "proved",
   "theorems": [
    "C04_subtract_keeps",
    "C04_subtract_adds_only_padding",
    "C04_subtract_canonical",
    "C04_subtract_exact",
    "C04_subtract_exact_refuted"
   ],
   "note": "Keeping and padding-only parts proved for all sorted lists; exact set difference refuted in general and proved under the stated alignment condition."
  },
  {
   "property": "C05",
   "status": "partial",
   "theorems": [
    "C05_order_irrelevant_unaligned",
    "C05_order_irrelevant_up_to_padding",
    "C05_order_irrelevant_refuted"
   ],
   "note": "Order independence is false of the code (refuted with witness); proved without aligned begins, and up to alignment padding in general."
  },
  {
   "property": "C06",
   "status": "proved",
   "theorems": [
    "C06_sections_covered",
    "C06_unknown_empty",
    "C06_attribution",
    "C06_unit_reports_its_ranges",
    "C06_unit_ranges_only_items",
    "C06_unknown_unit_sound",
    "C06_types_kept",
    "C06_each_address_in_a_unit_refuted"
   ],
   "note": "Attribution holds up to alignment padding between two units' ranges; that each address lies in a unit is refuted with a witness. All ranges must stay 16 below 2^64."
  },
  {
   "property": "C07",
   "status": "proved",
   "theorems": [
    "C07_is_within_iff_prefix"
   ],
   "note": ""
  },
  {
   "property": "C08",
   "status": "proved",
   "theorems": [
    "C08_compare_less",
    "C08_compare_equal",
    "C08_compare_greater",
    "C08_compare_total",
    "C08_total_preorder"
   ],
   "note": ""
  },
  {
   "property": "C09",
   "status": "proved",
   "theorems": [
    "C09_compare_terminates",
    "C09_compare_deterministic",
    "C09_compare_reflexive",
    "C09_compare_antisymmetric",
    "C09_compare_transitive",
    "C09_equal_iff_same_identity",
    "C09_debug_agrees",
    "C09_cyclic_diverges_refuted"
   ],
   "note": "Release-mode comparison (debug assertions off) of acyclic types; on cyclic type graphs the comparison does not terminate (refuted with witness). Debug-mode agreement is a separate theorem."
  },
  {
   "property": "C10",
   "status": "partial",
   "theorems": [
    "C10_array_dimensions_refuted",
    "C10_void_assertion_refuted",
    "C10_single_dimension_equality"
   ],
   "note": "False of the code as stated: multi-dimensional arrays with different dimensions compare equal, and comparing two void pointers fails a debug assertion (both refuted with witnesses); the documented equality is proved for single-dimension arrays only."
  },
  {
   "property": "C11",
   "status": "proved",
   "theorems": [
    "C11_merge_conserves",
    "C11_merge_complete",
    "C11_unsorted_refuted"
   ],
   "note": ""
  },
  {
   "property": "C12",
   "status": "proved",
   "theorems": [
    "C12_path_complete",
    "C12_list_consumed",
    "C12_choices_cover_heap",
    "C12_overflow_refuted"
   ],
   "note": "Requires the step costs of both lists together to fit in 64 bits; otherwise the computation panics (refuted with witness)."
  },
  {
   "property": "C13",
   "status": "proved",
   "theorems": [
    "C13_path_minimal"
   ],
   "note": ""
  },
  {
   "property": "C14",
   "status": "proved",
   "theorems": [
    "C14_self_diff"
   ],
   "note": ""
  },
  {
   "property": "C15",
   "status": "proved",
   "theorems": [
    "C15_layout_partition",
    "C15_struct_layout",
    "C15_variant_layout",
    "C15_empty_struct_refuted"
   ],
   "note": "A structure without members gets an empty layout (refuted with witness), so non-emptiness is needed."
  },
  {
   "property": "C16",
   "status": "proved",
   "theorems": [
    "C16_layout_conserves",
    "C16_layout_sorted",
    "C16_layout_offsets",
    "C16_layout_padding",
    "C16_padding_isolated",
    "C16_padding_overlap_refuted"
   ],
   "note": "Padding may be reported inside an overlapping member (refuted with witness)."
  },
  {
   "property": "C17",
   "status": "proved",
   "theorems": [
    "C17_variant_hull",
    "C17_part_hull",
    "C17_variant_unknown",
    "C17_part_unknown",
    "C17_memberless_variant_refuted"
   ],
   "note": "For variants with at least one member; a memberless variant moves its variant part to bit 0 (refuted with witness)."
  },
  {
   "property": "C18",
   "status": "proved",
   "theorems": [
    "C18_size_follows_graph",
    "C18_size_exact",
    "C18_size_unique"
   ],
   "note": "Sizes are exact when they fit in 64 bits; in general they agree modulo 2^64. Requires the size references to be well-founded."
  },
  {
   "property": "C19",
   "status": "proved",
   "theorems": [
    "C19_round_trip",
    "C19_order",
    "C19_new_and_tests",
    "C19_round_trip_all_ones_refuted"
   ],
   "note": "The round trip excludes the value 2^64-1, which is the encoding of none (refuted with witness)."
  },
  {
   "property": "C20",
   "status": "proved",
   "theorems": [
    "C20_symbols_attributed_once",
    "C20_symbol_names",
    "C20_given_or_kept_exclusive",
    "C20_symbols_considered",
    "C20_search_freedom_harmless"
   ],
   "note": "For every outcome of the binary search among equal addresses."
  },
  {
   "property": "C21",
   "status": "proved",
   "theorems": [
    "C21_functions_by_address",
    "C21_functions_by_offset",
    "C21_variables_by_address",
    "C21_variables_by_offset",
    "C21_types_by_offset",
    "C21_absent",
    "C21_no_offset_not_found"
   ],
   "note": ""
  },
  {
   "property": "C22",
   "status": "proved",
   "theorems": [
    "C22_segment_bytes",
    "C22_never_out_of_bounds",
    "C22_inverted_range_refuted"
   ],
   "note": "For ranges whose begin is not above their end; an inverted range panics (refuted with witness). Segments must not wrap around the address space."
  },
  {
   "property": "C23",
   "status": "proved",
   "theorems": [
    "C23_bijection",
    "C23_order",
    "C23_parent",
    "C23_zero",
    "C23_never_zero_refuted"
   ],
   "note": "Id 0 belongs to the first unit; since the HTML output does not link id 0, the first unit cannot be linked (refuted with witness)."
  },
  {
   "property": "C24",
   "status": "partial",
   "theorems": [
    "C24_rows",
    "C24_once",
    "C24_unit_rows",
    "C24_item_rows",
    "C24_unmatched_units",
    "C24_zero",
    "C24_function_link_refuted",
    "C24_unknown_id_panics"
   ],
   "note": "Ids of rows proved. The link of a function row is the id of its unit and an unknown id panics (refuted with witnesses)."
  },
  {
   "property": "C25",
   "status": "proved",
   "theorems": [
    "C25_html",
    "C25_silent",
    "C25_hidden"
   ],
   "note": "For text output the two sides show the same lines; for HTML nothing is marked. Sections that are suppressed when identical are covered by C25_hidden."
  },
  {
   "property": "C26",
   "status": "proved",
   "theorems": [
    "C26_shown_iff",
    "C26_hidden_same",
    "C26_flag",
    "C26_invisible_refuted"
   ],
   "note": "The flag counts added and deleted items as differences even if they print nothing (C26_invisible_refuted shows a shown section without any marked line), so the equivalence is for documents whose added and deleted items print something."
  },
  {
   "property": "C27",
   "status": "proved",
   "theorems": [
    "C27_depth",
    "C27_depth_diff",
    "C27_depth_html",
    "C27_depth_diff_html",
    "C27_restored",
    "C27_restored_diff",
    "C27_restored_html"
   ],
   "note": "Both printers, printing and comparing: sections nested deeper than the limit are as if absent; depth, indentation and (when printing) the whole state are restored."
  },
  {
   "property": "C28",
   "status": "proved",
   "theorems": [
    "C28_text",
    "C28_text_diff",
    "C28_string"
   ],
   "note": "The escaping library is an arbitrary function assumed to write no markup character and to be undone by the reader; an instance is proved. Labels and mnemonics are not escaped by the code and are assumed to need no escaping."
  },
  {
   "property": "C29",
   "status": "proved",
   "theorems": [
    "C29_balanced",
    "C29_balanced_diff"
   ],
   "note": "Same assumptions as C28; <br> is a void element."
  },
  {
   "property": "C30",
   "status": "proved",
   "theorems": [
    "C30_longest_prefix",
    "C30_units_by_rewritten_path",
    "C30_no_mapping"
   ],
   "note": ""
  },
  {
   "property": "C31",
   "status": "proved",
   "theorems": [
    "C31_units",
    "C31_types",
    "C31_functions",
    "C31_variables",
    "C31_indices",
    "C31_printed",
    "C31_no_filter",
    "C31_everything_listed_refuted"
   ],
   "note": "Items that are never listed on their own are part of the statement; that everything is listed without filters is refuted with a witness."
  },
  {
   "property": "C32",
   "status": "proved",
   "theorems": [
    "C32_found",
    "C32_sound",
    "C32_none",
    "C32_file",
    "C32_overlap_refuted",
    "C32_empty_refuted"
   ],
   "note": "For entries that are not empty and do not overlap or wrap around; overlapping and empty entries can hide another entry (refuted with witnesses)."
  },
  {
   "property": "C33",
   "status": "proved",
   "theorems": [
    "C33_right",
    "C33_defined",
    "C33_plus_refuted",
    "C33_minus_refuted",
    "C33_negative_refuted"
   ],
   "note": "For expressions without DW_OP_plus and DW_OP_minus, whose results the code drops (refuted with witnesses). Offsets are right modulo the size of an address. After a jump nothing more is reported; what was reported before is right."
  },
  {
   "property": "C34",
   "status": "proved",
   "theorems": [
    "C34_contiguous",
    "C34_sizes",
    "C34_limit_refuted"
   ],
   "note": "A part of 2^64-1 bits counts as unsized (refuted with witness)."
  },
  {
   "property": "C35",
   "status": "proved",
   "theorems": [
    "C35_terminates",
    "C35_kept",
    "C35_own",
    "C35_resolved",
    "C35_refuted"
   ],
   "note": "Entries have distinct offsets. Functions inside entries that the walk does not look into (modules) are not kept (refuted with witness). Errors reported by gimli end the parse and are not modelled."
  },
  {
   "property": "C36",
   "status": "proved",
   "theorems": [
    "C36_kept",
    "C36_own",
    "C36_resolved",
    "C36_refuted"
   ],
   "note": "C36_resolved assumes that no Rust structure has static members, because those of a structure that stands for a variant are parsed twice. Dropped variables are refuted with a witness."
  },
  {
   "property": "C37",
   "status": "proved",
   "theorems": [
    "C37_bit_field",
    "C37_position",
    "C37_order",
    "C37_order_refuted",
    "C37_negative_refuted",
    "C37_size_refuted"
   ],
   "note": "The field lies within its storage unit and positions stay below 2^64. Negative bit offsets, missing storage sizes and doubly given offsets are refuted with witnesses."
  },
  {
   "property": "C38",
   "status": "proved",
   "theorems": [
    "C38_array",
    "C38_lower_refuted",
    "C38_empty_refuted",
    "C38_subrange",
    "C38_subrange_refuted",
    "C38_count_refuted"
   ],
   "note": "Lower bounds are not negative. Negative lower bounds, empty dimensions given by bounds and subranges with a count are refuted with witnesses."
  },
  {
   "property": "C39",
   "status": "proved",
   "theorems": [
    "C39_rows",
    "C39_location_unique",
    "C39_by_address",
    "C39_by_address_set_refuted"
   ],
   "note": "Rows are ordered by address if locations only advance and stay in the entry's range; a set location can go back (refuted with witness)."
  },
  {
   "property": "C40",
   "status": "proved",
   "theorems": [
    "C40_shown",
    "C40_lost_refuted",
    "C40_bits_refuted"
   ],
   "note": "Proved where the new side does not have several places that the old side does not; the other case, and a change of size within a byte, are refuted with witnesses."
  },
  {
   "property": "C41",
   "status": "proved",
   "theorems": [
    "C41_groups",
    "C41_covered",
    "C41_total",
    "C41_order",
    "C41_callers",
    "C41_panics",
    "C41_lines",
    "C41_dwarf",
    "C41_no_address_refuted",
    "C41_wraps_refuted"
   ],
   "note": "Functions from PDB files may have a size and no address, which makes the report panic; sums above 2^64 wrap (both refuted with witnesses)."
  },
  {
   "property": "C42",
   "status": "proved",
   "theorems": [
    "C42_unchanged",
    "C42_outside",
    "C42_arguments",
    "C42_full_name",
    "C42_braces_refuted",
    "C42_colons_refuted"
   ],
   "note": "Braces outside of arguments reorder the name and single colons are taken for separators (refuted with witnesses)."
  },
  {
   "property": "C43",
   "status": "proved",
   "theorems": [
    "C43_accepted",
    "C43_categories",
    "C43_print",
    "C43_ignore",
    "C43_filters",
    "C43_output_depth_sort"
   ],
   "note": ""
  },
  {
   "property": "C44",
   "status": "proved",
   "theorems": [
    "C44_units_order",
    "C44_types_order",
    "C44_functions_order",
    "C44_variables_order"
   ],
   "note": "The comparison of the parameter lists of two functions is an arbitrary total preorder."
  },
  {
   "property": "C45",
   "status": "proved",
   "theorems": [
    "C45_units_matched",
    "C45_types_matched",
    "C45_functions_matched",
    "C45_variables_matched",
    "C45_rows_visited",
    "C45_same_item_paired_refuted"
   ],
   "note": "The comparison of the parameter lists of two functions is an arbitrary total preorder. With several items of the same name an unchanged item need not be paired with itself (refuted with witness)."
  },
  {
   "property": "C46",
   "status": "proved",
   "theorems": [
    "C46_printed",
    "C46_both_sides",
    "C46_section_refuted"
   ],
   "note": "For documents without suppressed sections; sections with content on one side only are refuted with a witness."
  },
  {
   "property": "C47",
   "status": "proved",
   "theorems": [
    "C47_complete",
    "C47_place",
    "C47_entry"
   ],
   "note": ""
  },
  {
   "property": "C48",
   "status": "proved",
   "theorems": [
    "C48_local",
    "C48_parameter",
    "C48_bytes",
    "C48_global"
   ],
   "note": ""
  },
  {
   "property": "C49",
   "status": "proved",
   "theorems": [
    "C49_kept",
    "C49_described",
    "C49_every"
   ],
   "note": "C49_every covers also types inside functions whose namespace cannot be resolved. Positions are those given by a number, a fixed or expression location, or bit offsets; other location forms are left open. Enumerators are not part of the unit. Anonymous types (arrays, pointers) are read on demand and not part of the statement."
  },
  {
   "property": "C50",
   "status": "proved",
   "theorems": [
    "C50_calls",
    "C50_answers",
    "C50_panic_refuted"
   ],
   "note": "The disassembler is arbitrary, except that no pointer operand extends past the end of the address space; otherwise the code panics (refuted with witness)."
  },
  {
   "property": "C51",
   "status": "proved",
   "theorems": [
    "C51_memory",
    "C51_registers",
    "C51_i386_refuted"
   ],
   "note": "Register numbers are right for x86-64 only; i386 is refuted with a witness."
  },
  {
   "property": "C52",
   "status": "proved",
   "theorems": [
    "C52_plts",
    "C52_name",
    "C52_hidden_refuted"
   ],
   "note": "Completeness assumes that every loaded PLT section can be disassembled; otherwise later sections are skipped (refuted with witness)."
  },
  {
   "property": "C53",
   "status": "proved",
   "theorems": [
    "C53_notes",
    "C53_operands"
   ],
   "note": "Sizes and offsets of locals stay within signed 64-bit numbers. The text of a note is part of the model but not of the statement."
  },
  {
   "property": "C54",
   "status": "proved",
   "theorems": [
    "C54_complete",
    "C54_order",
    "C54_ranges",
    "C54_dropped_refuted",
    "C54_directives",
    "C54_negative_refuted",
    "C54_answers"
   ],
   "note": "Unreadable ranges and negative def_cfa_offset are refuted with witnesses."
  },
  {
   "property": "C55",
   "status": "proved",
   "theorems": [
    "C55_path",
    "C55_absolute",
    "C55_unit",
    "C55_absolute_file_refuted",
    "C55_empty_refuted"
   ],
   "note": "Absolute file names and empty directories are refuted with witnesses."
  },
  {
   "property": "C56",
   "status": "proved",
   "theorems": [
    "C56_silent"
   ],
   "note": "Lists have fewer than 2^60 entries; identities of the types that are referred to are not built from themselves (otherwise the comparison of types does not terminate)."
  },
  {
   "property": "C57",
   "status": "proved",
   "theorems": [
    "C57_both_sides",
    "C57_bases_refuted"
   ],
   "note": "Lists have fewer than 2^60 entries. One base class against several is refuted with a witness."
  },
  {
   "property": "C58",
   "status": "proved",
   "theorems": [
    "C58_printed"
   ],
   "note": "The specification uses the layout of C15-C17 for the order of members and the gaps. How a type is written is C60."
  },
  {
   "property": "C59",
   "status": "proved",
   "theorems": [
    "C59_terminates",
    "C59_depth",
    "C59_compares",
    "C59_infinite_refuted"
   ],
   "note": "A self-nesting anonymous type is refuted with a witness (endless recursion)."
  },
  {
   "property": "C60",
   "status": "proved",
   "theorems": [
    "C60_written",
    "C60_links",
    "C60_terminates",
    "C60_ambiguous_refuted",
    "C60_identity_refuted",
    "C60_cycle_refuted"
   ],
   "note": "References against rvalue references, and arrays with different further dimensions, are refuted as unique writings with witnesses; so is termination for cyclic types."
  },
  {
   "property": "C61",
   "status": "proved",
   "theorems": [
    "C61_function_silent",
    "C61_variable_silent"
   ],
   "note": "Lists have fewer than 2^60 entries and the sizes of inlined functions sum to less than 2^60. With instructions, these are shown as deleted and added, but not reported."
  },
  {
   "property": "C62",
   "status": "proved",
   "theorems": [
    "C62_functions",
    "C62_variables",
    "C62_ignored",
    "C62_ranges_refuted",
    "C62_same_refuted",
    "C62_empty_refuted"
   ],
   "note": "No variable whose places are shown has several of them (C40), and not one range against several (refuted with witness). That equal prints compare equal, and that reported differences are visible, is refuted with witnesses."
  },
  {
   "property": "C63",
   "status": "proved",
   "theorems": [
    "C63_function",
    "C63_variable"
   ],
   "note": "The lines of the instruction listing are those of C54. How a type is written is C60."
  },
  {
   "property": "C64",
   "status": "proved",
   "theorems": [
    "C64_terminates",
    "C64_depth",
    "C64_compares"
   ],
   "note": "When disassembly fails is C50 and C54."
  },
  {
   "property": "C65",
   "status": "proved",
   "theorems": [
    "C65_silent"
   ],
   "note": "Lists have fewer than 2^60 entries; no type that is referred to has an identity built from itself. That the lines are those printed assumes that functions and variables do not overlap (otherwise see C68)."
  },
  {
   "property": "C66",
   "status": "proved",
   "theorems": [
    "C66_complete"
   ],
   "note": "Under the conditions of C62 on paired functions, and not one base class against several (C57). Instructions are not listed (differences in them are never reported)."
  },
  {
   "property": "C67",
   "status": "proved",
   "theorems": [
    "C67_file_printed",
    "C67_unit_printed",
    "C67_files_compared",
    "C67_units_compared",
    "C67_invisible_refuted"
   ],
   "note": "Text output. Invisible reported differences are refuted with a witness."
  },
  {
   "property": "C68",
   "status": "proved",
   "theorems": [
    "C68_file_lines",
    "C68_files_lines",
    "C68_units_lines",
    "C68_other_size_refuted",
    "C68_change_refuted"
   ],
   "note": "Sizes are below 2^63 and functions and variables do not overlap; otherwise refuted with witnesses."
  },
  {
   "property": "C69",
   "status": "proved",
   "theorems": [
    "C69_loaded",
    "C69_code",
    "C69_unknown",
    "C69_compared",
    "C69_function_refuted"
   ],
   "note": "Stated for documents; how documents become HTML is C28 and C29. Compared functions are refuted with a witness."
  },
  {
   "property": "C70",
   "status": "proved",
   "theorems": [
    "C70_parameters",
    "C70_variables",
    "C70_every_entry",
    "C70_indirect_name_refuted"
   ],
   "note": "For variables, fixed addresses are not 2^64-1 and sizes of places are 64-bit numbers. A chain of two abstract origins is refuted with a witness."
  },
  {
   "property": "C71",
   "status": "proved",
   "theorems": [
    "C71_inlined",
    "C71_calls",
    "C71_calls_determined"
   ],
   "note": "Attribute values are 64-bit numbers. A unit's offset that cannot be resolved is the same as no tree."
  },
  {
   "property": "C72",
   "status": "proved",
   "theorems": [
    "C72_origin",
    "C72_size",
    "C72_size_backwards_refuted"
   ],
   "note": "Code that ends before it starts is refuted with a witness."
  },
  {
   "property": "C73",
   "status": "proved",
   "theorems": [
    "C73_agree",
    "C73_agree_chain_refuted"
   ],
   "note": "A chain of two abstract origins is refuted with a witness."
  },
  {
   "property": "C74",
   "status": "proved",
   "theorems": [
    "C74_parameters",
    "C74_variables",
    "C74_call_refuted"
   ],
   "note": "No two entries of a function have one offset. Calls through merged variables are refuted with a witness."
  },
  {
   "property": "C75",
   "status": "proved",
   "theorems": [
    "C75_words_are_relocated",
    "C75_bytes_are_not_relocated",
    "C75_parts",
    "C75_too_few_bytes",
    "C75_reads_as_linked",
    "C75_linked_section_exists",
    "C75_value_fits_the_field_refuted"
   ],
   "note": "gimli's own readers are modelled as windows on the bytes. Values too large for their field are refuted with a witness."
  },
  {
   "property": "C76",
   "status": "proved",
   "theorems": [
    "C76_units_by_offset"
   ],
   "note": "Units follow one another, as gimli delivers them."
  },
  {
   "property": "C77",
   "status": "proved",
   "theorems": [
    "C77_unit_covers_its_extent",
    "C77_unit_starts_at_its_lowest_address"
   ],
   "note": "Range ends are at least 16 below 2^64 (as for C01)."
  },
  {
   "property": "C78",
   "status": "proved",
   "theorems": [
    "C78_enumerators",
    "C78_enumerators_signed",
    "C78_constants_are_determined",
    "C78_names_for_types_refuted",
    "C78_unicode_characters_refuted"
   ],
   "note": "Underlying types that are names for types, or types for Unicode characters, are refuted with witnesses."
  },
  {
   "property": "C79",
   "status": "proved",
   "theorems": [
    "C79_paths",
    "C79_paths_diff",
    "C79_paths_sizes",
    "C79_entry",
    "C79_loading",
    "C79_loading_sizes",
    "C79_deleted_refuted",
    "C79_rows"
   ],
   "note": "The ids fit into 64 bits and every item carries the id it was given (C23). The script is specified, not modelled; whether a list is displayed is ignored. Unknown ids and missing marks of comparisons are stated as theorems (C79_rows, C79_deleted_refuted)."
  },
  {
   "property": "C80",
   "status": "proved",
   "theorems": [
    "C80_unit",
    "C80_function",
    "C80_variable",
    "C80_type"
   ],
   "note": "Text output of one file. Entries are at different offsets, none of which is 2^64-1, and no type's identity is built from itself. For variables, units without Rust's unnamed statics (C36)."
  },
  {
   "property": "C81",
   "status": "proved",
   "theorems": [
    "C81_context",
    "C81_source",
    "C81_enumerators",
    "C81_first",
    "C81_parameter_names",
    "C81_numbers",
    "C81_types",
    "C81_unnamed",
    "C81_found",
    "C81_signature",
    "C81_details"
   ],
   "note": "Entries are at different offsets. The root entry of a unit is not modelled as an entry. The agreement of parameters is under the conditions of C73."
  },
  {
   "property": "C82",
   "status": "proved",
   "theorems": [
    "C82_symbols"
   ],
   "note": "Symbols end below 2^64."
  },
  {
   "property": "C83",
   "status": "proved",
   "theorems": [
    "C83_sizes",
    "C83_references",
    "C83_comparisons",
    "C83_same",
    "C83_output"
   ],
   "note": "For sizes, references and comparisons the conditions are separate, each as weak as needed. Instructions and calls are not listed, or there is no disassembler."
  },
  {
   "property": "C84",
   "status": "proved",
   "theorems": [
    "C84_silent"
   ],
   "note": "Lists have fewer than 2^60 entries; there is an output for the file itself."
  },
  {
   "property": "C85",
   "status": "proved",
   "theorems": [
    "C85_file",
    "C85_sections",
    "C85_ranges",
    "C85_size",
    "C85_only",
    "C85_units",
    "C85_sums"
   ],
   "note": "The sum of the sizes of functions and variables fits in 64 bits (otherwise C65 has the sum that wraps). Variables of Rust units with static members are left out, as in C36."
  },
  {
   "property": "C86",
   "status": "proved",
   "theorems": [
    "C86_function_text",
    "C86_function_gone",
    "C86_variable_gone",
    "C86_type_gone",
    "C86_function_new",
    "C86_variable_new",
    "C86_type_new",
    "C86_function_compared",
    "C86_variable_compared",
    "C86_type_compared",
    "C86_order"
   ],
   "note": "The counterpart of an item is compared under the conditions of C62 and C57: lists have fewer than 2^60 entries, the lines are shown in the same form, no item has more than one counterpart. Units named like those made up for symbols are left out."
  },
  {
   "property": "C87",
   "status": "proved",
   "theorems": [
    "C87_output",
    "C87_function_kept",
    "C87_variable_kept",
    "C87_type_kept",
    "C87_function_known",
    "C87_variable_known",
    "C87_type_known"
   ],
   "note": "The path of a file is one of its lines, so that files with different paths are without a difference only if the lines for the file are not requested; C86 covers the entries if they are. Lists have fewer than 2^60 entries; variables of Rust units with static members are left out, as in C36."
  },
  {
   "property": "C88",
   "status": "proved",
   "theorems": [
    "C88_well_formed",
    "C88_tree",
    "C88_references",
    "C88_type",
    "C88_no_type"
   ],
   "note": "Units are apart and their entries are inside them, at different places. Offsets that overflow are excluded by that."
  },
  {
   "property": "C89",
   "status": "proved",
   "theorems": [
    "C89_name",
    "C89_file",
    "C89_no_file",
    "C89_position",
    "C89_start",
    "C89_end"
   ],
   "note": "Strings are bytes: the replacement of bytes that are no UTF-8 is not modelled. An index outside its table, which ends the reading of the file with an error in some of the cases, is like an unknown value."
  },
  {
   "property": "C90",
   "status": "proved",
   "theorems": [
    "C90_encoding",
    "C90_endianity",
    "C90_enumerators"
   ],
   "note": "Constants fit their forms."
  },
  {
   "property": "C91",
   "status": "proved",
   "theorems": [
    "C91_units",
    "C91_root",
    "C91_numbers",
    "C91_constants",
    "C91_values"
   ],
   "note": "Of the errors that end the reading of a file, only the one for the kind of unit is modelled. Lists and expressions are given as gimli's iterators and evaluator deliver them."
  },
  {
   "property": "C92",
   "status": "proved",
   "theorems": [
    "C92_print",
    "C92_sizes",
    "C92_compare",
    "C92_text",
    "C92_served"
   ],
   "note": "The library for escaping leaves letters, digits, spaces and the like alone, and its result reads as the text; mnemonics have no character that is escaped. The header and the footer of a page are parameters."
  },
  {
   "property": "C93",
   "status": "proved",
   "theorems": [
    "C93_numbered",
    "C93_loading",
    "C93_loading_sizes"
   ],
   "note": "Items are looked up by what they are in the model, where the program stores the number in them; so no symbol is listed twice, and of two units with the same name one has an item. There are at most 2^64 ids."
  },
  {
   "property": "C94",
   "status": "proved",
   "theorems": [
    "C94_report",
    "C94_written",
    "C94_written_refuted"
   ],
   "note": "Symbols end below 2^64. That the report fails for a function that ends before it starts is shown by an example."
  },
  {
   "property": "C95",
   "status": "proved",
   "theorems": [
    "C95_text",
    "C95_size",
    "C95_acyclic"
   ],
   "note": "Types in functions and subranges are left out, and sizes that do not fit in 64 bits. Of an attribute that gives a name the last counts; others occur once."
  },
  {
   "property": "C96",
   "status": "proved",
   "theorems": [
    "C96_function"
   ],
   "note": "The code starts at an address other than 0 and is one range, given by 0x11 and 0x12; parameters do not refer to others. What follows the parameters is not restricted here (C80, C81)."
  },
  {
   "property": "C97",
   "status": "proved",
   "theorems": [
    "C97_variable"
   ],
   "note": "The location is an address or there is none. Variables of Rust units with static members are left out, as in C36."
  },
  {
   "property": "C98",
   "status": "proved",
   "theorems": [
    "C98_structure",
    "C98_union",
    "C98_enumeration",
    "C98_typedef",
    "C98_base"
   ],
   "note": "Types in functions are left out, and named types in unnamed ones. What is left free in a variant is shown with its place from where the variants start, and a variant without members counts as starting at 0, as in the program. Members and base classes have each attribute once and a type with a size; constants of enumerators fit their forms."
  },
  {
   "property": "C99",
   "status": "proved",
   "theorems": [
    "C99_function_gone",
    "C99_variable_gone",
    "C99_type_gone",
    "C99_function_new",
    "C99_variable_new",
    "C99_type_new"
   ],
   "note": "As in C96 to C98. That an item is not in a unit of the other file is known from the names of all entries of that kind there, from their namespaces or, for functions and variables, from their not being wanted."
  },
  {
   "property": "C100",
   "status": "proved",
   "theorems": [
    "C100_variable",
    "C100_type",
    "C100_function"
   ],
   "note": "As in C96 to C98. Units have fewer than 2^60 entries; one base class is not compared with several, for which the headings differ. For functions, printing either file alone does not fail, lists of items in them are short, and no variable has several places if they are shown (as in C86)."
  },
  {
   "property": "C101",
   "status": "proved",
   "theorems": [
    "C101_function",
    "C101_variable"
   ],
   "note": "An entry refers to another of its own unit; what a copy refers to is not itself a copy. Variables of Rust units with static members are left out, as in C36. The program takes where a variable is declared from its own entry only, so that is what is stated."
  },
  {
   "property": "C102",
   "status": "proved",
   "theorems": [
    "C102_function"
   ],
   "note": "Expressions are those of one register, offset from the frame, address or value. What an entry is a copy of is not itself a copy. Call sites and instructions are not described here. Offsets and sizes on the stack are below 2^61."
  },
  {
   "property": "C103",
   "status": "proved",
   "theorems": [
    "C103_listed",
    "C103_printed"
   ],
   "note": "The disassembler is a function that the theorem holds for all of. Within the lines for one operand the order is not described. Sizes and offsets of parameters and variables fit into signed 64-bit numbers, and pointers that are read end below 2^64."
  },
  {
   "property": "C104",
   "status": "proved",
   "theorems": [
    "C104_function"
   ],
   "note": "As in C102. Expressions are one register, or one operation that pushes a value, with or without the mark of a value. At most one of the attributes with the same meaning is given. A global variable that holds the function called is in a unit that is not Rust with static members, as in C36."
  },
  {
   "property": "C105",
   "status": "proved",
   "theorems": [
    "C105_marks",
    "C105_run",
    "C105_differ",
    "C105_same_refuted",
    "C105_modified_refuted"
   ],
   "note": "Marks are read from the page by a reader of HTML that knows nothing of the printer. What the mark for modified parts means is only refuted (C105_modified_refuted); that nothing is marked if everything is the same is C25_html."
  },
  {
   "property": "C106",
   "status": "proved",
   "theorems": [
    "C106_page",
    "C106_run",
    "C106_sizes",
    "C106_unnamed_refuted"
   ],
   "note": "The page is read by the reader of HTML of HtmlSpec.v and OutlineSpec.v. Base classes have names that are not empty (C106_unnamed_refuted), and so have the functions that are called if their addresses are left out. Comparisons are not described here."
  },
  {
   "property": "C107",
   "status": "proved",
   "theorems": [
    "C107_comparison",
    "C107_run",
    "C107_no_more",
    "C107_sort"
   ],
   "note": "For text output of one file. The lines of a part are those of C80 and the claims about single items (C58, C63, C68); what a filter matches is specified in FilterSpec.v, the order in C44."
  },
  {
   "property": "C108",
   "status": "proved",
   "theorems": [
    "C108_run",
    "C108_comparison"
   ],
   "note": "For text output. What the details are is described by the claims about single items; which --print value asks for which is C43."
  },
  {
   "property": "C109",
   "status": "proved",
   "theorems": [
    "C109_run",
    "C109_calls_refuted"
   ],
   "note": "For text output. The addresses of functions that are called are left out of lines if the addresses of functions are ignored, hence the condition about calls (C109_calls_refuted). Which differences of a function or variable count is the subject of C62; which items are left out that of C45."
  },
  {
   "property": "C110",
   "status": "proved",
   "theorems": [
    "C110_run",
    "C110_unit_refuted",
    "C110_inline_refuted"
   ],
   "note": "For text output. Which items match is the subject of C31. Unit and function-inline filters are refuted with witnesses (C110_unit_refuted, C110_inline_refuted)."
  },
  {
   "property": "C111",
   "status": "proved",
   "theorems": [
    "C111_run",
    "C111_lines"
   ],
   "note": "For text output. What the orders are is the subject of C44; which items are paired, of C45."
  },
  {
   "property": "C112",
   "status": "proved",
   "theorems": [
    "C112_run",
    "C112_unit_refuted"
   ],
   "note": "For text output. C112_unit_refuted: with units selected a changed total is a line of neither file. Base classes, ranges and locations that are not in the same form in both files are the subject of C57_bases_refuted and C62_ranges_refuted."
  },
  {
   "property": "C113",
   "status": "proved",
   "theorems": [
    "C113_run",
    "C113_exchanged",
    "C113_between",
    "C113_closure_refuted"
   ],
   "note": "For text output. C113_closure_refuted: a structure named closure is printed but not compared."
  }
 ]
}