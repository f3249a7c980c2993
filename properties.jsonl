{"id": "C01", "title": "Sorted range lists are canonical", "statement": "After any sequence of pushes, sorting an address-range list leaves non-empty ranges in strictly ascending, pairwise disjoint order, with a gap between neighbours that is never empty and never one that the 16-byte alignment rule would have closed; sorting again changes nothing.", "quantifier": "every finite sequence of pushed ranges (including empty and inverted ones) whose bounds fit in 64 bits without the padding sum overflowing", "why_tests_cant": "the invariant depends on the interleaving of overlapping, nested, touching and aligned ranges; a finite test set covers a vanishing fraction of push histories", "anchors": ["parser/src/range.rs: RangeList::push, RangeList::sort"]}
{"id": "C02", "title": "Range lists lose no address and invent only alignment padding", "statement": "After pushing any ranges and sorting, every address that belonged to a pushed range is covered; and every other covered address lies in a gap of at most 15 bytes that ends exactly at the 16-byte aligned begin of one of the pushed ranges.", "quantifier": "every finite sequence of pushed ranges and every address", "why_tests_cant": "coverage must hold for every address and every push history", "anchors": ["parser/src/range.rs: RangeList::push, RangeList::sort"]}
{"id": "C03", "title": "Reported range size equals the number of covered addresses", "statement": "The size reported by a sorted range list is the number of distinct addresses covered by the list.", "quantifier": "every finite sequence of pushed ranges", "why_tests_cant": "double counting only shows for particular overlaps", "anchors": ["parser/src/range.rs: RangeList::size"]}
{"id": "C04", "title": "Subtracting range lists", "statement": "Subtracting one sorted range list from another keeps every address of the first that is not in the second, and introduces no address outside the first list's ranges other than alignment padding. The stronger expectation that no address of the second list remains is false when the remainder is re-joined by the alignment rule, and true when no kept piece starts on a 16-byte boundary within 15 bytes of the end of another.", "quantifier": "every pair of sorted range lists and every address", "why_tests_cant": "the two-cursor loop has many boundary interleavings (partial overlap, containment, one subtrahend spanning several ranges)", "anchors": ["parser/src/range.rs: RangeList::subtract"]}
{"id": "C05", "title": "Range list coverage does not depend on push order", "statement": "The ranges obtained by pushing a collection of ranges and sorting do not depend on the order of the pushes. (False of the code because of eager alignment merging; true whenever no pushed range begins on a 16-byte boundary, and always true up to alignment padding.)", "quantifier": "every collection of ranges and every permutation of it", "why_tests_cant": "quantifies over all permutations", "anchors": ["parser/src/range.rs: RangeList::push, RangeList::sort"]}
{"id": "C06", "title": "Every allocated byte of the file is attributed to some unit", "statement": "After a file is loaded, every address inside a loadable section is covered by the ranges of some unit (including the synthetic <symtab> and <unknown> units), and asking again for unattributed ranges yields none.", "quantifier": "every set of units, symbols and sections", "why_tests_cant": "requires all combinations of sections, symbols and unit ranges", "anchors": ["parser/src/file/mod.rs: File::normalize, File::ranges, File::unknown_ranges", "parser/src/unit.rs: Unit::ranges, Unit::unknown_ranges"]}
{"id": "C07", "title": "Namespace filter is prefix matching from the root", "statement": "A namespace is reported to be within a filter path exactly when the filter path is a prefix of the namespace's own path read from the root, with anonymous components matching nothing.", "quantifier": "every namespace chain of any depth and every filter path", "why_tests_cant": "arbitrary depth and names", "anchors": ["parser/src/namespace.rs: Namespace::is_within"]}
{"id": "C08", "title": "Qualified-name comparison is a total preorder that identifies equal qualified names", "statement": "Comparing items by namespace and name is reflexive, antisymmetric up to equality of the comparison, transitive and total, and yields Equal exactly when the root-to-leaf component names and the item names coincide; it equals dictionary order on root-first paths with the absent namespace first.", "quantifier": "every pair and triple of (namespace chain, optional name)", "why_tests_cant": "transitivity over triples of arbitrary depth chains cannot be sampled; sort and merge silently misbehave if it fails", "anchors": ["parser/src/namespace.rs: Namespace::cmp, Namespace::cmp_ns_and_name"]}
{"id": "C09", "title": "Type identity comparison is a consistent order across files", "statement": "For types drawn from any files whose type graphs contain no reference cycle through unnamed types, comparing type identity terminates and is a total preorder (reflexive, antisymmetric, transitive), so sorting and merging types by it is well defined.", "quantifier": "all triples of types from three arbitrary (possibly different) files with well-founded unnamed-type references", "why_tests_cant": "universally quantified over recursive type graphs across files", "anchors": ["parser/src/types.rs: Type::cmp_id and the cmp_id of every type kind"]}
{"id": "C10", "title": "Type identity comparison: documented equality", "statement": "Two array types compare equal only if their dimensions are equal, and comparing void with void is allowed. (Both expectations are false of the code: multi-dimensional counts are ignored, and the void/void case violates a debug assertion.)", "quantifier": "every pair of types", "why_tests_cant": "specific to the unusual multi-dimension and void cases", "anchors": ["parser/src/types.rs: ArrayType::cmp_id, Type::cmp_id"]}
{"id": "C11", "title": "Merging two sorted lists pairs exactly the matching items", "statement": "Merging two lists yields every item of the left list once in order and every item of the right list once in order; an item is paired only with an item it compares equal to; and if both lists are sorted by a consistent order, then for every key the number of pairs is the smaller of the two multiplicities, so no matching pair is ever reported as one deletion and one addition.", "quantifier": "all pairs of lists, all comparison functions (conservation), all total preorders (completeness)", "why_tests_cant": "quantifies over all lists, multiplicities and orders", "anchors": ["main/src/print/mod.rs: MergeIterator::next"]}
{"id": "C12", "title": "The list diff always succeeds and consumes both lists exactly", "statement": "For any two lists and any cost functions, computing the edit path terminates without panicking, and following the returned path visits every item of both lists exactly once, in order, ending exactly at the end of both.", "quantifier": "all lists, all non-negative cost functions, and every tie-breaking behaviour of the priority queue", "why_tests_cant": "unspecified heap tie-breaking makes the set of executions infinite", "anchors": ["main/src/print/mod.rs: shortest_path, DiffState::list"]}
{"id": "C13", "title": "The list diff is minimal", "statement": "The edit path returned for two lists has the least total cost among all edit scripts built from deletions, additions and those pairings that are cheaper than deleting and adding the two items.", "quantifier": "all lists, all cost functions, every tie-breaking behaviour, every competing edit script", "why_tests_cant": "optimality compares against every possible script", "anchors": ["main/src/print/mod.rs: shortest_path"]}
{"id": "C14", "title": "Diffing a list against itself pairs each item with itself", "statement": "If every item has zero difference cost to itself, positive step cost, and lists are identical, the edit path is made of pairings only.", "quantifier": "all lists and all such cost functions, every tie-breaking behaviour", "why_tests_cant": "all lists", "anchors": ["main/src/print/mod.rs: shortest_path, DiffState::list"]}
{"id": "C15", "title": "Structure layout partitions the structure", "statement": "If members, base classes and variant parts have known sizes, do not overlap and lie inside the structure, then the layout of a non-empty structure is a sequence of adjacent items starting at bit 0 and ending at the structure's size: every member appears exactly once with its own offset and size, and every remaining bit belongs to exactly one padding item; no padding item is empty and no two are adjacent.", "quantifier": "every list of members, bases and variant parts in every order", "why_tests_cant": "must hold for every placement and order", "anchors": ["parser/src/types.rs: StructType::layout, Variant::layout, layout"]}
{"id": "C16", "title": "Layout never loses members and sorts by offset", "statement": "For any members whatsoever (overlapping, unsized, bit-fields), the layout contains each member exactly once, is ordered by offset, and every padding item has positive size and starts at bit 0 or at the end of a member.", "quantifier": "every list of members, bases and variant parts", "why_tests_cant": "includes malformed inputs no test would list", "anchors": ["parser/src/types.rs: layout"]}
{"id": "C17", "title": "Variant parts span exactly their members", "statement": "The offset and size reported for a variant (and a variant part) are those of the smallest bit interval containing all of its members, when sizes are known; it is unknown exactly when some member's size is unknown.", "quantifier": "every list of members / variants", "why_tests_cant": "all member lists; the memberless-variant corner is exactly the case tests omit", "anchors": ["parser/src/types.rs: Variant::bit_offset, Variant::bit_size, VariantPart::bit_offset, VariantPart::bit_size"]}
{"id": "C18", "title": "Type sizes follow the type graph", "statement": "The byte size of a type is the explicit size when there is one, otherwise the size of the aliased/modified type, the address size for pointers, or element size times the product of the dimensions; it is defined for every type whose references are well founded.", "quantifier": "every type graph of any depth", "why_tests_cant": "recursive over arbitrary graphs", "anchors": ["parser/src/types.rs: Type::byte_size and the byte_size of each kind"]}
{"id": "C19", "title": "Optional addresses and sizes round-trip", "statement": "Storing an optional address or size and reading it back gives the same value, and ordering of the stored forms equals ordering of the values with an absent value last, for every value except the all-ones one.", "quantifier": "every 64-bit value and absence", "why_tests_cant": "2^64 values", "anchors": ["parser/src/lib.rs: Address, Size"]}
{"id": "C20", "title": "Symbols are attributed exactly once", "statement": "After loading, each file symbol is either at the address of a function, a variable, or a secondary function range with debug info, or appears exactly once in the <symtab> unit; and a function or variable gets a symbol name only if some symbol exists at its address and none there carries its own name, in which case the name is that of the first symbol at that address.", "quantifier": "every set of symbols (with duplicated addresses) and every set of units", "why_tests_cant": "binary search with duplicates and cross-unit marking", "anchors": ["parser/src/file/mod.rs: File::normalize, File::get_symbol"]}
{"id": "C21", "title": "Lookup tables return what the file contains", "statement": "A lookup by address or offset returns an item iff some item has that address or offset, and the item returned has exactly that key (the last one in file order when several share it).", "quantifier": "every file and key", "why_tests_cant": "all files", "anchors": ["parser/src/file/mod.rs: FileHash::functions_by_address, functions_by_offset, variables_by_address, variables_by_offset, types"]}
{"id": "C22", "title": "Segment bytes are the requested bytes", "statement": "Requesting the bytes of an address range returns exactly the bytes loaded at those addresses, in order and with the range's length, or nothing; it returns something whenever one segment contains the range, and never indexes out of bounds for non-inverted ranges.", "quantifier": "every set of segments and every range", "why_tests_cant": "boundary conditions over all ranges", "anchors": ["parser/src/file/mod.rs: File::segment_bytes", "main/src/code.rs: Code::range"]}
{"id": "C23", "title": "Ids are unique, dense and resolvable", "statement": "Assigning ids to a file gives every unit, type, function and variable a distinct id, the ids are consecutive in unit order, and looking an id up returns the item it was given to; ids never given resolve to nothing.", "quantifier": "every file with any number of units and items", "why_tests_cant": "all sizes and interleavings", "anchors": ["main/src/print/file.rs: assign_ids, assign_ids_in_unit"]}
{"id": "C24", "title": "Diff ids agree between merged items", "statement": "In a diff, the two items of a row are the same kind of thing with the same name in the same unit and both carry the row's id; distinct rows carry distinct ids; looking the id up gives exactly the row's items; and every row shown has an id. (False of the code for links: the link of a function row leads to its unit, and an unknown id panics.)", "quantifier": "every pair of files", "why_tests_cant": "all merges", "anchors": ["main/src/print/file.rs: assign_merged_ids"]}
{"id": "C25", "title": "A diff of identical content is silent", "statement": "If every value rendered on the left equals the value rendered on the right, a diff document prints no deleted and no added line, marks nothing as modified, and sections shown only when different print nothing.", "quantifier": "every document (arbitrary nesting of fields, lists, blocks and identified sections)", "why_tests_cant": "universal over documents", "anchors": ["main/src/print/mod.rs: DiffState", "main/src/print/text.rs: TextPrinter"]}
{"id": "C26", "title": "Difference flag is exact for suppressible sections", "statement": "A section that is displayed only when different is displayed if and only if a deleted or added line was produced inside it that is not under an ignore option.", "quantifier": "every document", "why_tests_cant": "universal over documents", "anchors": ["main/src/print/mod.rs: DiffState::print_if_diff, ignore_diff, block, line_impl"]}
{"id": "C27", "title": "Inline depth limits nesting and is restored", "statement": "Nested inline sections are shown to at most the configured depth, and the depth and indentation are restored after every section, including when sections are skipped.", "quantifier": "every document and depth", "why_tests_cant": "universal over nesting", "anchors": ["main/src/print/text.rs: TextPrinter", "main/src/print/html.rs: HtmlPrinter", "main/src/print/mod.rs: PrintState::inline"]}
{"id": "C28", "title": "HTML output escapes all text", "statement": "Whatever strings occur in the debug information, the text written to the HTML output contains no unescaped markup character, and unescaping it gives back the original string.", "quantifier": "every byte string", "why_tests_cant": "all strings", "anchors": ["main/src/print/html.rs: HtmlWriter / EscapePrinter"]}
{"id": "C29", "title": "HTML elements are balanced", "statement": "For every document the HTML printer emits properly nested open and close tags.", "quantifier": "every document", "why_tests_cant": "universal over documents", "anchors": ["main/src/print/html.rs: HtmlPrinter"]}
{"id": "C30", "title": "Path prefix mapping rewrites with the longest matching prefix", "statement": "When unit paths are compared or filtered, a path counts as having its longest configured matching prefix replaced by the mapping given first for it, the remainder unchanged; a path without matching prefix counts unchanged.", "quantifier": "every option list and path", "why_tests_cant": "all option orders", "anchors": ["main/src/main.rs: prefix-map parsing", "main/src/lib.rs: Options::prefix_map"]}
{"id": "C31", "title": "Filters select exactly the matching items", "statement": "With several filters given, an item is listed iff it satisfies every filter (name, namespace, unit, category, inline) and is not one of the items that are never listed on their own: functions with neither code nor inlining, variables neither declared nor with an address, types shown inside other types, and kinds of types without a listing. Items keep their file order and index.", "quantifier": "every option set and every file", "why_tests_cant": "all combinations of options", "anchors": ["main/src/filter.rs", "main/src/lib.rs: Options::filter_name, filter_namespace"]}
{"id": "C32", "title": "Frame-description lookup by address", "statement": "Looking up call-frame information for an address returns the entry whose range contains the address whenever the recorded ranges are disjoint, and nothing when no range contains it.", "quantifier": "every table of ranges in any initial order and every address", "why_tests_cant": "all tables and addresses", "anchors": ["parser/src/file/dwarf.rs: FdeOffsetTable"]}
{"id": "C33", "title": "Simple location evaluation agrees with the DWARF stack machine", "statement": "When evaluating a DWARF expression yields a location, it is the location the DWARF standard prescribes. (False of the code for expressions using DW_OP_plus / DW_OP_minus; true for the remaining operators up to wrap-around at the size of an address, so that with 4-byte addresses a negative offset can be shown as a large positive one.)", "quantifier": "every operation sequence", "why_tests_cant": "all expressions", "anchors": ["parser/src/file/dwarf.rs: evaluate_simple_internal"]}
{"id": "C34", "title": "Pieces of a composite location are contiguous", "statement": "The bit offsets of the pieces of a variable's location start at zero and each equals the sum of the sizes of the preceding pieces.", "quantifier": "every operation sequence", "why_tests_cant": "all expressions", "anchors": ["parser/src/file/dwarf.rs: evaluate_simple_internal, add_piece"]}
{"id": "C35", "title": "Every function in the debug information is kept", "statement": "Every function entry in the places where functions are looked for yields exactly one function, ordered by debug-info offset, whatever the order or nesting of the references between entries; the search ends even for unresolvable and cyclic references. A function has the code ranges, name, linkage name, declaration and return type given by its own entry, and takes what is missing, and its namespace, from the function it refers to; an instance of an inlined function amends that function's parameters. (Functions inside entries that are not looked into, such as modules, are not kept.)", "quantifier": "every tree of entries with distinct offsets", "why_tests_cant": "all reference graphs and orders", "anchors": ["parser/src/file/dwarf.rs: fixup_subprogram_specifications"]}
{"id": "C36", "title": "Every variable in the debug information is kept", "statement": "A unit has exactly one variable for each variable entry or static member that refers to no other entry, or to one that in turn has a variable, ordered by debug-info offset; a variable takes name, type and namespace from the one it refers to where its own entry gives none. Conversely each variable is that of an entry at its offset and has the name that the entry gives. (That every variable entry has a variable is false of the code: those whose reference does not lead to a variable are dropped, among them all static members defined as DWARF 5 prescribes.)", "quantifier": "every tree of entries with distinct offsets", "why_tests_cant": "all reference graphs and orders", "anchors": ["parser/src/file/dwarf.rs: fixup_variable_specifications"]}
{"id": "C37", "title": "Bit-field positions", "statement": "For DWARF 2/3 bit-fields the bits of memory at the reported position are those of the field for both byte orders; other members are reported at the position given in bytes or bits. Neither depends on the order in which the attributes are stored. (False of the code for bit-fields that extend beyond their storage unit, whose storage size is given only by the type, or for which both an offset in bytes and one in bits are given.)", "quantifier": "every storage size, offset and attribute order", "why_tests_cant": "all attribute permutations and values", "anchors": ["parser/src/file/dwarf.rs: parse_member"]}
{"id": "C38", "title": "Array and subrange bounds", "statement": "The dimensions of an array have the number of elements that their entries describe, whether by a count or by bounds; a subrange reports the bounds its entry gives. (False of the code for negative lower bounds, for empty dimensions given by bounds, and for subranges given by a lower bound and a count, which report lower+count instead of lower+count-1, or by a count alone.)", "quantifier": "all bounds", "why_tests_cant": "all values including wrap-around", "anchors": ["parser/src/file/dwarf.rs: parse_array_type, parse_subrange_type"]}
{"id": "C39", "title": "Call-frame rows carry the right address", "statement": "Every call-frame instruction listed for a function is labelled with the location given by the preceding location changes from the function start and shown as a directive with the same effect on the unwinding state, and the list starts with the start marker and ends with the end marker at the function's end.", "quantifier": "every instruction sequence", "why_tests_cant": "all sequences", "anchors": ["parser/src/file/dwarf.rs: get_cfi, convert_cfi"]}
{"id": "C40", "title": "Frame locations differences are not lost", "statement": "When the two sides of a diff have different sets of frame locations, the diff shows it. (False of the code when the left side has at most one and the right side has several.)", "quantifier": "every pair of frame-location lists", "why_tests_cant": "asymmetric case", "anchors": ["main/src/print/frame_location.rs: diff_list"]}
{"id": "C41", "title": "Report of function sizes", "statement": "The report has exactly one line for each printed name and source that a function with a size has; below it are exactly these functions, in the order of the files' units; its size is the sum of theirs modulo 2^64; the sizes of all lines add up to the sizes of all functions; larger lines come first, in whatever order the groups are held internally; below each function stand its callers, once for each call to its address. A line consists of the size and the name and source (a copy: the size and the path of its unit; a caller: name and source), indented by depth. Printing succeeds unless a function with a size has no address, which does not happen for functions read from DWARF.", "quantifier": "every file, disassembler and order of the hash map", "why_tests_cant": "all groupings, hash orders and call graphs", "anchors": ["main/src/print/file.rs: bloat_index, bloat, bloat_callers, bloat_id"]}
{"id": "C42", "title": "Shortened names in HTML", "statement": "Shortening a symbol name for HTML display leaves a name without brackets unchanged, keeps the text outside generic arguments in order, shows at most two levels of generic nesting, and keeps the full name available whenever the shown one differs. (False of the code for names containing braces outside generic arguments, whose parts are reordered.)", "quantifier": "every name", "why_tests_cant": "all strings", "anchors": ["main/src/print/html.rs: HtmlValuePrinter::name"]}
{"id": "C43", "title": "Exactly the well-formed command lines are accepted", "statement": "A command line is accepted iff every word given for categories, details, filters, sorting and ignoring is a known one with a well-formed value; a category is on iff it is named or none is; every detail, filter, ignore and sort setting has the last value given for it or its default.", "quantifier": "every command line", "why_tests_cant": "all combinations and repetitions of options", "anchors": ["main/src/main.rs: option parsing"]}
{"id": "C44", "title": "Listings are completely ordered by the requested key", "statement": "Units, types, functions and variables are listed in the order of the requested key (name, size or order of the file), with ties kept in file order, and nothing is lost or repeated.", "quantifier": "every option set and every list of items", "why_tests_cant": "sorting with arbitrary ties", "anchors": ["main/src/print/mod.rs: PrintState::sort_list", "parser/src/function.rs: cmp_id_for_sort", "main/src/print/types.rs, function.rs, variable.rs, unit.rs: cmp_by"]}
{"id": "C45", "title": "A comparison pairs items by name", "statement": "Every listed item of both files is in exactly one row of the comparison; two items share a row only if they have the same identity, and for each identity as many are paired as the smaller side has; rows are visited in the requested order and added or deleted rows are left out iff so requested.", "quantifier": "every pair of files and option set", "why_tests_cant": "duplicates of the same name on both sides", "anchors": ["main/src/print/file.rs: merged_units", "main/src/print/unit.rs: merged_types, merged_functions, merged_variables", "main/src/print/mod.rs: MergeResult::cmp, DiffState::sort_list"]}
{"id": "C46", "title": "Both sides can be read off a comparison", "statement": "Text output consists of the document's lines indented by their nesting, and for a comparison the lines not marked as new are exactly the lines printed for the old side while the lines not marked as old are exactly those printed for the new side. (False of the code for the label of a section that has content on one side only, which is shown as common to both.)", "quantifier": "every document and inline depth", "why_tests_cant": "all nestings of sections, lists and blocks", "anchors": ["main/src/print/mod.rs: PrintState, DiffState", "main/src/print/text.rs"]}
{"id": "C47", "title": "Call-frame rows stand where they take effect", "statement": "In the listing of a function's code every instruction and every call-frame row appears exactly once and in order; when both are ordered by address, a call-frame row comes before an instruction iff it applies to the whole function or to an address not above the instruction's.", "quantifier": "every list of instructions and call-frame rows", "why_tests_cant": "all interleavings", "anchors": ["main/src/print/function.rs: print_instructions"]}
{"id": "C48", "title": "Address and size of a variable", "statement": "A variable keeps all places it is described to be at, in order and with their ranges; its address is that of the first place that is a fixed address, and its size is that place's size in whole bytes.", "quantifier": "every list of location expressions", "why_tests_cant": "all combinations of places and values", "anchors": ["parser/src/file/dwarf.rs: evaluate_local_variable_location, evaluate_variable_location, evaluate_parameter_location"]}
{"id": "C49", "title": "Every type in the debug information is kept", "statement": "Every entry of a named type in the places where types are looked for yields exactly one type of the unit, with the name, size, members, base types, variants and other parts that the entry describes (each member and base type at the position its entry gives), in the namespace formed by the entries around it, including functions whose name and namespace are only known through a reference.", "quantifier": "every tree of entries with distinct offsets", "why_tests_cant": "all nestings and reference graphs", "anchors": ["parser/src/file/dwarf.rs: parse_namespace_children, parse_type, parse_structure_type, parse_union_type, parse_enumeration_type, parse_variant_part, parse_variant, parse_subprogram_children, parse_lexical_block"]}
{"id": "C50", "title": "Calls of a function", "statement": "The calls found for a function are exactly those that the call instructions in its ranges make, in order: to the immediate operand, or to the pointer stored at an operand relative to the instruction pointer; of ranges that are not loaded or cannot be disassembled there are none. (False of the code for a pointer that extends past the end of the address space: it panics.)", "quantifier": "every disassembler, list of segments and ranges", "why_tests_cant": "all operands, segments and pointers", "anchors": ["main/src/code.rs: Code::calls, Calls, call_x86, is_imm, is_ip_offset", "main/src/print/function.rs: calls"]}
{"id": "C51", "title": "Pointers in memory and register numbers", "statement": "A pointer of 4 or 8 bytes is read iff one segment has all its bytes, as the number stored there with the lowest byte first; a register or part of it in an operand counts under its DWARF number for x86-64. (False of the code for i386, whose numbers differ.)", "quantifier": "every list of segments, address and register", "why_tests_cant": "all segment boundaries and all registers", "anchors": ["main/src/code.rs: Code::read_mem, Code::range, convert_reg"]}
{"id": "C52", "title": "Names of PLT entries", "statement": "A PLT entry is named after a relocation that one of its instructions refers to, and every such entry gets a name, the right one if it refers to only one symbol. (False of the code for sections after a PLT section that cannot be disassembled.)", "quantifier": "every disassembler, list of sections, segments and relocations", "why_tests_cant": "all layouts of entries", "anchors": ["main/src/code.rs: find_plts"]}
{"id": "C53", "title": "Notes on instructions", "statement": "The notes below an instruction are exactly the functions, PLT entries and relocations that immediate operands refer to, the parameters and variables that are in the registers and stack slots used (after the instruction for the first operand, before it for the others), and the functions, variables, relocations and pointers that operands relative to the instruction pointer refer to. Jumps inside the range are shown relative to its begin, other operands as disassembled.", "quantifier": "every instruction, symbol table and set of locations", "why_tests_cant": "all combinations of operands and locations", "anchors": ["main/src/code.rs: Insn::print, is_reg, is_reg_offset, is_ip_offset"]}
{"id": "C54", "title": "Listing of a function's code", "statement": "If all ranges can be disassembled then all are listed, each with all its instructions and call-frame directives, a directive after the instructions at lower addresses and before those at its address or above; directives are written in assembler syntax; listing never panics. (False of the code: a range that cannot be read hides the ranges after it; a negative offset of def_cfa_offset is shown as a positive number.)", "quantifier": "every function, disassembler and call-frame table", "why_tests_cant": "all range lists and interleavings", "anchors": ["main/src/print/function.rs: print_instructions, print_cfi"]}
{"id": "C55", "title": "Paths of sources and units", "statement": "The path shown for a source position consists of the directory's parts and the file's, preceded by those of the compilation directory iff the directory is relative; it is absolute iff it should be; a unit's name is preceded by its directory iff the name is relative. (False of the code for a file name that is itself absolute, and for an empty directory.)", "quantifier": "every directory, file and compilation directory", "why_tests_cant": "all combinations of slashes", "anchors": ["parser/src/source.rs: Source::path", "main/src/print/unit.rs: print_ref"]}
{"id": "C56", "title": "A type compared with itself is silent", "statement": "For every type that can be printed, the comparison of the type with itself writes exactly the lines printed for it, all as common to both sides, and reports no difference, however the edit distance breaks ties. This covers nested members, variants, base classes, enumerators and padding.", "quantifier": "every file, type, set of options and tie-breaking of the heap", "why_tests_cant": "tests compare a few binaries with themselves", "anchors": ["main/src/print/types.rs: diff", "main/src/print/member.rs", "main/src/print/struct_type.rs", "main/src/print/union_type.rs", "main/src/print/enumeration.rs", "main/src/print/type_def.rs", "main/src/print/base_type.rs"]}
{"id": "C57", "title": "Both sides of a comparison of types can be read", "statement": "In the comparison of two types, the lines not marked as new are, in order, the lines printed for the old type, and those not marked as old are the lines printed for the new type, except for added bare headings; and if no difference is reported then the same lines are printed for both. (False of the code when one type has one base class and the other several.)", "quantifier": "every pair of types of two files, all options and tie-breakings", "why_tests_cant": "all pairs of types", "anchors": ["main/src/print/types.rs: print, diff", "main/src/print/member.rs", "main/src/print/inherit.rs", "main/src/print/mod.rs: DiffState::list"]}
{"id": "C58", "title": "What is printed for a type", "statement": "The lines printed for a type are its kind and qualified name, its source, declaration, size, base classes, members or enumerators, or encoding, each with the documented label and indentation; every member is listed with its position and size in bytes and bits, its name and its type, in the order of the layout with the gaps between them, and below an unnamed member those of its type.", "quantifier": "every type and file", "why_tests_cant": "all nestings of members and all positions", "anchors": ["main/src/print/types.rs: print", "main/src/print/member.rs: print_member, format_bit", "main/src/print/inherit.rs: print_list", "main/src/print/enumeration.rs: print_enumerator"]}
{"id": "C59", "title": "Printing a type terminates unless it nests in itself", "statement": "Printing a type terminates exactly if no infinite chain of types whose members are shown inside each other starts at it, with a result that does not depend on the available depth; and two types of the same kind that can be printed can be compared without error. (A type with an unnamed member of its own type is printed without end: stack overflow.)", "quantifier": "every type and file, also with cyclic references", "why_tests_cant": "all reference graphs", "anchors": ["main/src/print/types.rs: print_members, diff_members", "main/src/print/member.rs: print, diff"]}
{"id": "C60", "title": "How types are written where they are used", "statement": "The text for the type of a member, parameter or variable spells out the type: kind and qualified name, element type and dimensions, parameters and return type, modifiers, bounds; links in it lead to types with an entry that the type is built from; and writing it terminates for types that are not built from themselves. (Different types may be written the same, and types with the same identity differently; a type built from itself is written without end.)", "quantifier": "every type and file", "why_tests_cant": "all combinations of modifiers, arrays and functions", "anchors": ["main/src/print/types.rs: print_ref, ref_id"]}
{"id": "C61", "title": "A function or variable compared with itself is silent", "statement": "For every function that can be printed, the comparison of the function with itself reports no difference, and unless instructions are listed every line is common to both sides and is what is printed for the function with its local variables sorted; however the edit distance breaks ties. The comparison of a variable with itself writes exactly its lines, all common.", "quantifier": "every file, function, variable, nesting of inlined functions, set of options and tie-breaking of the heap", "why_tests_cant": "tests compare a few binaries with themselves", "anchors": ["main/src/print/function.rs: diff", "main/src/print/inlined_function.rs", "main/src/print/function_call.rs", "main/src/print/parameter.rs", "main/src/print/local_variable.rs", "main/src/print/location.rs", "main/src/print/variable.rs: diff"]}
{"id": "C62", "title": "Both sides of a comparison of functions or variables can be read", "statement": "In the comparison of two functions, the lines not marked as new are, up to added headings, the lines printed for the old function with local variables in some order, and likewise for the new function; and if no difference is reported and none is ignored then the same lines are printed; each of the lines for the linkage name, symbol name, source, address, size, inlining and declaration is the same whenever no difference is reported and that line is not ignored by an option; and whether a difference is reported depends on a linkage name, symbol name, address range, size or inlining exactly if its option is not given. Likewise for variables, without any condition: a difference is reported exactly if the printed lines that no option ignores differ. (False for functions when one has one address range and the other several. Differences may be reported where there are none: entries of the stack frame are matched by type offsets, and empty locations are invisible.)", "quantifier": "every pair of functions and variables of two files, all options and tie-breakings", "why_tests_cant": "all pairs", "anchors": ["main/src/print/function.rs: print, diff", "main/src/print/frame_location.rs", "main/src/print/register.rs", "main/src/print/variable.rs", "main/src/print/mod.rs: DiffState::list, ord_list"]}
{"id": "C63", "title": "What is printed for a function or a variable", "statement": "The lines printed for a function are its qualified name and, with the documented labels and indentation and according to the options, its names, source, addresses, size, return type, parameters, local variables, the stack frame, the inlined functions down to the given depth, the call sites, the calls found in the code and the instructions; registers and places in the stack frame of a variable are listed once and in order; the stack frame lists every place of every parameter and local variable, also of inlined functions, once and in order, with the gaps between them. Likewise for a variable.", "quantifier": "every function, variable, file and set of options", "why_tests_cant": "all nestings, orders and duplicates of locations", "anchors": ["main/src/print/function.rs: print_body, frame_variables", "main/src/print/inlined_function.rs: print", "main/src/print/function_call.rs: print", "main/src/print/local_variable.rs: print", "main/src/print/parameter.rs: print", "main/src/print/variable.rs: print_body"]}
{"id": "C64", "title": "Functions can always be printed and compared", "statement": "A function can be printed exactly if the disassembly of its code, where it is asked for, does not fail; with a result that does not depend on the available depth; and two functions that can be printed can be compared without error.", "quantifier": "every function and file", "why_tests_cant": "all nestings of inlined functions", "anchors": ["main/src/print/function.rs: print_body, diff_body", "main/src/print/inlined_function.rs"]}
{"id": "C65", "title": "A file compared with itself is silent", "statement": "For every file that can be printed, the text comparison of the file with itself reports no difference, and writes nothing but the lines for the file (path, addresses, sizes, sections) if they are requested, as common to both sides.", "quantifier": "every file, set of options and tie-breaking of the heap", "why_tests_cant": "tests compare a few binaries with themselves", "anchors": ["main/src/print/file.rs: diff", "main/src/print/unit.rs: diff", "main/src/print/section.rs", "main/src/print/mod.rs: DiffState::sort_list"]}
{"id": "C66", "title": "What is not reported is the same", "statement": "If no kind of difference is ignored and the text comparison of two files reports no difference, then the selected units of both files pair up by name, so that the lines for the files and for the units are the same, and the selected types, functions and variables of paired units pair up by name, so that each is printed the same on both sides (functions up to the order of local variables).", "quantifier": "every pair of files, all options and tie-breakings", "why_tests_cant": "the absence of unreported differences cannot be sampled", "anchors": ["main/src/print/file.rs: diff", "main/src/print/unit.rs: diff, diff_body", "main/src/print/mod.rs: DiffState::sort_list, diff"]}
{"id": "C67", "title": "Structure of the output", "statement": "A printed file is the lines for the file followed by the selected units in the requested order, and a unit is its own lines followed by its selected types, functions and variables, each in the requested order. A comparison consists likewise of rows of matching items in the requested order, functions without code after those with: an item of one side is written as it is printed, marked, and two items are written as compared iff a difference is found in them. A difference is reported iff one of the parts reports one. (A reported difference need not be visible: an item of one side only may have no output.)", "quantifier": "every file and pair of files, all options", "why_tests_cant": "all sets of units and items, all orders", "anchors": ["main/src/print/file.rs: print, diff", "main/src/print/unit.rs: print, diff", "main/src/print/mod.rs: PrintState::sort_list, DiffState::sort_list"]}
{"id": "C68", "title": "The lines for files and units", "statement": "The lines for a file are its path, addresses, total size, the sizes of functions, of variables and of the rest, and its sections; those for a unit are its name, addresses, unknown addresses and the sizes that are not 0. In a comparison, each is written once if it is the same on both sides and else for both sides, numbers with the exact change; address ranges are written next to equal ones; and a difference is reported iff a line is not common to both sides. (False of the code: the size of the rest is a huge number in a comparison if functions and variables overlap; a change by 2^63 or more has the wrong sign.)", "quantifier": "every file, unit and pair of them", "why_tests_cant": "all sizes and range lists", "anchors": ["main/src/print/file.rs: print, diff", "main/src/print/unit.rs: print_body, diff_body", "main/src/print/section.rs", "main/src/print/mod.rs: DiffState::field_u64"]}
{"id": "C69", "title": "What is loaded on demand belongs to its entry", "statement": "On a page, every entry of a unit, type, function or variable carries an id, and what is loaded for that id is the body of that entry; for the instructions of a function, it is their listing; and nothing is loaded for other ids or details. In a comparison, the same holds for entries of one file and for compared units and types. (False of the code for compared functions: they carry the id of their unit, so that the unit is loaded.)", "quantifier": "every file and pair of files, all options and ids", "why_tests_cant": "all positions of items in files", "anchors": ["main/src/print/file.rs: print_id, diff_id, assign_ids, assign_merged_ids", "main/src/print/unit.rs: print, diff", "main/src/print/function.rs: print, diff", "main/src/print/types.rs: print, diff", "main/src/print/variable.rs: print"]}
{"id": "C70", "title": "Parameters and local variables of a function", "statement": "The details of a function have one parameter per parameter entry that refers to no earlier one, first those of the abstract instance and then its own; an entry that refers to one amends it: its name and type are those given last, and its places are those of all the entries in order. The same holds for local variables, including those in lexical blocks at any depth, which also have the first fixed address and size. No entry is lost. (False of the code: names given only by the abstract instance of an abstract instance are missing.)", "quantifier": "every function, every tree of entries, every set of units", "why_tests_cant": "all nestings of blocks, all references between entries", "anchors": ["parser/src/file/dwarf.rs: parse_subprogram_details, parse_abstract_subprogram, parse_lexical_block_details, parse_abstract_lexical_block, parse_parameter, parse_local_variable", "parser/src/file/mod.rs: File::get_function_details"]}
{"id": "C71", "title": "Inlined functions and calls are complete", "statement": "The inlined functions in the details of a function are exactly those that have an entry in it or in a block in it, in that order, and the same inside each of them; each has the origin, code, call position, parameters and variables that its entry and the abstract instance give. The calls are exactly those with a call-site entry; what a call leads to, and its addresses, target, kind and parameters are those the entry gives, uniquely.", "quantifier": "every function, every tree of entries", "why_tests_cant": "nesting of any depth", "anchors": ["parser/src/file/dwarf.rs: parse_inlined_subroutine_details, parse_call_site, parse_call_site_parameter, parse_function_call_origin_offset"]}
{"id": "C72", "title": "The size of an inlined function", "statement": "Every inlined function at any depth stems from an entry of the function, and its size is the sum of the lengths of its address ranges, unless its entry gives no code at all. (False of the code: one whose end is before its start has a huge size and no range.)", "quantifier": "every function, every inlined function in it", "why_tests_cant": "all ranges and nestings", "anchors": ["parser/src/file/dwarf.rs: parse_inlined_subroutine_details", "parser/src/function.rs: InlinedFunction"]}
{"id": "C73", "title": "Two readings of the parameters agree", "statement": "The parameters in the details of a function are the same, in offset, name, type and order, as those in the function's own list of parameters, although the two are read at different times by different code. It is assumed that a function refers to at most one other and that its abstract origin has no abstract origin. (False of the code otherwise.)", "quantifier": "every function of every unit", "why_tests_cant": "all trees of entries and references", "anchors": ["parser/src/file/dwarf.rs: parse_subprogram, parse_subprogram_children, parse_parameter_type, parse_subprogram_details, parse_parameter"]}
{"id": "C74", "title": "Parameters and variables by offset", "statement": "A parameter or local variable is found by an offset iff that is the offset of its first entry; it is then the one that its entries describe. (False of the code: a call through a variable whose entry refers to the abstract instance names an offset under which nothing is found.)", "quantifier": "every function, every offset", "why_tests_cant": "all sets of entries", "anchors": ["parser/src/function.rs: FunctionHash", "parser/src/file/dwarf.rs: parse_function_call_origin_offset"]}
{"id": "C75", "title": "Relocated words", "statement": "An address, length or offset that is read where relocations apply is the target's address plus the addend (and the stored value, if the addend is implicit), less the address of the word for relative relocations, modulo 2^64; the last relocation of an offset counts; elsewhere it is the stored value. Hence any sequence of readings, by any number of readers split from one another, gives what it would give on a section in which a linker has applied the relocations, provided values fit their fields and nothing reads a part of a field. Skipping, cutting and splitting share out the bytes that are left to a reader; if there are too few, nothing happens. (False of the code: values that do not fit a 4-byte field are not cut.)", "quantifier": "every section, byte order, set of relocations and sequence of readings", "why_tests_cant": "all interleavings of readers, all addends and overflows", "anchors": ["parser/src/file/dwarf.rs: add_relocations, Relocate::relocate, impl Reader for Relocate"]}
{"id": "C76", "title": "Units by offset", "statement": "An offset in the section is resolved to the unit that has an entry area around it, with the offset relative to that unit, and to no unit if there is none.", "quantifier": "every list of consecutive units, every offset", "why_tests_cant": "all sizes of units and headers", "anchors": ["parser/src/file/dwarf.rs: DwarfDebugInfo::unit, entry, tree"]}
{"id": "C77", "title": "Ranges of units", "statement": "The address ranges of a unit are those of the sequences of its line-number program that do not start at 0, if it has one, else those of its range list, else from its low to its high address; apart from alignment padding they cover no other address; and the unit starts at the lowest of these addresses.", "quantifier": "every line-number program and every list of attributes", "why_tests_cant": "all orders of rows and sequences", "anchors": ["parser/src/file/dwarf.rs: parse_unit"]}
{"id": "C78", "title": "Enumerators", "statement": "The enumerators of an enumeration are those of its entry, in order, each with its last name and the value of its last usable constant: read without sign if the underlying type is a base type for unsigned numbers, characters, booleans or addresses, else with sign. (False of the code: a name for an unsigned type, or a type for Unicode characters, as the underlying type gives negative values for large constants.)", "quantifier": "every enumeration, every list of entries and constant form", "why_tests_cant": "all constants of all forms", "anchors": ["parser/src/file/dwarf.rs: parse_enumerators, parse_enumerator, parse_base_type", "parser/src/types.rs: EnumerationType::enumerators, encoding, BaseTypeEncoding::is_unsigned"]}
{"id": "C79", "title": "Pages served on demand", "statement": "The server answers a path that is empty, or whose first part is empty, by the whole page; /id/N by the content of the item with the id N; /id/N/parent by the id of its unit; /id/N/code by the instructions of a function; and anything else by an empty response. Loading every entry of the page for one file, as the page's script does, gives a page with nothing left to load, and that page is the one that the HTML output writes, except that lists of instructions are replaced by links which load them. The same holds of the page of function sizes. The rows of a comparison are sent for their ids. (False of the code: an id that does not exist makes the server of a comparison fail, and what it loads for an item of one of the files is not marked as deleted or added.)", "quantifier": "every file or pair of files, set of options, escape function that never gives '<', and path", "why_tests_cant": "all paths and pages; the page is completed by the script and never compared with the static page", "anchors": ["main/src/main.rs: serve, serve_print_file, serve_diff_file, serve_bloat_file", "main/src/print/file.rs: print_id, print_parent, diff_id, bloat_id", "main/src/print/html.rs: HtmlPrinter::indent_id, indent_detail, script in HEADER"]}
{"id": "C80", "title": "From the entries to the lines", "statement": "The text that a run writes for a file has one piece per selected unit of the debug info. In it are the pieces of the selected types, functions and variables of that unit, each once, and nothing else of these categories. The piece of a function starts with a heading made of its namespaces and name, and has its linkage name, source, address ranges, size, inline and declaration mark, return type and parameters, as its entry gives them or as the entry that it refers to gives them. The same holds for variables and types.", "quantifier": "every object file with debug info, every selection of what is printed, every choice that sorting and searching leave open", "why_tests_cant": "all trees of entries combined with all options; tests compare the output for a few programs", "anchors": ["parser/src/file/dwarf.rs: parse, parse_unit", "parser/src/file/mod.rs: File::parse_object, normalize", "main/src/main.rs: print_file", "main/src/print/file.rs: print", "main/src/print/unit.rs: print", "main/src/print/function.rs: print", "main/src/print/variable.rs: print", "main/src/print/types.rs: print"]}
{"id": "C81", "title": "What is found by offset in a file", "statement": "A type that is referred to by the offset of its entry is found, with what the entry says, wherever the entry is: types with a place of their own in the output, as well as pointers, arrays, subranges, functions and pointers to members. Nothing but such entries, and void for the missing offset, is found. The details of a function are those of its entry, and the parameters in them are the ones of the function's description. The source of a type, its enumerators with their values, and the first address of its unit are those that the entries give, read with the properties of the header of the unit they are in. The number that a type, function, variable or unit has in HTML output leads back to it.", "quantifier": "every object file with debug info, every entry and offset", "why_tests_cant": "all trees and references", "anchors": ["parser/src/types.rs: Type::from_offset", "parser/src/file/dwarf.rs: get_type, get_function_details, parse_unnamed_type", "parser/src/file/mod.rs: FileHash"]}
{"id": "C82", "title": "Every symbol is accounted for", "statement": "Every symbol of the file is either at the address of a function or variable of the debug info, or it is in the unit <symtab>, as a function or a variable according to its kind. If that unit is printed then each such selected symbol has exactly one piece there, with its name, address range and size.", "quantifier": "every object file with symbols that do not reach past the end of memory", "why_tests_cant": "all sets of symbols combined with all trees of entries", "anchors": ["parser/src/file/mod.rs: parse_symbols, normalize", "main/src/print/unit.rs: print"]}
{"id": "C83", "title": "Runs come to an end", "statement": "If no type contains itself then the run over a file writes an output, sizes and references of types are the ones that the entries determine, and so are comparisons of types. No bound on the depth is needed: the number of entries is enough for sizes, references and comparisons, and whenever there is an output for one bound then every larger bound gives the same.", "quantifier": "every object file with debug info whose types do not contain themselves", "why_tests_cant": "all depths of types", "anchors": ["parser/src/types.rs: Type::byte_size, cmp_id", "main/src/print/types.rs: print_ref", "main/src/print/struct_type.rs: print_members"]}
{"id": "C84", "title": "A file compared with itself", "statement": "The comparison of a file with itself writes only the unmarked lines for the file as a whole, and no line at all if those are not requested.", "quantifier": "every object file with debug info whose types do not refer to themselves, every selection", "why_tests_cant": "all files", "anchors": ["main/src/main.rs: diff_file", "main/src/print/file.rs: diff"]}
{"id": "C85", "title": "The totals for a file", "statement": "If the lines for the file are requested then they come first: its path, its address ranges if requested, its size, and its sections, which are exactly those that are not empty, with their names, addresses and sizes. The address ranges contain every address of a section with an address, of a unit, of a function, of a variable with a known size and of a symbol that the debug info does not account for. They are in order and apart from each other, the size is the number of their addresses, and each address in them is accounted for by some unit or lies in a gap that is small enough to be padding. The sizes of functions and of variables that are given for a unit are the numbers of addresses that its functions or its variables are at, each counted once, together with the gaps before a multiple of 16 between them; those given for the file are the sums of those of its units.", "quantifier": "every object file with debug info whose addresses stay clear of the end of the address space, every selection", "why_tests_cant": "all combinations of sections, entries and symbols, overlapping or not", "anchors": ["parser/src/file/mod.rs: File::parse_object, normalize, ranges, unknown_ranges", "parser/src/unit.rs: Unit::ranges, unknown_ranges", "main/src/print/file.rs: print", "main/src/print/section.rs: print"]}
{"id": "C86", "title": "Entries of two files that are compared", "statement": "In a comparison of two files, a function, variable or type of the old file with no counterpart of the same name and namespace in a matching unit of the new file is in the report with all of its lines marked as old, and the run has seen a difference; one of the new file with no counterpart in the old one likewise with all of its lines marked as new. One that has exactly one counterpart is compared with it: the lines of the comparison that are not marked as new are those printed for the old file, up to headings of lists that are empty there, and those not marked as old those printed for the new file; the lines are in the report and the run has seen a difference, or the two texts are equal in the lines that no option ignores (for functions: if nothing is ignored; otherwise the lines of their own fields are). Functions with the same name are taken in the order of the first of their parameters whose types differ, whichever of the two files the types are from.", "quantifier": "every two object files with debug info, every selection without HTML", "why_tests_cant": "all combinations of entries of two files, with matching, missing and additional ones", "anchors": ["main/src/main.rs: diff_file", "main/src/print/file.rs: diff", "main/src/print/unit.rs: diff", "main/src/print/function.rs: cmp_by, diff", "parser/src/types.rs: ParameterType::cmp_id"]}
{"id": "C87", "title": "Two files without a difference", "statement": "If each of two files can be printed, then they can be compared. If nothing is ignored and the comparison sees no difference, then every function, variable and type that is requested and described in one of the files has a counterpart with the same name in a matching unit of the other file, and the same is printed for both.", "quantifier": "every two object files with debug info and different paths, every selection without HTML that ignores nothing", "why_tests_cant": "all combinations of entries of two files", "anchors": ["main/src/main.rs: diff_file", "main/src/print/file.rs: diff", "main/src/print/unit.rs: diff", "main/src/print/mod.rs: DiffState"]}
{"id": "C88", "title": "References between entries", "statement": "If the units of a file do not overlap and their entries are at different places, then a look-up by offset finds exactly the entry at that offset, in the unit that it belongs to. A reference leads to the entry that it is to, whether it is given as a place in the unit or in the whole section, and so the type of an entry is the one its last reference to a type leads to, also if it is in another unit.", "quantifier": "every file with debug info, every entry, unit and reference", "why_tests_cant": "all combinations of units, offsets and forms of references", "anchors": ["parser/src/file/dwarf.rs: DwarfDebugInfo::tree, unit, parse_debug_info_offset, parse_type_offset, get_type"]}
{"id": "C89", "title": "Names, sources and addresses of entries", "statement": "The name and the linkage name of an entry are the strings that its last attribute of the kind stands for: given in the entry, in the string section, in the string section of the line tables, or by an index into the unit's table of strings. The file and the directory of its source are those the unit's line table has for the number given, with numbers starting at 1 before version 5 of the table and at 0 from then on, directory 0 of older tables being that of the compilation and number 0 of a file standing for none. Start addresses may be indices into the unit's table; the second address is a length if it is an unsigned constant and an end address otherwise.", "quantifier": "every file with debug info, every entry", "why_tests_cant": "all forms of attributes combined with all versions of line tables and repeated attributes", "anchors": ["parser/src/file/dwarf.rs: DwarfDebugInfo::string, parse_source_file, parse_source_line, parse_source_column, parse_function"]}
{"id": "C90", "title": "Base types and enumerations from their entries", "statement": "The encoding and byte order of a base type are the ones that its entry has. The enumerators that are shown for an enumeration are those of its entry, in order, each with its name and its constant, read without sign just if the type under the enumeration has an encoding without sign.", "quantifier": "every file with debug info, every enumeration, every form of constants", "why_tests_cant": "all combinations of encodings, forms and attributes, with the type possibly in another unit", "anchors": ["parser/src/file/dwarf.rs: parse_base_type, get_enumerators, parse_enumerator"]}
{"id": "C91", "title": "Units, tags and attributes are told apart", "statement": "A file is refused just if one of its units is no compilation unit; otherwise it has one unit for each, in order, with name, directory and language of the root entry, and the version and address size of the header. Entries and attributes are told by their numbers in the DWARF standard, and by those of GNU extensions for calls; others are left alone. Flags, inlining marks, references, constants, range lists, location lists and expressions are what their values stand for, by offset or by index.", "quantifier": "every file with debug info, every tag, attribute and value", "why_tests_cant": "all numbers and forms", "anchors": ["parser/src/file/dwarf.rs: parse, parse_unit, parse_subprogram, parse_variable, parse_type, parse_member, parse_inlined_subroutine, parse_call_site"]}
{"id": "C92", "title": "Pages of whole runs", "statement": "Without HTML output a run over a file or a comparison writes the text that C80 to C87 describe. With HTML output the result of a run over a file, of a comparison of two files and of a report of sizes is a page whose body a browser can read: every element is closed where it should be, there are no other elements than those of the program, and the text on the page and the full names of shortened ones are exactly those of what is printed, whatever characters names, paths and symbols have. For every path that the web server is asked for, in each of the three ways to run it, it sends such a page, a part of a page that can be read by itself, or the number of an id.", "quantifier": "every object file with debug info or two of them, every selection, every path", "why_tests_cant": "all files with all characters in names, all paths", "anchors": ["main/src/main.rs: format, serve, serve_print_file, serve_diff_file, serve_bloat_file", "main/src/print/file.rs: print, diff, bloat, print_id, diff_id, bloat_id", "main/src/print/html.rs: HtmlPrinter"]}
{"id": "C93", "title": "Ids of a whole file", "statement": "Every unit, type, function and variable of a file, also those known only as symbols, is printed with the number under which the server finds it, and no two share one. Loading every entry of the page that the server sends for a file, in order, gives a page on which nothing is left to load, which is the one that HTML output without a server writes, except for links instead of instructions, and the instructions are sent for these links. The same holds for the report of sizes.", "quantifier": "every object file with debug info whose items can be told apart, every selection", "why_tests_cant": "all files", "anchors": ["main/src/print/file.rs: assign_ids, print_id, bloat_id", "main/src/main.rs: serve_print_file, serve_bloat_file", "main/src/print/html.rs: script of the page"]}
{"id": "C94", "title": "The report of sizes of a file", "statement": "The report of sizes accounts for every function that has a size exactly once, whether an entry describes it or only a symbol is known. There is one line for all with the same name and source, with the sum of their sizes, the largest first, under it one for each with its size and the name of its unit, and under that one for each call of it, by the function that makes the call in the order of the file. It is written if no function of an entry ends before it starts, and fails otherwise if there is code at that place.", "quantifier": "every object file with debug info, every program and disassembler", "why_tests_cant": "all combinations of entries and symbols that share names, all calls", "anchors": ["main/src/main.rs: bloat_file", "main/src/print/file.rs: bloat_index, bloat", "main/src/code.rs: Code::calls"]}
{"id": "C95", "title": "Types as their entries in the file say", "statement": "If no type is written with itself then the text for a type is the one that the values in its entry, and in those that it refers to by place in the unit or in the section, spell: base types by name, structures, classes, unions, enumerations and typedefs with the namespaces and types that they are in, modifiers before the type that they modify, arrays with the numbers of elements, functions with parameters and result, pointers to members with both types. Its size is the one given, that of an address, or the one that follows from the types that it refers to, for arrays times the numbers of elements.", "quantifier": "every file with debug info, every entry of a type outside of functions, every chain of references", "why_tests_cant": "all chains of references across units, all forms of strings and constants", "anchors": ["main/src/print/types.rs: print_ref, print_ref_from_offset", "parser/src/types.rs: Type::byte_size", "parser/src/file/dwarf.rs: parse_type, parse_array_type, parse_subroutine_type, parse_type_modifier"]}
{"id": "C96", "title": "A function as its entry in the file says", "statement": "For a wanted function with code the output has the line with its namespaces and name, its linkage name, the name of its symbol, where it is declared, the addresses from start to end, its size, whether it is inlined or only declared, the type that it returns with its size, and one line for each of its parameters in order, with size, name and type, all of them as the values in the entries of the file say.", "quantifier": "every file with debug info, every function whose entry does not refer to another one, every selection of what is printed", "why_tests_cant": "all combinations of attributes, forms and options", "anchors": ["main/src/print/function.rs: print_header, print_body, print_parameters", "parser/src/file/dwarf.rs: parse_subprogram, parse_parameter"]}
{"id": "C97", "title": "A variable as its entry in the file says", "statement": "For a wanted variable the output has, without further lines, the one with its namespaces, name and type, its linkage name, the name of its symbol, where it is declared, its address, the size of its type, and whether it is only declared, all of them as the values in the entries of the file say.", "quantifier": "every file with debug info, every variable outside of functions and types whose entry does not refer to another one", "why_tests_cant": "all combinations of attributes, forms and options", "anchors": ["main/src/print/variable.rs: print, print_body", "parser/src/file/dwarf.rs: parse_variable, parse_location"]}
{"id": "C98", "title": "A type as its entry in the file says", "statement": "For every wanted structure, class, union, enumeration, typedef and base type that is not shown within another type, the output has the line with its namespaces and name, where it is declared, whether it is only declared, and its size, as the values in its entry say. A structure or class is followed by its base classes and by its members and base classes in the order of their positions, each with position and size in bytes and bits, name and type, and with a line for every gap between them, before the first and after the last, even if members overlap or go beyond the end; those with the same place are in the order of the file, members before base classes before variants. A part with variants is shown from the least position of its members to the greatest end, and below it each variant with its name, the value that stands for it or that it is the default, and its members in the same way; in Rust, if a variant's only member is a structure of the same unit, these are the name and the members of that structure. A union is followed by its members in the order of the file. Positions are those that the attributes give for the byte, the bit or the field of bits within an object, for either byte order. Under a member without name, or with a type without name, are the members of its type, and so on; likewise for a typedef of a type without name. An enumeration is followed by its enumerators with their values, and a base type by its encoding and byte order.", "quantifier": "every file with debug info, every type outside of functions", "why_tests_cant": "all layouts, all combinations of ways to give positions and sizes, all depths of nesting", "anchors": ["main/src/print/struct_type.rs, union_type.rs, enumeration.rs, type_def.rs, base_type.rs, member.rs, inherit.rs: print", "main/src/print/types.rs: print_members", "parser/src/types.rs: layout", "parser/src/file/dwarf.rs: parse_structure_type, parse_union_type, parse_variant_part, parse_variant, parse_member, parse_data_member_location, parse_inheritance, parse_enumeration_type, parse_enumerator, parse_typedef, parse_base_type"]}
{"id": "C99", "title": "What only one of two files has, as its entry says", "statement": "When two files are compared, every wanted function, variable and type (structure, class, union, enumeration, typedef, base type) of the first file for which no unit of the second file with the same path has one of that kind in the same namespaces with the same name, is in the output with all its lines marked as removed, and the lines say what the values of the attributes of its entry say (as in C96 to C98); likewise every one that only the second file has, marked as added. The result then says that there is a difference. Nothing depends on the order in which entries occur in the files or on how they are numbered.", "quantifier": "every two files with debug info, every item outside of functions, every option that filters or ignores items", "why_tests_cant": "all pairs of files, with any number of units and items that may be paired", "anchors": ["main/src/print/file.rs: diff", "main/src/print/unit.rs: diff, filter_types, filter_functions, filter_variables", "main/src/print/mod.rs: MergeIterator, DiffState, diff_id, diff_list", "parser/src/types.rs, function.rs, variable.rs: cmp_id", "parser/src/file/dwarf.rs: parse_subprogram, parse_variable, parse_type"]}
{"id": "C100", "title": "What both of two files have, as its entries say", "statement": "When two files are compared, and a wanted function, variable or type of a unit in the first file has, in the only unit of the second file with the same path, exactly one wanted counterpart of the same kind in the same namespaces with the same name (declarations of functions without code do not count), then the lines for the pair without the added ones are what the values of the first entry say (as in C96 to C98), without the removed ones what the values of the second entry say, but for headings above lists that only the other has; and unless these lines are in the output and the result says that there is a difference, the two texts are the same in all lines that no option ignores (functions: if an option ignores something, in the lines of their own fields).", "quantifier": "every two files with debug info, every pair of items with the same name outside of functions", "why_tests_cant": "all pairs of entries, each with its own layout, types and namespaces in its own file", "anchors": ["main/src/print/file.rs: diff", "main/src/print/unit.rs: diff", "main/src/print/mod.rs: diff_id, diff_list, DiffState", "main/src/print/struct_type.rs, union_type.rs, enumeration.rs, type_def.rs, base_type.rs, function.rs, variable.rs: diff", "parser/src/types.rs, function.rs, variable.rs: cmp_id, cmp_by"]}
{"id": "C101", "title": "Functions and variables whose entries refer to others", "statement": "The definition of a function or variable that another entry of its unit declares (a method or a static member of a class, for instance) is printed in the namespaces and types of its declaration, with the name, linkage name, type and, for functions, place of declaration that its own entry gives, or else the declaration; its code, address and flags are those of its own entry, and so are the parameters of a function. A copy of an inlined function is printed with what its own entry gives, or else the entry that it is a copy of, and with the parameters of that one, of which its own entries may give more. A function that is not inlined and has no code is not printed; one that is inlined is printed even without. Code at several places is shown by the list of all of them and the sum of their sizes. A static member that is only declared is printed as a declaration.", "quantifier": "every file with debug info, every chain of references to declarations, every list of places", "why_tests_cant": "all chains of references, all ways to split attributes among the entries", "anchors": ["parser/src/file/dwarf.rs: parse_subprogram, parse_subprogram_children, parse_parameter, parse_variable, parse_member", "main/src/print/function.rs: print_header, print_body", "main/src/print/variable.rs: print", "main/src/print/unit.rs: filter_functions, filter_variables"]}
{"id": "C102", "title": "What is inside a function, as its entries say", "statement": "For every wanted function, the lines under its head are its parameters and then the variables in it or in its lexical blocks, each with size, name and type and, if asked for, the address, the registers and the stack offsets that the expression or list of expressions of its place give, each once and in order; then, if asked for, the stack frame: one line for each offset of a parameter or variable of the function or of any function inlined into it, in the order of offset, size and name, with a line for each gap; then the functions inlined into it, down to the depth asked for, each with the size of its code, the name of the function that it is a copy of, where in the source it is called, and its own parameters, variables and inlined functions. An entry that is a copy of another has the parameters and variables of that one, amended by those of its own entries that refer to them and followed by its other ones.", "quantifier": "every file with debug info, every nesting of blocks and inlined functions, every list of places, every selection of what is printed", "why_tests_cant": "all nestings, all lists of places, all ways to split attributes among copies and what they are copies of", "anchors": ["parser/src/file/dwarf.rs: parse_subprogram_details, parse_lexical_block_details, parse_inlined_subroutine_details, parse_abstract_subprogram, parse_parameter, parse_local_variable, evaluate_parameter_location, evaluate_local_variable_location", "main/src/print/function.rs: print_body, frame_variables", "main/src/print/inlined_function.rs, local_variable.rs, parameter.rs, frame_location.rs, register.rs: print", "parser/src/function.rs: Function::details"]}
{"id": "C103", "title": "The calls and instructions listed for a function", "statement": "For every wanted function, the calls listed are those of the code in its ranges, in order. The instructions listed are, for each of its ranges up to and including the first whose code is not known, the start of the range and then its instructions and call frame directives, each kind in its order and directives at the address where they take effect: each with its address relative to the range, its mnemonic and its operands, where jumps within the range are relative to its start, or else its bytes. Below an instruction there is exactly what can be said about its operands: the function, procedure linkage table entry or relocation at an immediate address; each parameter and variable that is in a register used, or in the memory that is read relative to a register, at that point, with its declared type; the function, variable, relocation or stored value at an address relative to the instruction.", "quantifier": "every file, program, disassembly, function, list of ranges, places of parameters and variables, and call frame information", "why_tests_cant": "all disassemblies, all places of variables relative to all instructions", "anchors": ["main/src/print/function.rs: calls, print_instructions, print_cfi, print_body", "main/src/code.rs: Instruction::print, Code::calls, Disassembler::instructions, read_mem, is_ip_offset, convert_reg", "main/src/print/parameter.rs, local_variable.rs: print_decl"]}
{"id": "C104", "title": "The calls in a function, as their entries say", "statement": "For every wanted function, if asked for, the calls in it or in its lexical blocks are listed, in the order of their entries, and likewise those in each function inlined into it below that one: whether it is the last thing done before returning, its address, or else that it is before a return address, or that this is not known; what is called: the name of the function that the entry refers to, or that a global variable of that name, a local variable, a parameter or a member holds it; the return address, which older entries give as the start of their code; where the address of the function called is; where in the source the call is; and the arguments, each with the name and type of the parameter that its entry refers to, or else of its own, and the places of its value at the call and of what it points to.", "quantifier": "every file with debug info, every nesting of blocks and inlined functions, every entry for a call in either of the two numberings of tags and attributes, every selection of what is printed", "why_tests_cant": "all ways to split attributes among arguments and parameters, all references within and between units, all nestings", "anchors": ["parser/src/file/dwarf.rs: parse_call_site, parse_call_site_parameter, parse_function_call_origin_offset, parse_subprogram_details, parse_lexical_block_details, parse_inlined_subroutine_details", "main/src/print/function_call.rs: print, print_header, print_origin, print_parameter_header", "main/src/print/inlined_function.rs: print", "main/src/print/function.rs: print_body"]}
{"id": "C105", "title": "What the page of a comparison marks", "statement": "On the page of a comparison of two files, a value that is displayed differently for the second file is marked as deleted and that of the second file as added; of what only one file has every value is marked so; and nothing else is: what is displayed in the same way, the names of fields, and instructions are not. Values that differ in the text output are always displayed differently, also where names are shortened to the same. (The other way round is false: a value whose link leads elsewhere is marked although its text is the same. The mark for what has changes in it is not exact either: a line after a part with changes can be marked although it is the same in both files and has nothing below it.)", "quantifier": "every document; every pair of object files and every selection", "why_tests_cant": "all comparisons, all characters in values", "anchors": ["main/src/print/html.rs: line, line_diff, indent_header, HtmlValuePrinter", "main/src/print/mod.rs: DiffState::line_impl, label, indent_impl, block, prefix_delete, prefix_add", "main/src/main.rs: format"]}
{"id": "C106", "title": "The page of a file has line for line what the text output has", "statement": "For the same file and options, the page (-o html) and the text output have the same lines, apart from blank ones and how they are arranged per unit: reading the page as nested lists, with shortened names in full, gives the lines of the file itself at the same depth; then for every unit one entry with its name, in it, if units are selected, the lines of its own fields, and then, each under a title that is there exactly if there is something under it, two levels deeper than in the text output, the lines of its types, of its functions with a size, of its functions without one and of its variables, each in the order of the text output. The page of the report of sizes has exactly the lines of its text output, at the same depth. (False for a base class whose name is empty: the page has a line for it, the text output does not; the report is described for files in which no function has an empty name.)", "quantifier": "every object file, every selection of what is printed, every order, every depth of inlined functions, all names", "why_tests_cant": "all selections and orders, all names, all nestings", "anchors": ["main/src/print/html.rs: HtmlPrinter", "main/src/print/text.rs: TextPrinter", "main/src/print/mod.rs: PrintState", "main/src/print/unit.rs: print, print_body, print_header", "main/src/print/file.rs: print, bloat, bloat_callers", "main/src/main.rs: format, print_file, bloat_file"]}
{"id": "C107", "title": "Selecting and sorting leave the parts of the output as they are", "statement": "The output for a file is made of a part for the file and for each unit one of its own and one for each type, function and variable. With --filter and --category the output is that of the same command without them with parts left out: the part for the file and those of units are left exactly if their category is selected, units exactly if they match the filter for units, and their items exactly if their category is selected and they match the filters; what is left is in the same order and has the same lines, so the sizes of a unit and of the file do not depend on the filters. With another --sort the output has the same parts, in another order of the units and, in each unit, of its types, of its functions and of its variables. The output for a comparison of two files with fewer categories is that with more with lines left out.", "quantifier": "every object file, every pair of command lines that differ only in what they select or in the order; any order of parameters", "why_tests_cant": "all files, all filters and combinations of categories", "anchors": ["main/src/filter.rs: filter_units, filter_types, filter_functions, filter_variables", "main/src/print/unit.rs: print, print_body", "main/src/print/file.rs: print", "main/src/print/mod.rs: sort_list", "main/src/main.rs: main, print_file"]}
{"id": "C108", "title": "More details only add lines", "statement": "With further values for --print and an --inline-depth that is not smaller, everything else being the same, the text output for a file, or for a comparison of two, has all lines of the output without them, in the same order, with the same indentation and the same marks, with lines added; so an item that differs is still shown. If the program writes an output with the further details, it does without.", "quantifier": "every object file and every two, every two command lines of which the second has the --print values of the first and no smaller depth", "why_tests_cant": "all files and all combinations of details; a detail that replaced a line, or moved one, would show for some combination only", "anchors": ["main/src/main.rs: main, parse_options", "main/src/print/function.rs: print, print_body", "main/src/print/inlined_function.rs: print", "main/src/print/function_call.rs", "main/src/print/unit.rs: print", "main/src/print/file.rs: print", "main/src/print/text.rs: inline_begin, indent_body"]}
{"id": "C109", "title": "Ignoring differences only leaves out lines", "statement": "With further values for --ignore, everything else being the same, the text output for a comparison of two files is the output without them with lines left out: no line is added, changed, moved or marked otherwise, provided that calls are not printed or that both command lines ignore the addresses of functions or neither does. If the program writes an output without the further values, it does with them.", "quantifier": "every two object files, every two command lines of which the second has the --ignore values of the first", "why_tests_cant": "all pairs of files and all combinations of values", "anchors": ["main/src/main.rs: main, parse_options, diff_file", "main/src/print/mod.rs: ignore_diff, diff, sort_list", "main/src/print/function.rs: diff_body", "main/src/print/variable.rs: diff_body", "main/src/print/unit.rs: diff", "main/src/print/file.rs: diff"]}
{"id": "C110", "title": "Filters by name leave out lines of a comparison", "statement": "With --filter name=... or --filter namespace=... where there was none, everything else being the same, the text output for a comparison of two files is the output without them with lines left out: no line is added, changed, moved or marked otherwise, so nothing that both files have is reported as deleted or added because of the filter, and what differs is reported in the same way. If the program writes an output without the filters, it does with them. (False for the other two filters: with unit=... a unit is compared with nothing if the other one, with which it is paired otherwise, has another name after an @; with function-inline=... a function that can be inlined in one of the files only is reported as deleted or added.)", "quantifier": "every two object files, every two command lines of which the second has further filters by name or namespace, any order, any set of categories, details and ignored differences", "why_tests_cant": "all pairs of files with any number of items of the same name, all names and namespaces", "anchors": ["main/src/filter.rs: filter_name, filter_namespace, filter_function, filter_variable, filter_type, filter_units", "main/src/print/unit.rs: merged_types, merged_functions, merged_variables, diff_body", "main/src/print/file.rs: merged_units, diff", "main/src/print/mod.rs: MergeIterator, DiffState::sort_list, MergeResult::cmp", "main/src/main.rs: main, parse_options, diff_file"]}
{"id": "C111", "title": "Another order changes only the order of a comparison", "statement": "If a comparison is run again with another --sort, or without one, the text output has the same parts in another order: the part for the files is the same; the units, or pairs of units, are the same; within each of them its own lines are the same, and so are its types, its functions, its functions without code and its variables, or the pairs of these, each with exactly the same lines with the same marks. In particular no line appears, disappears or is marked differently.", "quantifier": "for all pairs of files, all command lines that differ only in --sort, all depths and details, and every choice among shortest edit scripts", "why_tests_cant": "Tests compare files under one order; that an order changes neither which items are paired nor what is shown for them, even for a unit that is shown only if something in it differs, is a statement about all files.", "anchors": ["main/src/print/mod.rs:811-851 DiffState::sort_list", "main/src/print/mod.rs:953-977 MergeResult::cmp", "main/src/print/unit.rs:209-308 diff_body", "main/src/print/file.rs:455-518 diff"]}
{"id": "C112", "title": "A comparison shows only what the files contain", "statement": "With types, functions and variables selected, but not the totals of files and units, every line of a comparison comes from the files: a line that is not marked as added is also written when the first file is printed alone with the same options, and a line that is not marked as deleted is also written when the second one is. The only exception is a line that is just one of the 18 fixed titles of lists, such as members or call sites, which may be written as unchanged although only one of the files has anything in that list. With units selected this is false: a total that changed is written with the amount of the change, which is a line of neither file.", "quantifier": "for all pairs of files whose lists are short enough to be compared and whose paired items have their base classes, address ranges and locations in the same form, all command lines, orders, filters, categories, ignored changes, details and depths, and every choice among shortest edit scripts", "why_tests_cant": "Tests compare particular files; that a comparison takes each line from the right file at every level of nested lists, members and inlined calls is a statement about all pairs of files.", "anchors": ["main/src/print/mod.rs:740-951 DiffState", "main/src/print/unit.rs:209-308 diff_body", "main/src/print/file.rs:455-518 diff", "main/src/print/function.rs", "main/src/print/types.rs", "main/src/print/variable.rs"]}
{"id": "C113", "title": "A comparison shows every line that only one file has", "statement": "With types, functions and variables selected, but not the totals of files and units, and with nothing to be ignored, a comparison leaves out no difference between the lines of the files: a line that is written when the first file is printed alone, but not when the second is, is in the comparison and marked as deleted; a line that is written for the second file only is in it and marked as added. So when the files are exchanged, these lines stay and get the other mark. Nor is such a line missed when both files are compared with a third instead: it has the same mark in one of these two comparisons. This says nothing about lines that are just one of the 18 fixed titles of lists. It is false for a structure named closure, which is printed but left out of every comparison.", "quantifier": "for all pairs of files whose lists are short enough to be compared and whose paired items have their base classes, address ranges and locations in the same form, and without structures named closure, all command lines, orders, filters, categories, details and depths with nothing ignored, and every choice among shortest edit scripts", "why_tests_cant": "Tests compare particular files; that no difference is lost when items, units and nested lists without changes are left out is a statement about all pairs of files.", "anchors": ["main/src/print/mod.rs:740-951 DiffState", "main/src/print/unit.rs:209-308 diff_body", "main/src/print/file.rs:455-518 diff", "main/src/filter.rs:155-225 filter_type"]}
