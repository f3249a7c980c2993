# Formal model of ddbug in Coq: design

## Approach

The model is a set of total Gallina functions that follow the Rust source function by
function. Each definition cites the file and lines it models. The proofs live in separate
files, and the property theorems (`Theorem Cnn_...`) live in `Properties*.v` files, each
followed by `Print Assumptions`. Per area there are four kinds of files:

* `XModel.v`: definitions that follow the source, with citations;
* `XSpec.v`: what the answer should be, written without the model's helpers (relations
  and set-like definitions rather than the code's loops);
* `XProofs.v`: lemmas;
* `PropertiesX.v`: the theorems, a concrete case beside each group (`Example`), and
  `..._refuted` theorems where the natural statement is false of the code.

Conventions:

* 64-bit values are `N` (or `Z` for signed quantities). Wrap-around is written explicitly
  (`mod 2^64`) wherever a property can be affected by it; otherwise the theorem states the
  bound that excludes it. Lengths, indices and fuel are `nat`.
* `Vec<T>` is `list T`; `&mut` parameters become returned values; `Option`/`Result` stay data.
* Panics (index out of range, `unwrap`, debug assertions) are explicit error values.
* `slice::sort_by` is modelled by a stable insertion sort. For a comparison that is a total
  preorder, every stable sort computes the same list, so this is no loss.
* `HashMap`/`BTreeMap` are association lists with insert-overwrites semantics.
* The unspecified tie-breaking of `BinaryHeap::pop` is modelled by nondeterminism: the
  theorems hold for every choice of a minimal-cost entry.
* External crates (`gimli`, `object`, `capstone`, `marksman_escape`, `memmap2`) are not
  modelled; their results are inputs to the model.

## Plan per property

| id | modelled | proof method |
|----|----------|--------------|
| C01-C03 | `RangeList::{push,sort,size}` | invariant over pushes; induction on the sorted list |
| C04 | `RangeList::subtract` (two-cursor loop with fuel) | loop invariant against set difference; refutation witness for exactness |
| C05 | push/sort | permutation argument for unaligned ranges; witness for refutation |
| C06 | `File::normalize` ranges, `File::ranges`, `unknown_ranges`, `Unit::*ranges` | composition of C02 and C04 |
| C07-C08 | `namespace.rs` | induction on chains, refinement to lists read from the root |
| C09-C10 | `types.rs` `cmp_id` with fuel over a finite map of types | refinement to a structural key order; rank argument for termination; witnesses |
| C11 | `MergeIterator` | induction on both lists; counting argument per key |
| C12-C14 | `shortest_path` as a nondeterministic transition system | Dijkstra invariant; termination measure; optimality against all scripts |
| C15-C16 | `layout` | induction over the reversed sorted members |
| C17 | `Variant`/`VariantPart` offsets | fold invariants |
| C18 | `byte_size` | fuel/rank induction; separate inductive relation as spec |
| C19 | `Address`, `Size` | case analysis |
| C20-C21 | `normalize`, `get_symbol`, `FileHash` | invariants over the marking loop; binary search specified relationally |
| C22 | `segment_bytes` | list arithmetic |
| C23-C24 | `assign_ids`, `assign_merged_ids` | induction over units |
| C25-C27 | `PrintState`/`DiffState`/`TextPrinter` as an interpreter over documents | structural induction over documents |
| C28-C29, C42 | `HtmlPrinter`, `HtmlValuePrinter` | structural induction; escape table |
| C30-C31 | `Options` filters, prefix map, `main.rs` option handling | list induction |
| C32 | `FdeOffsetTable` | sortedness and binary search |
| C33-C34 | `evaluate_simple_internal` | simulation against a reference stack machine; witnesses |
| C35-C36 | specification fix-up loops | measure and permutation invariants; witness |
| C37-C38 | `parse_member`, `parse_array_type`, `parse_subrange_type` | arithmetic over attribute lists, permutations |
| C39 | `get_cfi`, `convert_cfi` | induction over instructions |
| C40 | `frame_location::diff_list` | witness and restricted theorem |
| C41 | `bloat_index`, `bloat` | fold invariants |
| C49 | the walk over the entries of a unit | induction over the tree and the fix-up rounds |
| C50-C54 | `Code`, `print_instructions` over an arbitrary disassembler | list induction against relational specifications |
| C55 | `Source::path`, `unit::print_ref` | splitting at slashes |
| C56-C59 | documents of types and of their comparisons | induction on depth and on the script of C12-C14 |
| C60 | `types::print_ref` | induction on depth against a relational spelling |
| C61-C64 | documents of functions and variables and of their comparisons | one invariant over documents (both sides readable, silent on equal input), induction on depth; the flag of a sequence as a disjunction, for the options that ignore differences (`IgnoreSpec.v`) |
| C65-C68 | documents of files and units and of their comparisons | semantics of any document as lines and a flag; composition of C31, C44, C45, C57 and C62 |
| C69 | bodies that are printed or compared for an id | composition of C23 and C24 with the documents |
| C70-C74 | parameters, variables, inlined functions and calls of a function | induction over the tree against lists of entries; grouping invariant for amended entries |
| C75-C78 | relocations, units by offset, unit ranges, enumerators | simulation between a relocating reader and a reader of a linked section; decomposition of row lists |
| C79 | web server, loading of entries | path grammar against splitting; rewriting of texts (one load at a time) by induction over documents |
| C80-C85 | a whole run over one file, from entries to text | composition of C03, C06, C20, C21, C49, C65, C67, C70-C73 and C83; pigeonhole over entries for the depth of types |
| C86, C87 | a whole run over two files, from entries to the report | composition of C49, C57, C62, C66 and C67 with the entries of each file; the report is split at the row of an item |
| C88-C91 | what the values of attributes stand for | relations between values and what they denote, against table look-ups; last attribute of a kind |
| C92-C94 | whole runs in every mode: pages, ids, the report of sizes | composition of the proofs for documents (C25, C28, C41, C79) with those for files (C80-C87): everything that is printed is plain where it is not escaped, the number of an item is its id |
| C95-C97 | from the values in the file to the text of types, functions and variables | mutual induction over relations for text and size, on top of C88-C91, C81 and C83; an order on places replaces an order on types |
| C98 | from the values in the file to the lines of types with their members | mutual induction over relations for the lines of members; a list in the order of the positions, with what has the same place in the order of the file, is what a stable sort gives; the span of variants as the least and the greatest of some numbers; on top of C80, C90 and C95 |
| C99, C100 | from the values in two files to the lines of their comparison: items of one file only, and items of both | what an entry is called from its values, in both files; on top of C86 and C96 to C98 |
| C101 | functions and variables whose entries refer to others: methods, static members, copies | induction over chains of references; an amended list of parameters against updates by place |
| C102 | what is inside a function: parameters and variables with their places, the stack frame, inlined functions | structural induction over nested blocks and inlined functions; amended lists against updates by place; sorted sets of stack slots |
| C103 | the calls and instructions listed for a function, and what is said about their operands | induction over operands, entries and ranges; equivalence of the notes with an inductive relation on texts |
| C104 | the calls in a function, with their arguments | as C102; the last of several attributes with the same meaning; what has no place outside of functions is not found there |
| C105 | what the page of a comparison marks as deleted and added | induction over documents; the page is read back with the mark that applies to each character; the text of a value is read back from its HTML |
| C106 | the page of a file has line for line what the text output has | induction over documents: the page is read back as nested lists; every printed document, also the report of sizes, is shown to be of that kind, and filtering commutes with sorting |
| C107 | filters, categories and the order leave the parts of the output as they are | filtering commutes with sorting by a total preorder, and the lines of an item do not depend on the selection |
| C108 | more details only add lines | a relation of documents of which one has parts added, kept by every printer; sections without lines have no label |
| C109 | ignoring differences only leaves out lines | the same relation for comparisons, where what differs in less differs in more |
| C110 | filters by name leave out lines of a comparison | merging commutes with filtering if the key of an item decides whether it is kept; then the relation of C109 |
| C111 | another order changes only the order of a comparison | the rows are permuted; each row has the same document, and whether anything in a unit differs does not depend on the order of its rows |
| C112 | a comparison shows only what the files contain | each side of what is compared for two items is, up to a fixed set of list titles and the order of locals, what is printed for one item (C56, C62); items printed for a unit or file do not depend on the other file |
| C113 | a comparison shows every line that only one file has | a pair without a reported difference prints the same for both files; otherwise each line of a side is among the marked lines, and its mark follows from C112 |

## Trusted base

* Coq 8.16.1's kernel.
* The faithfulness of the hand-written model to the Rust source (each definition cites it).
* `Print Assumptions` answers "Closed under the global context" for every property theorem
  in `Properties*.v`: no axiom is used, neither of the standard library nor of this
  development. (Files that load `ssreflect` bring the seven `Coq.ssr.ssrunder.Under_rel.*`
  module parameters into the environment; no theorem depends on them.)
* Hypotheses that stand for code outside the model:
  * outcomes that the Rust library leaves open (which of several equal entries a binary
    search or a heap returns) are universally quantified oracles;
  * the comparison of the parameter lists of two functions (`param_cmp`, for
    `Parameter::cmp_type`) is an argument, assumed to be a total preorder where a theorem
    says `consistent pc`. `WholeModel.v` and `PairModel.v` define it and C80-C87 do not assume anything of it;
  * the escaping of HTML text (crate `marksman_escape`) is an arbitrary function `esc`, assumed
    (`escape_ok`) to produce no markup character, to be undone by `unescape`, and to keep the
    plain characters the program itself writes. `C28_escape_ok` proves this for the usual
    table of five entities;
  * `char::is_alphanumeric` is an arbitrary predicate.
* The effect of call-frame instructions and directives (`CfiSpec.v`, after DWARF 5 6.4.2 and the
  assembler's manual) and the stack machine of location expressions (`LocationSpec.v`, after
  DWARF 5 2.5 and 2.6) are part of the statements of C39 and C33. Operations that the code does
  not interpret compute arbitrary functions there, and jumps may go anywhere.
* The tree of debugging information entries is the input of `DieModel.v`; an attribute is given by
  what gimli's accessor for it returns. `RawModel.v` starts one step earlier, from numbers of tags and attributes and
  gimli's `AttributeValue`s, and delivers that tree. The numbers of the DWARF standard in `RawSpec.v` are part of the
  statements of C88-C91, C95-C102 and C104. Which bits of memory a DWARF 2 bit-field consists of
  (`MemberSpec.v`) is part of the statement of C37.
* What capstone returns for a piece of code (`insn` in `CodeModel.v`) is the input of C50-C54: the
  disassembler is an arbitrary function from bytes and address to instructions. The numbering of
  registers in `CodeSpec.v` is that of the System V psABIs.
* The reader of HTML in `HtmlSpec.v` (tags, quoted attributes, text) is part of the statement
  of C25 (HTML), C28, C29, C42, C92, C105 (which adds the marks of `MarkSpec.v`) and C106 (which adds the lists of
  `OutlineSpec.v`). It reads
  the subset of HTML the program writes.

## What is modelled

| area | source | model |
|------|--------|-------|
| ranges | `parser/src/range.rs` | `RangeModel.v` |
| namespaces | `parser/src/namespace.rs` | `NamespaceModel.v` |
| types, sizes, optional values | `parser/src/types.rs`, `lib.rs` | `TypeModel.v` |
| structure layout, variants | `parser/src/types.rs` | `LayoutModel.v` |
| merging and shortest edit path | `main/src/print/{mod,diff}.rs` | `DiffModel.v` |
| files: symbols, attribution, segments, lookup tables | `parser/src/file/mod.rs`, `unit.rs` | `FileModel.v` |
| option values, prefix maps | `main/src/main.rs` 243-454, `main/src/lib.rs` | `OptionsModel.v` |
| filters, order of listings, rows of a comparison | `main/src/filter.rs`, `main/src/print/{unit,file,mod,types,function,variable}.rs` | `FilterModel.v` |
| ids | `main/src/print/file.rs` 13-303, 371-453, 520-738 | `IdModel.v` |
| call-frame tables, their rows, listing with instructions | `parser/src/file/dwarf.rs` 4318-4602, `main/src/print/function.rs` 425-485 | `CfiModel.v` |
| location expressions, addresses of variables | `parser/src/file/dwarf.rs` 3577-4024, `parser/src/location.rs` | `LocationModel.v` |
| functions, variables, types, members and arrays of a unit | `parser/src/file/dwarf.rs` 468-2412, 3156-3245 | `DieModel.v` |
| details of a function: parameters, local variables, inlined functions, calls | `parser/src/file/dwarf.rs` 2573-2678, 2831-3154, 3248-3575, 4191-4245, `parser/src/function.rs` 580-660 | `DetailModel.v` |
| relocations and readers, units by offset, enumerators | `parser/src/file/dwarf.rs` 30-315, 1095-1123, 1842-1911, `parser/src/types.rs` 445-480, 1165-1185 | `ReadModel.v` |
| memory, calls, PLT entries, notes and listing of instructions (x86) | `main/src/code.rs`, `main/src/print/function.rs` 415-563 | `CodeModel.v` |
| names, paths, ranges and registers as text | `main/src/print/{namespace,source,register,range,unit}.rs`, `parser/src/source.rs` | `NameModel.v` |
| references to types as text | `main/src/print/types.rs` 40-202 | `RefModel.v` |
| entries of types and comparisons of types | `main/src/print/{types,struct_type,union_type,enumeration,type_def,base_type,member,inherit}.rs` | `ItemModel.v` |
| entries of functions and variables and their comparisons | `main/src/print/{function,inlined_function,function_call,parameter,local_variable,location,frame_location,register,variable}.rs` | `EntryModel.v` |
| output for files, units and sections, comparisons of two files, parts loaded on demand | `main/src/print/{file,unit,section}.rs`, `main/src/print/mod.rs` (lists, counts) | `ReportModel.v` |
| paths and responses of the web server (header and footer of a page are parameters; a response is missing if the code fails while writing it) | `main/src/main.rs` 560-738 | `ServeModel.v` |
| report of function sizes | `main/src/print/file.rs` 744-915 | `BloatModel.v` |
| output: sections, lines, marks, text and HTML printers, name shortening | `main/src/print/{mod,text,html}.rs` | `PrintModel.v` |
| a whole run over one file: what is read from each unit, the tables built from it, its text | `parser/src/file/{mod,dwarf}.rs` (`parse_object`, `parse`), `main/src/main.rs` 521-565 | `WholeModel.v` |
| a whole run over two files: the order of functions across files, the report | `main/src/main.rs` 521-532, `main/src/print/function.rs` 302-322, `parser/src/types.rs` 1493-1507 | `PairModel.v` |
| values of attributes: strings, offsets, addresses, source files, encodings; root entries of units | `parser/src/file/dwarf.rs` 269-315, 458-519, 1107-1140, 1842-1911, 4124-4190, 4247-4316 | `RawModel.v` |
| a whole run in each mode (print, compare, sizes; text, HTML, server) | `main/src/main.rs` 456-565, `main/src/print/file.rs` 770-910 | `RunModel.v` |

Not modelled: object-file and DWARF decoding done by `object`/`gimli`, CPU instruction
decoding (`capstone`), the HTTP server's I/O, JavaScript in the HTML header (what its loading does to a page is specified in `ServeSpec.v`),
command-line syntax errors handled by `clap`, logging, memory mapping; and
`parser/src/file/pdb.rs`, which is not part of the program (`file/mod.rs` has no `mod pdb`), and
`main/src/print/symbol.rs`, whose functions are not called. Properties whose
entry in `MANIFEST.json` has no theorem are not modelled yet.

## Findings

Statements that turned out false of the code have a `..._refuted` theorem with a witness.
The notes in `MANIFEST.json` list them per property.

## Mutation tests

`seeded/LOG.jsonl` records one line per deliberately wrong edit of a model definition.
`theorems_failed` lists the theorems whose proof (transitively through the lemmas it uses)
no longer goes through after the edit. A failing proof is weaker evidence than the theorem being
false of the edited model; the `claim` field says which claim the edit is meant to break.
