# A Rocq model of CleverCSV

This directory holds a machine-checked model of CleverCSV (the sources in
`/repo`, read as text) and proofs of the properties listed in
`properties.jsonl`.  The proof assistant is Coq 8.16.1.

## Layout

* Model files contain executable definitions.  Every definition cites the file
  and lines it models and says where it simplifies.
* `Spec*.v` files contain the small independent specifications the theorems
  are stated against (layouts, tables, splitting, orders, candidate sets, ...).
* `*Facts.v`, `*Cases.v` and similar files contain lemmas.
* `Props*.v` files contain only the property theorems (closed by `exact`),
  their `Print Assumptions`, and `Example`s showing that hypotheses can be met.
* `tools/` has generators (`gen_properties.py`, `gen_manifest.py`,
  `gen_assumptions.py`), the mutation tester (`mutate.py`, log in
  `seeded/LOG.jsonl`) and a differential test of the CPython model
  (`check_csvlib.py`).

## Conventions

* A Python `str` is a `list N` of code points; a character that is "not set"
  (empty string in a dialect) is handled exactly as the code does it: `NUL` in
  C code, the empty list in Python code.
* Exceptions are values (`pyexc` in `Dialect.v`).  Generators are modelled by
  the finite list of rows yielded followed by the way the generator ended.
* Python sets are modelled by duplicate-free lists; where the code iterates
  over a set, the iteration order is a parameter (any permutation), so
  theorems hold for every hash seed.
* External behaviour (Unicode categories, chardet, lower-casing, codecs) is a
  parameter (a function argument), never an axiom.  The URL pattern and the
  type detector are parameters of the model of dialect detection; `Types.v`
  gives the ones the package ships, and C66 to C68 put them in.
* A theorem named `..._refuted` states that a property a user may expect does
  not hold, with a witness.  `..._partial` would mark a weakened statement;
  there are none at present.

## Trusted base

1. The kernel of Coq 8.16.1 (and its VM for `vm_compute`; `coqchk` accepts the
   development without the VM).
2. The axioms listed by `Print Assumptions`, below.  All of them belong to the
   standard library.  They enter only through Flocq 4.1.0, used for facts about
   binary64 numbers; Flocq itself states no axioms.  Some further standard
   library axioms (the sealed definitions of `Coq.Reals.Rdefinitions` and
   `Coq.ssr.ssrunder`) are loaded with those libraries; no theorem lists them.
3. The faithfulness of the model to the Python and C sources, as described in
   the tables below.
4. The model of the parts of CPython 3.11 the code relies on: `_csv.writer`,
   `_csv.reader` (`CsvReader.v`, for C92 only; without QUOTE_NONNUMERIC),
   `csv.Dialect` validation, `io.StringIO` and text file line splitting
   (`CsvLib.v`, `Files.v`), `str.split`, `str.strip`, slicing, `sorted`
   (stable insertion sort), `set`, `functools.lru_cache`, float arithmetic
   (`Coq.Floats.SpecFloat` for binary64), `abs`, `max`.  `CsvLib.v` was compared
   with the running `csv` module by `tools/check_csvlib.py`, and `CsvReader.v`
   by `tools/check_csvreader.py`.  The parts of the
   `json` module behind `json.dumps` and `json.loads` are written out in
   `Json.v` and were compared with the running module by `tools/check_json.py`;
   floats in JSON are kept as the text of the number.  The C sources of CPython
   (`_csv`, `_json`, `unicode_repr`) were not available: these models were
   written from their known behaviour, cite no lines of them, and rest on the
   comparisons.  The comparisons are finite (600 cases for csv.writer, 900 for csv.reader,
   2730 for json).  `ArgParse.v` (C105) follows the Python source of `argparse`
   and was compared with the running module by `tools/check_argparse.py` (3000
   random command lines); that wilderness hands the declarations and the words
   after the name of the command to `argparse` unchanged is assumed.
   Citations of /repo are checked by `tools/check_citations.py`.
5. `Regex.v`, the meaning of the regular expression constructs that the
   patterns use (`regex` module, VERSION0): ordered backtracking with greedy
   repetition, groups and conditionals on groups, back references, lookahead,
   one-character lookbehind, `^`, `$`.  A repetition stops when a round reads
   nothing.  `tools/check_types.py` compares the transcribed patterns, narrowed
   to ASCII classes, with the `re` module on random strings.

### Assumptions of the theorems

<!-- assumptions: begin (written by tools/gen_assumptions.py) -->
439 theorems: "Closed under the global context"; 26 with axioms of the standard library.

With `ClassicalDedekindReals.sig_forall_dec`, `ClassicalDedekindReals.sig_not_dec`, `Classical_Prop.classic`, `FunctionalExtensionality.functional_extensionality_dep`:

`C71_regular`, `C71_words`, `C72_read`, `C72_round_trip`, `C30_positive`, `C30_uniform_table`, `C33_skip_changes_nothing`, `C33_detect`, `C34_answer`, `C35_limit_never_hit`, `C45_bounds`, `C57_one_escape_any_order`, `C58_highest_score`, `C73_no_skip`, `C78_quoted`, `C78_words`, `C79_quoted`, `C79_words`, `C80_read`, `C80_round_trip`, `C69_regular`, `C70_words`, `C66_no_brace`, `C68_one`, `C97_scores`, `C97_detected`.

Closed:

`C25_base_abstraction_memory_safe`, `C25_merge_memory_safe`, `C25_size_irrelevant`, `C27_abstraction_is_table_shape`, `C27_abstraction_of_parse`, `C27_escaped_newline_refuted`, `C28_fill_empties_canonical`, `C28_fill_empties_exact`, `C29_alphabet`, `C29_closed_quotes`, `C29_nul_exactly`, `C105_detect`, `C105_standardize`, `C105_view`, `C105_code`, `C105_refused`, `C105_dashes`, `C105_any_words`, `C105_order_detect`, `C105_order_standardize`, `C105_apart_refuted`, `C105_unknown`, `C105_ambiguous`, `C105_dashed_name`, `C105_help`, `C71_methods_agree_refuted`, `C71_dashes_refuted`, `C72_every_table_refuted`, `C96_touched`, `C96_no_leftover_refuted`, `C96_in_place`, `C96_outputs`, `C96_chain_refuted`, `C96_stdout`, `C48_detected`, `C48_exact`, `C48_command`, `C48_failures`, `C48_every_detected_dialect_refuted`, `C48_any_filename_refuted`, `C48_quote_in_filename_refuted`, `C86_unquoted`, `C86_quoted`, `C86_read_unquoted`, `C86_read_quoted`, `C86_round_trip`, `C86_spaces_refuted`, `C86_dataframe`, `C86_quoted_dataframe`, `C30_never_raises`, `C30_score_of_table`, `C32_scores_any_order`, `C32_detect_any_order`, `C34_tie_breaker`, `C34_answer_is_candidate`, `C35_limit_restored`, `C35_limit_leaks`, `C35_surrogate`, `C36_symmetric`, `C36_two_escapes_refuted`, `C44_cache_transparent`, `C44_cache_bounded`, `C44_detect_any_capacity`, `C45_share`, `C45_layout`, `C55_three_quotes`, `C55_documented_rule_refuted`, `C56_blank_lines`, `C56_leading_blank_line_refuted`, `C57_hash_order_refuted`, `C73_exit`, `C73_json`, `C73_default`, `C73_plain`, `C73_plain_refuted`, `C74_rows`, `C74_transposed`, `C74_exit`, `C74_empty_refuted`, `C74_windows_refuted`, `C75_module`, `C75_none`, `C75_encoding`, `C75_never_raises_refuted`, `C76_call`, `C76_same`, `C76_missing`, `C76_one_column_refuted`, `C77_runs`, `C77_errors_refuted`, `C99_reads`, `C99_agree`, `C99_agree_texts`, `C92_converted`, `C92_bare`, `C92_standard`, `C92_written_simple`, `C92_written_named`, `C92_standardized`, `C92_all_texts_refuted`, `C43_normal_is_auto`, `C43_normal`, `C43_consistency`, `C43_unknown_method`, `C43_exclusive_refuted`, `C49_answer`, `C49_error`, `C49_total`, `C49_empty`, `C49_bare_cr`, `C49_detected_refuted`, `C22_header_from_file`, `C22_header_given`, `C22_no_rows`, `C22_repeated_names`, `C23_dicts_roundtrip`, `C24_unknown_keys_raise`, `C24_row_written`, `C24_constructor`, `C24_constructor_rejects`, `C24_uppercase_refuted`, `C83_read`, `C83_write`, `C83_round_trips`, `C84_round_trip`, `C88_detect`, `C88_read`, `C88_dataframe`, `C88_stdout`, `C88_file`, `C88_in_place`, `C88_again`, `C88_unquoted_settled`, `C88_twice`, `C88_every_document_twice_refuted`, `C91_kept`, `C91_normal_kept`, `C91_fails`, `C91_sources`, `C91_escape_character`, `C87_stdout`, `C87_file`, `C87_in_place`, `C87_write_table`, `C17_standardize_preserves`, `C17_same_limit_refuted`, `C18_standardize_idempotent`, `C19_in_place_effect`, `C19_exit_codes`, `C19_wrong_arguments`, `C19_one_encoding`, `C19_other_files`, `C19_one_file`, `C20_transpose_cell`, `C20_transpose_twice`, `C20_ragged_loses`, `C20_ragged_write_table_refuted`, `C21_ragged_rejected`, `C21_empty_untouched`, `C21_otherwise_opened`, `C21_written`, `C21_write_then_read`, `C21_success_is_complete`, `C50_sha1sum`, `C50_get_encoding`, `C51_detection_on_prefix`, `C51_no_result`, `C51_dialect_given`, `C51_decoding_error`, `C54_output_onto_input`, `C54_other_output`, `C85_unquoted`, `C85_quoted`, `C85_cr_unquoted`, `C85_cr_quoted`, `C85_orders_refuted`, `C85_words_refuted`, `C46_roundtrip`, `C46_serialize_iff_valid`, `C46_invalid`, `C46_injective`, `C46_printable_ascii`, `C46_strings`, `C46_long_strings_refuted`, `C46_deserialize_validates_refuted`, `C94_loads`, `C94_json_cell`, `C94_dumps`, `C94_deserialize`, `C52_history`, `C52_final_limit`, `C52_one_limit_in_force`, `C52_fitting_limit`, `C52_other_limit`, `C52_accepted_limit_usable_refuted`, `C90_table`, `C90_dicts`, `C90_dataframe`, `C90_detect`, `C90_view`, `C90_standardize`, `C90_header`, `C90_header_cr_refuted`, `C89_consistency`, `C89_url_in_line`, `C89_normal`, `C89_detector`, `C89_blank_end_refuted`, `C89_mixed_ends_refuted`, `C106_stdout`, `C106_outputs`, `C106_in_place`, `C106_detect`, `C106_touched`, `C106_no_crash`, `C106_refused`, `C106_strange`, `C106_help`, `C107_view`, `C107_code`, `C107_refused`, `C107_strange`, `C107_help`, `C107_no_crash`, `C40_first_fitting_form`, `C40_default_delimiters`, `C40_lines`, `C40_shape`, `C40_valid_dialect_refuted`, `C41_unquoted_form`, `C41_single_column`, `C42_quoted_form`, `C42_mixed_form`, `C42_quoted_column`, `C42_quoted_lines`, `C42_rectangular_refuted`, `C42_line_per_row_refuted`, `C42_rectangular_mixed_refuted`, `C102_consistency`, `C102_normal`, `C102_detector`, `C102_repeated`, `C102_any_order_refuted`, `C01_parse_returns_layout_table`, `C01_every_text_has_a_layout`, `C01_plain_cell_value`, `C01_quoted_cell_value`, `C02_only_nul_fails`, `C03_plain_dialect_splits`, `C04_terminators_irrelevant`, `C05_cells_within_limit`, `C05_nonpositive_limit`, `C05_oversize_cell_raises`, `C05_oversize_last_raises`, `C05_lower_limit_cuts`, `C06_quoting_info_irrelevant`, `C07_composition`, `C08_no_text_lost_refuted`, `C08_no_text_lost_without_escapechar`, `C09_escaped_quotes_literal_refuted`, `C09_escaped_cell_value`, `C10_strict_rejects_closing_quote`, `C10_strict_agrees`, `C10_strict_only_cuts_short`, `C10_strict_agrees_without_quotes_refuted`, `C11_cells_come_from_the_text`, `C12_parser_resumes`, `C12_error_is_local`, `C26_buffer_never_overrun`, `C103_cut_inside`, `C103_ends_row`, `C103_without_ends`, `C103_same_rows`, `C103_any_division_refuted`, `C103_without_ends_open_refuted`, `C103_without_ends_limit_refuted`, `C31_trichotomy`, `C31_transitive`, `C31_equality`, `C31_comma_first`, `C31_semicolon_second`, `C31_derived_comparisons`, `C31_sorted`, `C31_sorted_any_arrangement`, `C31_undefined_refuted`, `C37_candidates`, `C37_candidates_encoding`, `C37_empty_triple`, `C37_lone_surrogate`, `C38_url_filter`, `C38_candidates_occur`, `C38_placeholder_refuted`, `C39_exact_without_escape`, `C39_no_quote_character`, `C39_empty_delimiter`, `C39_after_escape`, `C39_wrong_after_escape_refuted`, `C78_every_table_refuted`, `C79_methods_agree_refuted`, `C80_every_table_refuted`, `C13_line_num_counts_rows`, `C13_reader_follows_parser`, `C13_iterating_is_parse_data`, `C14_dialect_object_untouched_refuted`, `C14_simple_argument_is_updated`, `C14_no_params_no_change`, `C14_other_arguments_leave_objects`, `C14_instance_without_strict`, `C15_simple_dialect_roundtrip`, `C15_named_dialect_roundtrip`, `C16_unquoted_roundtrip`, `C16_same_without_escapechar`, `C16_same_without_double_quotes`, `C16_writable_with_escapechar`, `C16_writable_without_escapechar`, `C16_no_delimiter_no_writer`, `C16_double_quote_survives_refuted`, `C47_conversion_roundtrip`, `C47_conversion_without_delimiter`, `C53_writer_params`, `C53_reader_params`, `C53_parse_data_params`, `C53_any_writer_roundtrip`, `C104_parser`, `C104_parse_data`, `C104_reader`, `C104_csv_reader`, `C93_parse_data`, `C93_parse`, `C93_abstraction`, `C93_pattern_score`, `C93_type_score`, `C93_masked`, `C93_tie_breaker`, `C93_tie_breaker_all_refuted`, `C93_writer`, `C93_csv_reader`, `C101_answer`, `C101_read`, `C101_stdout`, `C101_in_place`, `C101_rows`, `C101_last_cell`, `C101_quoted_rows`, `C101_lines`, `C101_quoted_lines`, `C101_cut_line_end`, `C101_any_sample_refuted`, `C101_late_quotes_refuted`, `C81_unquoted`, `C81_quoted`, `C81_escapes_refuted`, `C81_one_row_refuted`, `C82_read`, `C82_round_trip`, `C82_styles`, `C82_backslash_refuted`, `C69_every_regular_refuted`, `C59_quote_rule`, `C59_two_quotes`, `C59_comma_over_space`, `C59_hyphen_loses`, `C59_other_delimiters`, `C59_escape_no_effect`, `C59_escape_shape`, `C59_escape_rule`, `C59_escape_exhaustive`, `C59_each_cell_refuted`, `C59_column_order_refuted`, `C59_both_rule`, `C59_otherwise`, `C59_otherwise_same_delimiter`, `C60_number`, `C60_three_delimiters`, `C60_three_escapes`, `C60_four_delimiters`, `C60_four`, `C61_number`, `C61_characters`, `C61_whole`, `C61_lone_sign`, `C62_time`, `C62_date`, `C62_datetime`, `C63_url`, `C63_email`, `C63_ipv4`, `C63_path`, `C64_text`, `C64_percentage`, `C64_amount`, `C64_bytearray`, `C64_missing`, `C65_first`, `C65_none`, `C65_strip`, `C65_quoting`, `C65_known`, `C66_raises`, `C66_long_integer`, `C66_deep_nesting`, `C66_aborts`, `C66_one_object`, `C67_removed`, `C67_unchanged`, `C67_no_dot`, `C67_other_characters`, `C67_delimiters`, `C67_every_delimiter_refuted`, `C68_share`, `C100_default`, `C100_known`, `C100_stripped_before`, `C100_missing`, `C100_no_group`, `C100_names`, `C100_generator`, `C97_quiet`, `C97_same_result`, `C97_refused`, `C97_limit_not_restored`, `C97_messages`, `C97_escape_message`, `C97_messages_consistency`, `C97_json`, `C97_files`, `C97_stdout`, `C97_unreadable`, `C97_first_row`, `C95_writerow`, `C95_writerows`, `C95_first_failure`, `C95_none`, `C95_header`, `C98_writerow`, `C98_writerows`, `C98_minimal`, `C98_write_table`, `C98_line_terminator`.
<!-- assumptions: end -->

## What is modelled

| source | model | remarks |
|--------|-------|---------|
| `src/cparser.c` | `Parser.v` | the state machine character by character, chunks, buffer growth, field size limit, strict mode, `return_quoted`; allocation failure and reference counting are not modelled |
| `src/abstraction.c` | `Abstraction.v` | all passes with bounds-checked arrays and the pattern stack; bytes above 127 in merged patterns are not decoded as UTF-8; allocation failure is not modelled |
| `clevercsv/cparser_util.py`, `dialect.py` | `Dialect.v`, `CsvLib.v` | `SimpleDialect`, conversion from/to `csv` dialects, orders, `parse_data`, `parse_string`, `field_size_limit` as an explicit state |
| `clevercsv/cparser_util.py` `field_size_limit`, `src/cparser.c` lines reading the limit | `Limit.v` | calls with positional and keyword arguments; the conversion to a C long of `w` bits |
| `clevercsv/dialect.py` `to_dict`, `from_dict`, `serialize`, `deserialize` | `Json.v` | the largest number of digits of an `int` and the recursion depth are parameters |
| `clevercsv/read.py`, `write.py` | `Reader.v`, `Writer.v` | |
| `clevercsv/dict_read_write.py` | `Dict.v` | |
| `clevercsv/wrappers.py`, `utils.py`, `encoding.py` | `Files.v`, `Wrappers.v` | the file system is a finite map; encoding detection is a parameter; pandas is not modelled |
| `clevercsv/console/commands/standardize.py` | `Standardize.v` | the parts that read and write tables |
| `clevercsv/console/commands/_utils.py`, `code.py` | `Codegen.v` | `generate_code`, `parse_int` and the command; `int(s)` and which characters are printable are parameters; `repr` of a string is written out and was compared with the running Python by `tools/check_codegen.py`, as was the reader of string literals in `SpecCodegen.v` |
| `clevercsv/console/commands/detect.py`, `view.py`, `explore.py` | `Console.v` | the `handle` methods; the runtime's text, `str.isspace`, the interactive console and tabview are parameters; what is printed to stderr is not modelled |
| `clevercsv/_optional.py` | `Console.v` | the module system and the comparison of versions are parameters |
| `clevercsv/wrappers.py` `read_dataframe` | `Console.v` | the call of `pandas.read_csv` is the result; keyword arguments other than `encoding` are an opaque value |
| `clevercsv/potential_dialects.py`, `escape.py` | `Potential.v` | the URL pattern and the Unicode categories are parameters; `shipped_url` in `Types.v` is the URL pattern |
| `clevercsv/detect_pattern.py` | `Consistency.v`, `Floats.v` | |
| `clevercsv/detect_type.py` | `Consistency.v` (scores), `Types.v`, `TypesOptions.v` (the detector) | in `Consistency.v` the type detector is a parameter `known`; `Types.v` gives the shipped one with `strip_whitespace=True` and the default patterns, `TypesOptions.v` the class with its options and `gen_known_type` |
| `clevercsv/_regexes.py` | `Regex.v`, `Types.v` | `Regex.v` is a backtracking matcher for the constructs the patterns use; the patterns are transcribed group by group, groups nobody refers to are left out; `\d`, `\p{L}`, `\p{N}`, `\p{Sc}`, `\s`, `str.isspace`, `str.isdigit` and `str.lower` are parameters |
| `clevercsv/break_ties.py` | `Ties.v` | |
| `clevercsv/consistency.py` | `Consistency.v` | cache and global field size limit as explicit state; verbose output is in `Verbose.v` |
| `clevercsv/normal_form.py` | `NormalForm.v` | regular expression character classes are translated by hand; verbose output is in `Verbose.v` |
| `clevercsv/detect.py` | `Detect.v` | the methods `detect`, `sniff` and `has_header`; `int`, `float` and `complex` are a parameter; verbose output is in `Verbose.v` |
| `clevercsv/console/application.py` `build_application` | `ArgMain.v`, `ArgMainMore.v` | only that the words after the name of a command are parsed with its parser and its `handle` is called; the choice of the command, `--verbose`, `--version` and the help texts are not modelled |
| the `register` methods of `clevercsv/console/commands/*.py` | `ArgParse.v` | the declared options and the used part of `argparse`: options with no or one value, one positional argument, one exclusive group; help texts are left out; `int` and the digits of `\d` are parameters; the option `--verbose` of the application is not part of it |

Not modelled: `clevercsv/console` other than the `handle` and `register` methods above,
`clevercsv/cparser.py` type stubs, the work of pandas, what goes to stderr, timing, memory exhaustion, threads.

Size bounds: theorems about float scores assume tables of fewer than 2^50 rows
(and 2^53 cells), far beyond what a Python list can hold in practice; this keeps
conversions from `int` to `float` exact.

## Properties

| id | model | theorems in | method |
|----|-------|-------------|--------|
| C01-C12, C26 | `Parser.v`, `SpecLayout.v` | `PropsParser.v` | a CSV text is the rendering of a layout; the parser returns its denotation; every text has a layout; simulations between configurations |
| C13-C16, C47, C53 | `Reader.v`, `Writer.v`, `CsvLib.v` | `PropsReader.v` | invariants over call histories; the writer's output is the rendering of a layout with the same denotation |
| C17-C21, C50, C51, C54 | `Files.v`, `Wrappers.v`, `Standardize.v` | `PropsFiles.v` | corollaries of the round trip; induction over chunks and file lists |
| C22-C24 | `Dict.v` | `PropsDict.v` | induction over records |
| C25, C27-C29 | `Abstraction.v` | `PropsAbstraction.v` | invariants of the arrays; characterisation of the pattern |
| C30, C32-C36, C44, C45, C55-C58 | `Floats.v`, `Consistency.v` | `PropsConsistency.v` | Flocq for order facts; invariant of the cache; optimality of the selection loop |
| C31, C37-C39 | `Potential.v`, `Dialect.v` | `PropsPotential.v` | set characterisation; uniqueness of the sorted permutation |
| C40-C42 | `NormalForm.v` | `PropsNormal.v` | forms as predicates on lines; layouts for accepted files |
| C43, C49 | `Detect.v`, `SpecDetect.v` | `PropsDetect.v` | case analysis of the method; the rows `has_header` sees are those of the parser on lines split at LF; the vote of each column is stated without the dictionary |
| C46 | `Json.v`, `SpecJson.v` | `PropsJson.v` | the scanner inverts the escapes of `dumps` one character at a time; surrogate pairs need two characters and a valid field has at most one |
| C48 | `Codegen.v`, `SpecCodegen.v` | `PropsCodegen.v` | the specification reads the program back: fixed words and Python string literals; each literal written for a good character evaluates to it; candidates have good characters |
| C52 | `Limit.v`, `SpecLimit.v` | `PropsLimit.v` | the limit in force is the last accepted argument of the history; induction over calls |
| C59, C60 | `Ties.v` | `PropsTies.v` | case analysis per number of dialects |
| C61-C66, C68 | `Regex.v`, `Types.v`, `SpecTypes.v` | `PropsTypes.v` | expressions without assertions denote sets of words; assertions and back references are resolved state by state; the specification states each type on strings without regular expressions |
| C67 | `Types.v`, `Potential.v` | `PropsTypes.v` | a match reads only characters of the classes in its pattern |
| C69, C70 | `Consistency.v`, `Types.v`, `SpecTables.v` | `PropsTables.v` | the text cut at any candidate delimiter is the rendering of a grid, so its parse and scores are known; scores are compared through monotone rounding; the unconditional form is refuted by a concrete text |
| C71 | `Detect.v`, `NormalForm.v`, `SpecTables.v` | `PropsAuto.v` | without quotes only forms 2 and 4 can fit; form 2 at another delimiter would make that delimiter regular, by comparing two parses of the same text |
| C72 | `Wrappers.v`, `Writer.v`, `SpecTables.v` | `PropsAuto.v` | the writer's text of a plain table is the table's text, to which C71 and the layout theorem apply |
| C73 | `Console.v`, `SpecConsole.v`, `Json.v` | `PropsConsole.v` | the output is read back: JSON by the model of `json.loads`, the default output by a reader of string literals, the plain output by cutting off the key |
| C74 | `Console.v`, `SpecFiles.v` | `PropsConsole.v` | padding makes the table rectangular, then the transposition theorem of C20 applies |
| C75, C76 | `Console.v`, `SpecConsole.v` | `PropsConsole.v` | case analysis; the set of installed modules and `pandas.read_csv` are parameters |
| C77 | `Console.v`, `Codegen.v` | `PropsConsole.v` | induction over the pushed lines; the console is a parameter |
| C78 | `Detect.v`, `SpecQuoted.v` | `PropsQuoted.v` | every candidate (d, q) has a layout of the text: the pieces of a row (characters outside quotes, quoted segments) cut at d, so its pattern score is known; without a quote character the quoted cells have no known type |
| C79 | `NormalForm.v`, `Detect.v`, `SpecQuoted.v` | `PropsQuotedFiles.v` | the parity of the quotes before a character tells whether it stands inside quotes; outside them a quote has only the delimiter or a line end beside it, but each normal form with another delimiter puts that one there |
| C80 | `Wrappers.v`, `CsvLib.v`, `SpecQuoted.v` | `PropsQuotedFiles.v` | the writer's text is a quoted table whose flags say what was quoted; without any quoted cell C72 applies, else C79 and the layout theorem of the parser |
| C81 | `NormalForm.v`, `Detect.v`, `SpecQuoted.v` | `PropsSimple.v` | the lines are the rows; form 1, 2 or 3 fits and, by the parity argument of C79 with weaker conditions on the quoted cells, no form of another dialect does |
| C82 | `Wrappers.v`, `CsvLib.v`, `SpecQuoted.v` | `PropsSimple.v` | the writer's text is a quoted table (C80); C81 gives the dialect and the layout theorem the cells |
| C83 | `Wrappers.v`, `Dict.v`, `SpecDictTables.v` | `PropsDictTables.v` | the dictionary reader on a reader whose rows are known (C22); the dictionary writer's rows are those of the table |
| C84 | `Wrappers.v`, `Dict.v`, `SpecDictTables.v`, `SpecQuoted.v` | `PropsDictTables.v` | C82 for the table of the dictionaries, then C83 |
| C85 | `Detect.v`, `SpecHeader.v`, `SpecDetect.v` | `PropsHeader.v` | C81 gives the dialect; without bare CRs the lines that `has_header` reads give the same rows as the parser; with them C49 gives the error |
| C86 | `NormalForm.v`, `Detect.v`, `Wrappers.v`, `Console.v`, `SpecColumn.v` | `PropsColumn.v` | no form with a delimiter fits because no common delimiter occurs outside words; forms 4 and 5 fit; the layout theorem gives the cells and the writer's text is a column |
| C87 | `Standardize.v`, `Wrappers.v`, `Writer.v`, `CsvLib.v`, `SpecExcel.v` | `PropsExcel.v` | the writer's row is computed cell by cell for the excel dialect; the rows come from `file_rows`, the file layer's encoder is lawful (encoding of prefixes, decoding gives the text back) |
| C88 | `Standardize.v`, `Wrappers.v`, `Console.v`, `Detect.v`, `SpecDocument.v`, `SpecExcel.v` | `PropsDocument.v` | one relation `document` covers the four kinds of files; detection and parsing are C81 and C86, the output text is C87; for the second run: the standardized text is again a `document`, since a suspicious pair of characters in it comes from one in the original |
| C89 | `Consistency.v`, `Potential.v`, `Ties.v`, `NormalForm.v`, `Detect.v`, `Regex.v`, `SpecLines.v`, `SpecColumn.v` | `PropsLines.v` | every balanced line is one row of a layout (an unclosed quote would make the number of quotes odd), so both texts have layouts with the same rows and C01 and C30 give the same tables and scores; the candidates are the same set since no delimiter, quote or escape pair involves a line end; the tie breaker only sees tables; the URL matcher is shown local by induction over the pattern |
| C90 | `Wrappers.v`, `Console.v`, `Detect.v`, `SpecLines.v` | `PropsLineFiles.v` | C89 gives the same dialect for both texts; the detected dialect only has characters for which a balanced line is one row, so by C01 both files parse to the rows of the lines; the commands and wrappers see nothing but these rows and the dialect; the header vote does not depend on the order of the column set |
| C91 | `Potential.v`, `NormalForm.v`, `SpecEncoding.v` | `PropsEncodings.v` | inductions over the characters and the pairs of neighbours: the first lost character stops the loop with its error, and otherwise the loops use nothing but the decoded character; the cache of escape characters only holds characters that could be decoded |
| C92 | `CsvReader.v`, `Parser.v`, `Reader.v`, `Writer.v`, `SpecCsvReader.v`, `SpecLayout.v` | `PropsCsvReader.v` | a simulation of the two state machines on texts without quote and escape characters; for the others an induction over the layout of the text, which the parser reads as denoted (C01); the writer's texts are such layouts (C15, C87) |
| C93 | `Parser.v`, `Abstraction.v`, `Consistency.v`, `Potential.v`, `Ties.v`, `CsvLib.v`, `CsvReader.v`, `SpecRename.v` | `PropsRename.v` | every function only compares characters with each other and with NUL, CR and LF, so a one-to-one map that keeps these commutes with each step; the proofs follow the definitions (`Rename.v`, `RenameTies.v`). Comma, space and hyphen are named in `break_ties_two`, the space in the csv functions; sorting and the search for potential dialects use the order and the categories of characters and are not covered |
| C94 | `Json.v`, `Types.v`, `SpecJsonText.v` | `PropsJsonText.v` | the grammar is a set of inductive relations without fuel or positions; soundness by induction on the fuel of the scanner, completeness by induction on the derivation, with the rest of the text universally quantified. Strings are lists of pieces (plain characters, short escapes, \\u escapes, pairs). Text written by json.dumps is shown to be in the grammar, so reading back is a corollary. |
| C95 | `CsvLib.v`, `Writer.v`, `Dict.v`, `SpecWriteErrors.v` | `PropsWriteErrors.v` | one case lemma per writer function (character, field, empty field, row): it either fails and the condition holds, or returns a text and the condition does not; under QUOTE_NONE the text is followed far enough to know when it is empty. Headers: induction on the names with the dictionary generalised. |
| C96 | `Standardize.v`, `SpecFiles.v`, `SpecBatch.v` | `PropsBatch.v` | one run depends on the content of its own input only and changes its own target only (locality and frame lemmas for `handle_path`); induction over the files, where the targets of earlier files are apart from later inputs and targets; the command line of one file is shown to give the same job. |
| C97 | `Verbose.v` (messages added to `Consistency.v`, `NormalForm.v`, `Detect.v`, `Standardize.v`, `Console.v`), `SpecVerbose.v` | `PropsVerbose.v` | the run with a standard output that takes everything is the reference; a run with another one is cut at the first refused line (induction over the candidates); the incumbent is the largest score so far because no score exceeds its pattern score; the commands prepend the messages to what they print. The text of a float with six decimals is a parameter. |
| C98 | `CsvLib.v`, `Wrappers.v`, `SpecWritten.v` (the text of a value, row and table, without the writer's state) | `PropsWritten.v` | the writer of `_csv.c` appends piece by piece and decides on quotes while it scans the value; one lemma per quoting style identifies the decision with the spec's `char_quotes`, a row lemma handles the empty single value; `write_table` from the earlier lemmas about written files. |
| C99 | `CsvReader.v`, `Parser.v`, `SpecLayout.v`, `SpecCsvLayout.v` | `PropsCsvLayout.v` | `csv.reader` is run over the rendering piece by piece: quotes at the start of a cell, quotes elsewhere as plain atoms. For the other direction the first cell that does not agree: rows and fields once saved are only extended, so the two values of that cell differ whatever follows. Open quotes at the end are covered: the opening quote alone is dropped by both, but CleverCSV also drops a doubled quote at the very end. Not covered: dialects with an escape character (only the first theorem speaks of them). |
| C100 | `TypesOptions.v` (the class with its two options and `gen_known_type`), `SpecTypesOptions.v` | `PropsTypesOptions.v` | each test with the default patterns is the test of `Types.v` on changed data, so the descriptions of C61 to C65 apply to both; type by type, a text of that type has no white space at its ends, or keeps the type when stripped (text, and a datetime with junk behind a second sign). Missing patterns: every test gives an AssertionError or the same answer, by its structure. Patterns are functions from texts to the result of `fullmatch`. |
| C101 | `Wrappers.v`, `Standardize.v`, `NormalForm.v`, `SpecDocument.v`, `SpecSample.v` | `PropsSample.v` | The theorems of C88 only need the answer of the normal form for the sample, which is given if the sample is in simple form; parsing the whole file with that dialect is C88's. Cutting a table behind a row or in the last cell of a row keeps the number of cells, the characters of the cells and the absence of escape-like pairs. A CR at the end of the sample is stripped like a whole line end, and is neither delimiter nor quote. |
| C102 | `Consistency.v`, `Ties.v`, `NormalForm.v`, `Detect.v`, `SpecOrder.v`, `SpecLines.v` | `PropsOrder.v` | On balanced lines the candidates are the same set (C89's argument, for sets of lines) and every line is one row whichever candidate reads it. So the pattern score is a function of the row lengths, the type score of the multiset of cells, and the tie breaker of row-wise comparisons; the first depends on the order through a rounded sum over the kinds of rows in order of first appearance, which agrees for the same order or two summands. The normal forms test every line alone and compare lengths. Refuted in general by three lines. Not covered: blank lines, cells the type detector raises on. |
| C103 | `Parser.v`, `SpecPieces.v` | `PropsPieces.v` | The parser is rewritten without fuel over a list of strings and with the real next character as look-ahead. The parity of the quotes read so far decides the state: odd is IN_QUOTED_FIELD, where the end of a string changes nothing and the look-ahead does not matter; even is a state in which the end of a string saves the cell and ends the row. Lines with and without line ends run in lockstep: same state, same cells up to line ends; the buffer never starts with a line end, and ends with one only inside quotes, so quotes are removed alike. |
| C104 | `Parser.v`, `Reader.v`, `CsvReader.v`, `SpecRefuse.v` | `PropsRefuse.v` | Step by step: strict mode and the limit occur only in tests whose one branch is an error, so a step that succeeds has the same result in the laxer run, and one that fails fails there with the same error unless that is EQuoteExpected, EUnexpectedEnd or EFieldLimit. |
| C105 | `ArgParse.v`, `SpecArgs.v` | `PropsArgs.v` | A command line is described by its parts (runs of file names, grouped flags, options with a value in any of the spellings). The marks of the words are computed part by part; the loop of `argparse` then handles one part at a time, and the namespace after it is a fold over the parts, which `latest`, `given` and `values` describe. For all words: the loop consumes at least one word per round, each stored attribute has the kind of its declaration, and defaults fill in the rest. Words that name no option: the lookups of `_parse_optional` fail one by one, and the loop keeps either the word or the list of unrecognized words until the end. |
| C106 | `ArgMain.v`, `ArgParse.v`, `Standardize.v`, `Console.v`, `SpecMain.v`, `SpecArgs.v`, `SpecDocument.v` | `PropsMain.v` | C105 gives the arguments, C88 the result for each file alone; an induction over the files shows that earlier files do not disturb later ones. For arbitrary words an invariant of the loop of `argparse` says that file names are words and values are ends of words; with C96 only these files can change. |
| C107 | `ArgMainMore.v`, `ArgParse.v`, `Console.v`, `Codegen.v`, `SpecMain.v`, `SpecArgs.v`, `SpecDocument.v`, `SpecCodegen.v` | `PropsMainMore.v` | C105 gives the arguments and C88 the detected dialect and the rows; the rows of a table in simple form have one length, so `view -t` pads nothing; the generated lines are read back as a program as in C48 and its rows are those of the parser; C77 says that explore pushes the same lines. Unknown options, the help and arbitrary words are as in C105. None of these three commands has two options with a common beginning, so nothing is said about ambiguous ones. |
