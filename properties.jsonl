{"id": "C01", "title": "Reading a laid-out text returns exactly the table the layout denotes", "statement": "Take any dialect with distinct non-newline characters and any CSV layout: a list of lines (or quoted multi-line records) built from plain cells, cells with escaped characters, quoted segments with doubled quotes, delimiters and CR/LF/CRLF record ends. Parsing the rendered text with parse_string in non-strict mode returns, without error, exactly the table of (value, is_quoted) pairs the layout denotes; no cell is split, merged, lost or reordered.", "quantifier": "all dialects, all layouts (any number of rows, cells and characters), all field size limits that are large enough", "why_tests_cant": "the parser is a 9-state machine with look-ahead driven by line chunks; a finite set of files exercises a vanishing fraction of the state/lookahead/line-boundary combinations", "anchors": ["src/cparser.c:Parser_iternext", "src/cparser.c:parse_process_char", "clevercsv/cparser_util.py:parse_string"]}
{"id": "C02", "title": "Parsing a string never fails except for NUL characters or an oversized field", "statement": "In non-strict mode with a field size limit of at least the length of the text, list(parse_string(data, dialect)) raises if and only if data contains a NUL character, and then with the 'line contains NULL byte' error; in particular the 'new-line character seen in unquoted field' error cannot be produced by parse_string.", "quantifier": "every text and every (delimiter, quotechar, escapechar) triple, including degenerate ones where the characters coincide or are newlines", "why_tests_cant": "unreachability of an error branch is a statement about all inputs", "anchors": ["src/cparser.c:parse_process_char", "src/cparser.c:Parser_iternext", "clevercsv/cparser_util.py:parse_string"]}
{"id": "C03", "title": "Without quote and escape characters parsing is line splitting followed by delimiter splitting", "statement": "For a dialect with no quotechar and no escapechar, parsing a NUL-free text yields one row per physical line (lines end at LF, CR or CRLF): the empty row for an empty line, otherwise the line split at every occurrence of the delimiter (the whole line as one cell if there is no delimiter), with every cell reported as unquoted.", "quantifier": "every NUL-free text and every delimiter", "why_tests_cant": "an equality of two functions on all strings", "anchors": ["src/cparser.c:parse_process_char", "clevercsv/cparser_util.py:parse_string"]}
{"id": "C04", "title": "The line terminator style does not change the parsed table", "statement": "Rewriting each record end of a layout independently to LF, CR or CRLF leaves the parsed table unchanged.", "quantifier": "every layout, every assignment of terminators to record ends (subject to CR followed by LF being one terminator)", "why_tests_cant": "the combinations of terminators are unbounded", "anchors": ["src/cparser.c:parse_process_char", "clevercsv/cparser_util.py:parse_string"]}
{"id": "C05", "title": "No parsed cell exceeds the field size limit, and exceeding it is always an error", "statement": "Whatever the input iterable yields, no cell returned by the parser or reader is longer than the field size limit in force; with a non-positive limit no row with a non-empty cell is returned; and a plain cell longer than the limit makes the parser raise instead of truncating.", "quantifier": "every iterable of lines, dialect, limit", "why_tests_cant": "safety property over all inputs and all positions at which the limit is reached", "anchors": ["src/cparser.c:parse_add_char", "src/cparser.c:parse_save_field", "clevercsv/cparser_util.py:field_size_limit"]}
{"id": "C06", "title": "Requesting quoting information does not change the cells", "statement": "Parsing with return_quoted=True yields the same rows, the same cells and the same error (if any) as with return_quoted=False, each cell being paired with a boolean.", "quantifier": "every iterable of lines, every dialect, every limit, strict or not", "why_tests_cant": "equivalence of two modes on all inputs", "anchors": ["src/cparser.c:parse_save_field", "clevercsv/cparser_util.py:parse_data"]}
{"id": "C07", "title": "Parsing is compositional at record boundaries", "statement": "If parsing the lines L1 ends exactly at a record boundary, then parsing L1 followed by any lines L2 yields the rows of L1 followed by the rows of L2 (and L2's error, if any): earlier records never influence later ones.", "quantifier": "all pairs of line sequences", "why_tests_cant": "a statement about all histories of the parser object", "anchors": ["src/cparser.c:Parser_iternext", "src/cparser.c:parse_reset"]}
{"id": "C08", "title": "Text is not silently lost at the end of the input", "statement": "A user relies on every non-empty input producing rows that contain its text. This fails: when the last record ends in a dangling escape character right after a delimiter the whole record disappears without an error. When there is no escape character the concatenated cells of the last record are never dropped: a non-empty text produces at least one row and the row count is exactly determined.", "quantifier": "every text; the counterexample is a concrete text", "why_tests_cant": "loss occurs only for a rare state at end of input", "anchors": ["src/cparser.c:Parser_iternext"]}
{"id": "C09", "title": "Escaped quote characters are literal", "statement": "A user relies on an escaped quotechar in an unquoted cell being a literal character. This fails when the first and the last character of the unescaped cell are both quotechars: the parser then strips them and reports the cell as quoted. It holds for every other cell.", "quantifier": "all cells made of plain and escaped characters", "why_tests_cant": "requires ranging over all cell contents", "anchors": ["src/cparser.c:parse_save_field", "src/cparser.c:_quotecond"]}
{"id": "C10", "title": "Strict mode never accepts a closing quote", "statement": "A user relies on strict mode accepting well-formed CSV. It does not: in strict mode every text in which a quoted segment is closed raises, even if the quote is directly followed by the delimiter or the end of the line. On texts containing neither the quote nor the escape character strict mode and non-strict mode agree (a dangling escape at the end of a text without quotes is accepted in non-strict mode only), and strict mode never changes rows, it only cuts the result short with an error.", "quantifier": "all texts and dialects", "why_tests_cant": "the agreement half is an equivalence on all inputs", "anchors": ["src/cparser.c:parse_process_char"]}
{"id": "C11", "title": "Parsed cells contain only characters of the input, in order", "statement": "Without an escape character the concatenation of all cells of all rows is a subsequence of the input text, and with an escape character every character of every cell occurs in the text, except for a line feed added for an escape character dangling at the end of a line chunk inside quotes.", "quantifier": "every text, every dialect", "why_tests_cant": "provenance property over all inputs", "anchors": ["src/cparser.c:parse_process_char", "src/cparser.c:parse_save_field"]}
{"id": "C12", "title": "Rows before an error are delivered, and the parser resumes on the next line after an error", "statement": "When the parser raises on some line, all records completed on earlier lines have been delivered unchanged, and a subsequent call continues with a fresh record on the following line as if the parser had been newly created on the remaining lines.", "quantifier": "all sequences of calls on all iterables", "why_tests_cant": "history property of a stateful object", "anchors": ["src/cparser.c:Parser_iternext", "src/cparser.c:parse_reset", "clevercsv/read.py:reader.__next__"]}
{"id": "C13", "title": "reader.line_num counts the rows returned, and the reader returns the parser's rows", "statement": "After any number of successful next() calls on a fresh reader, line_num equals the number of rows returned so far; the rows are those of parse_data under the reader's dialect and the limit in force when iteration started; errors and exhaustion do not advance line_num.", "quantifier": "all call histories and inputs", "why_tests_cant": "invariant over histories", "anchors": ["clevercsv/read.py:reader"]}
{"id": "C14", "title": "Constructing a reader with overrides changes the caller's dialect object", "statement": "A user relies on reader(f, dialect, delimiter=...) leaving the dialect object alone. It does not: when dialect is a SimpleDialect the object itself is updated, so a second reader built from the same object without overrides parses with the overridden characters. Without format parameters the object is unchanged; and a csv.Dialect instance without a 'strict' attribute is rejected with AttributeError.", "quantifier": "all dialects and parameter lists", "why_tests_cant": "aliasing behaviour over all parameter combinations", "anchors": ["clevercsv/read.py:reader._make_simple_dialect"]}
{"id": "C15", "title": "Writing a table with a quoting dialect and reading it back returns the table", "statement": "For every dialect with a delimiter and a quotechar (distinct, not newlines, not NUL), with or without an escapechar, and every table of NUL-free cells, the text written by writer(dialect=...).writerows is accepted and read back by parse_string with the same dialect as exactly the same table (including empty rows, empty cells, embedded quotes, delimiters, escapes and newlines).", "quantifier": "all tables (ragged, any size), all such dialects, all limits large enough", "why_tests_cant": "codec round-trip over all tables", "anchors": ["clevercsv/write.py:writer", "clevercsv/dialect.py:SimpleDialect.to_csv_dialect", "src/cparser.c:Parser_iternext"]}
{"id": "C16", "title": "Writing with an unquoted dialect either raises or round-trips, except for double quotes behind an escape character", "statement": "With a SimpleDialect without quotechar: if there is no escapechar, whenever the write succeeds the text reads back as the same table; if there is an escapechar it reads back as the same table provided no cell contains a double-quote character; a cell with a double quote is written escaped and reads back with an extra escape character. A dialect without delimiter cannot be written at all (csv.Error).", "quantifier": "all tables, all such dialects", "why_tests_cant": "round-trip over all tables; the failing cell is easy to miss", "anchors": ["clevercsv/write.py:writer", "clevercsv/dialect.py:SimpleDialect.to_csv_dialect"]}
{"id": "C17", "title": "Standardising preserves the table", "statement": "For every file content and dialect for which reading succeeds, the text that `clevercsv standardize` writes (excel dialect) is read back with the excel dialect as exactly the same rows, cell for cell.", "quantifier": "every text and dialect, for any limit with two characters of slack", "why_tests_cant": "composition of parser, writer and parser on all inputs", "anchors": ["clevercsv/console/commands/standardize.py:StandardizeCommand._write_direct"]}
{"id": "C18", "title": "Standardising is idempotent", "statement": "Standardising an already standardised text (reading it with the excel dialect) reproduces it byte for byte; in-place mode therefore reports 0 the second time.", "quantifier": "every text and dialect", "why_tests_cant": "fixpoint statement over all inputs", "anchors": ["clevercsv/console/commands/standardize.py:StandardizeCommand._write_direct", "clevercsv/console/commands/standardize.py:StandardizeCommand._in_place"]}
{"id": "C19", "title": "The in-place exit code tells whether the file changed, and the table survives", "statement": "Standardize --in-place returns 0 exactly when the file content is left as it was and 2 exactly when it was replaced; with several files processing stops at the first failure (1), earlier files keep their new content, later files are untouched, and the exit code is that failure, or otherwise the first non-zero code.", "quantifier": "all lists of files and contents, all hash functions (the code is 0 exactly when the two contents have the same hash)", "why_tests_cant": "quantifies over all file lists and histories", "anchors": ["clevercsv/console/commands/standardize.py:StandardizeCommand.handle", "clevercsv/console/commands/standardize.py:StandardizeCommand._in_place"]}
{"id": "C20", "title": "Transposing keeps all cells of rectangular tables only", "statement": "On a non-empty rectangular table transposition moves cell (i,j) to (j,i) and applying it twice gives the table back; on a ragged table (for instance a file with one blank line) cells are silently dropped: `standardize --transpose` and write_table(transpose=True) can then lose every cell, and write_table does not raise the documented ValueError.", "quantifier": "all tables", "why_tests_cant": "universally quantified; the loss needs a ragged table", "anchors": ["clevercsv/wrappers.py:write_table", "clevercsv/console/commands/standardize.py:StandardizeCommand._write_transposed"]}
{"id": "C21", "title": "write_table rejects ragged tables before touching the file", "statement": "write_table creates or truncates the output file only if the table is non-empty and (after transposition) all rows have equal length; otherwise the file system is unchanged, with ValueError exactly for a non-empty ragged table without transpose.", "quantifier": "all tables, all prior file contents", "why_tests_cant": "quantifies over all tables and states", "anchors": ["clevercsv/wrappers.py:write_table"]}
{"id": "C22", "title": "DictReader maps every non-blank record to its header", "statement": "Each item returned by DictReader corresponds to the next non-blank record: the i-th field name maps to the i-th cell, missing cells map to restval, surplus cells are collected under restkey, nothing else is in the dictionary, keys appear in header order, and no non-blank record is skipped.", "quantifier": "all headers without duplicates, all inputs, all call histories", "why_tests_cant": "history property over all inputs", "anchors": ["clevercsv/dict_read_write.py:DictReader"]}
{"id": "C23", "title": "Writing dictionaries and reading them back returns the dictionaries", "statement": "For a non-empty list of dictionaries with string keys and values that all have the keys of the first one, write_dicts followed by reading the text with DictReader and the same dialect returns the same dictionaries.", "quantifier": "all lists of dictionaries over NUL-free strings", "why_tests_cant": "round-trip over all inputs", "anchors": ["clevercsv/wrappers.py:write_dicts", "clevercsv/dict_read_write.py:DictWriter", "clevercsv/dict_read_write.py:DictReader"]}
{"id": "C24", "title": "DictWriter rejects unknown keys exactly in raise mode, spelled in lower case", "statement": "With extrasaction='raise' a row with a key that is not a field name raises ValueError and writes nothing; otherwise the written row has, for each field name in order, the value of that key or restval. The constructor accepts any capitalisation of 'raise', but 'RAISE' then silently drops unknown keys.", "quantifier": "all field names and rows", "why_tests_cant": "decision rule over all dictionaries", "anchors": ["clevercsv/dict_read_write.py:DictWriter"]}
{"id": "C25", "title": "The C abstraction routines never write or read outside their buffers", "statement": "During base_abstraction and c_merge_with_quotechar every array access is within the currently allocated size, for every input string, including after any number of reallocations.", "quantifier": "all input strings and dialect characters", "why_tests_cant": "buffer growth boundaries occur at unbounded lengths", "anchors": ["src/abstraction.c:base_abstraction", "src/abstraction.c:c_merge_with_quotechar"]}
{"id": "C26", "title": "The parser's growing field buffer is never overrun", "statement": "Every character appended to the field buffer is stored at an index below the allocated size.", "quantifier": "all inputs, limits and histories", "why_tests_cant": "growth boundaries at 4096*2^k", "anchors": ["src/cparser.c:parse_add_char", "src/cparser.c:parse_grow_buff"]}
{"id": "C27", "title": "The abstraction describes the shape of the parsed table", "statement": "For every text whose quoted segments are all closed and in which no escape character stands before a line terminator, make_abstraction returns the shape of the table the parser returns for the same text and dialect: one C per cell joined by D, non-blank records joined by R (and one R in front if the text starts with a blank line). An escaped line terminator breaks the agreement.", "quantifier": "all dialects with distinct characters, all such texts", "why_tests_cant": "agreement of two independent algorithms on all inputs", "anchors": ["clevercsv/detect_pattern.py:make_abstraction", "src/abstraction.c"]}
{"id": "C28", "title": "Filling empty cells terminates and produces a canonical pattern", "statement": "fill_empties terminates on every string; its result contains no two adjacent delimiters, no delimiter next to a row separator, no repeated C, does not start or end with a delimiter, has the same number of D and R as its input in the same order, and applying it again changes nothing.", "quantifier": "every string", "why_tests_cant": "the code loops until a condition holds; termination and normal form need all inputs", "anchors": ["clevercsv/detect_pattern.py:fill_empties"]}
{"id": "C29", "title": "The abstraction uses only the letters C, D, R and Q unless a quote is left open after a doubled quote", "statement": "A user of make_abstraction relies on the alphabet C, D, R (Q for unbalanced quotes). It holds whenever quotes are balanced; with an unclosed quote after a doubled quote the result contains NUL characters.", "quantifier": "every text and dialect", "why_tests_cant": "needs all texts; the violation needs an odd quote structure", "anchors": ["src/abstraction.c:c_merge_with_quotechar", "clevercsv/detect_pattern.py:make_abstraction"]}
{"id": "C30", "title": "The pattern score is positive and finite, and rewards regular rows", "statement": "In IEEE binary64 arithmetic pattern_score is a finite number greater than zero for every text below 2^53 characters; a text whose N records all have the same shape with L cells scores N*max(eps,L-1)/L computed in the documented order.", "quantifier": "all texts of physically possible size, all dialects", "why_tests_cant": "floating-point claim over all inputs", "anchors": ["clevercsv/detect_pattern.py:pattern_score"]}
{"id": "C31", "title": "SimpleDialect ordering is a strict total order consistent with equality", "statement": "For validated dialects exactly one of a<b, a==b, b<a holds, < is transitive, comma dialects come first, then semicolon dialects; therefore sorting any arrangement of the same dialects yields the same list.", "quantifier": "all triples of validated dialects, all permutations", "why_tests_cant": "order laws quantify over all triples", "anchors": ["clevercsv/dialect.py:SimpleDialect.__lt__", "clevercsv/dialect.py:SimpleDialect.__eq__"]}
{"id": "C32", "title": "The consistency scores and the best dialects do not depend on set iteration order", "statement": "Potential dialects are produced by iterating over Python sets, whose order varies between runs. The scores and the ordered list of best dialects are the same for every iteration order.", "quantifier": "all iteration orders, all data, all type detectors", "why_tests_cant": "hash randomisation: tests see one order per process", "anchors": ["clevercsv/consistency.py:ConsistencyDetector.compute_consistency_scores", "clevercsv/potential_dialects.py:get_dialects"]}
{"id": "C33", "title": "Skipping dialects with a low pattern score never changes the result", "statement": "With the real binary64 arithmetic, the list of best dialects (and hence the detected dialect) is the same with skip=True and with skip=False, for every NUL-free text below 2^50 characters.", "quantifier": "all data, all dialect lists, all type detectors", "why_tests_cant": "a pruning-soundness claim including floating-point rounding, over all inputs", "anchors": ["clevercsv/consistency.py:ConsistencyDetector.compute_consistency_scores", "clevercsv/consistency.py:ConsistencyDetector.get_best_dialects"]}
{"id": "C34", "title": "Consistency detection returns one of the potential dialects or None and never raises on clean text", "statement": "For every NUL-free text (without lone surrogates, below 2^50 characters) detect returns either None or a dialect from get_dialects, and raises nothing; tie breaking only ever returns one of the tied dialects.", "quantifier": "all texts, delimiters lists, type detectors, iteration orders", "why_tests_cant": "totality over all inputs", "anchors": ["clevercsv/consistency.py:ConsistencyDetector.detect", "clevercsv/break_ties.py:tie_breaker"]}
{"id": "C35", "title": "Detection leaves the global field size limit as it was, unless it raises", "statement": "After ConsistencyDetector.detect returns, field_size_limit() has the value it had before, for every input; during detection the limit can never be hit. If detection raises (a text with a NUL character) the limit stays changed to len(data)+1.", "quantifier": "all texts and prior limits", "why_tests_cant": "global-state property over all exits", "anchors": ["clevercsv/consistency.py:ConsistencyDetector.detect", "clevercsv/cparser_util.py:field_size_limit"]}
{"id": "C36", "title": "Tie breaking between two dialects does not depend on the argument order, unless they have different escape characters", "statement": "break_ties_two(data, A, B) = break_ties_two(data, B, A) unless the dialects have two different non-empty escape characters; with two different non-empty escape characters the answer can depend on the order.", "quantifier": "all data and dialect pairs", "why_tests_cant": "symmetry over all inputs", "anchors": ["clevercsv/break_ties.py:break_ties_two"]}
{"id": "C37", "title": "The potential dialects are exactly the admissible combinations", "statement": "get_dialects returns, without duplicates, exactly the triples (d,q,e) with d empty or an admissible character of the URL-filtered text, q empty or one of the four quote characters occurring in it, and e empty or a potential escape character occurring directly before d or q in the text; the triple of empty strings is always included.", "quantifier": "all texts, delimiter lists, Unicode category tables, URL filters", "why_tests_cant": "set equality over all inputs", "anchors": ["clevercsv/potential_dialects.py:get_dialects", "clevercsv/potential_dialects.py:get_delimiters", "clevercsv/potential_dialects.py:get_quotechars"]}
{"id": "C38", "title": "Every candidate character occurs in the data, except the URL placeholder", "statement": "A user relies on delimiters of potential dialects occurring in the data. URLs are replaced by the letter U before delimiters are collected, so with delimiters=['U'] a dialect with delimiter U is proposed for data that contains no U. With the default delimiters every candidate delimiter and quotechar occurs in the data.", "quantifier": "all data, provided the URL filter only deletes text and inserts the placeholder", "why_tests_cant": "quantifies over all data", "anchors": ["clevercsv/potential_dialects.py:filter_urls", "clevercsv/potential_dialects.py:get_delimiters"]}
{"id": "C39", "title": "masked_by_quotechar is exact without an escape character and wrong after one", "statement": "Without an occurrence of the escapechar masked_by_quotechar returns True exactly when every occurrence of the test character lies inside a quoted segment (quotes toggled, doubled quotes inside a segment ignored). After the first escapechar all later quotechars are ignored, so it can return True for a character outside all quoted segments.", "quantifier": "all texts", "why_tests_cant": "scanner correctness over all inputs", "anchors": ["clevercsv/potential_dialects.py:masked_by_quotechar"]}
{"id": "C40", "title": "Normal-form detection returns only unescaped dialects over the allowed characters", "statement": "detect_dialect_normal returns None or a dialect with empty escapechar, delimiter from the given list (or empty), quotechar among none, single and double quote, and it is the first candidate in the documented order whose form test accepts.", "quantifier": "all data, all delimiter lists", "why_tests_cant": "quantifies over all data", "anchors": ["clevercsv/normal_form.py:detect_dialect_normal"]}
{"id": "C41", "title": "A form-2 match means the file parses to the split table", "statement": "If form 2 accepts the lines of a text for a delimiter, then parse_string under the returned dialect yields the rows obtained by splitting each line at the delimiter, all with the same number (at least two) of cells, followed only by blank rows from trailing newlines.", "quantifier": "all texts", "why_tests_cant": "agreement of two parsers on all accepted texts", "anchors": ["clevercsv/normal_form.py:is_form_2", "clevercsv/normal_form.py:split_file", "clevercsv/cparser_util.py:parse_string"]}
{"id": "C42", "title": "Forms 1 and 3 do not guarantee a rectangular parse; form 5 yields a single column", "statement": "A user relies on a matched normal form meaning that the file reads as a rectangular table with more than one column. Because a trailing empty cell after a quoted cell is dropped by the form test, forms 1 and 3 accept files whose parsed rows have different lengths; a form-5 match returns a dialect under which every row parses to a single cell. Form-1 files without a trailing delimiter do parse to the rectangular table of unquoted cells.", "quantifier": "all texts for the positive half; concrete texts for the negative half", "why_tests_cant": "agreement over all accepted texts", "anchors": ["clevercsv/normal_form.py:is_form_1", "clevercsv/normal_form.py:is_form_3", "clevercsv/normal_form.py:is_form_5", "clevercsv/normal_form.py:split_row"]}
{"id": "C43", "title": "The 'normal' method is not exclusive", "statement": "A user relies on Detector.detect(method='normal') using normal-form detection only. When normal-form detection is inconclusive it runs the consistency measure anyway and returns its result, so methods 'normal' and 'auto' are indistinguishable; method_ reports which one produced the result.", "quantifier": "all samples", "why_tests_cant": "equivalence over all samples", "anchors": ["clevercsv/detect.py:Detector.detect"]}
{"id": "C44", "title": "Caching type detection never changes a type score", "statement": "For every cache capacity (including 0) and every sequence of earlier queries, the type score computed through the cache equals the score of type_score without a cache.", "quantifier": "all capacities, histories, data, dialects", "why_tests_cant": "history property of a cache", "anchors": ["clevercsv/consistency.py:ConsistencyDetector.__init__", "clevercsv/consistency.py:ConsistencyDetector.compute_type_score", "clevercsv/detect_type.py:type_score"]}
{"id": "C45", "title": "The type score lies between eps and 1", "statement": "compute_type_score returns a binary64 number between 1e-10 and 1, and 1 exactly if there is at least one cell and all cells have a known type.", "quantifier": "all data, dialects and type detectors below 2^53 cells", "why_tests_cant": "floating-point bound over all inputs", "anchors": ["clevercsv/consistency.py:ConsistencyDetector.compute_type_score"]}
{"id": "C46", "title": "Serialising a dialect and reading it back returns an equal dialect", "statement": "For every dialect that validates, SimpleDialect.deserialize(d.serialize()) == d, for every character in each field (quotes, backslashes, control characters, non-ASCII, astral and surrogate code points); serialize raises ValueError exactly when a field is None or longer than one character. deserialize itself does not validate.", "quantifier": "all dialects", "why_tests_cant": "codec round trip over all code points", "anchors": ["clevercsv/dialect.py:SimpleDialect.serialize", "clevercsv/dialect.py:SimpleDialect.deserialize"]}
{"id": "C47", "title": "Converting a dialect to a csv dialect and back loses at most the strict flag", "statement": "from_csv_dialect(to_csv_dialect(d)), given a strict attribute, has the delimiter, quotechar and escapechar of d for every dialect with valid fields; strict is not carried over, and the object produced has no strict attribute, so the conversion back raises AttributeError. A dialect without delimiter cannot be converted at all (csv.Error).", "quantifier": "all dialects", "why_tests_cant": "round trip over all dialects", "anchors": ["clevercsv/dialect.py:SimpleDialect.to_csv_dialect", "clevercsv/dialect.py:SimpleDialect.from_csv_dialect"]}
{"id": "C48", "title": "Generated code denotes the detected dialect, except for awkward characters", "statement": "The program printed by generate_code, read by the rules for Python string literals, names the file, the encoding and exactly the delimiter, quotechar and escapechar of every detected dialect, except when the delimiter is a backslash (the text is then not a valid call); running the program printed by the code command reads the same rows as read_table. File names are not escaped: a name with a backslash can denote another file and a name with a double quote breaks the program.", "quantifier": "all dialects producible by detection, all file names", "why_tests_cant": "quantifies over all characters", "anchors": ["clevercsv/console/commands/_utils.py:generate_code"]}
{"id": "C49", "title": "has_header raises on texts with bare CR line ends and on empty samples", "statement": "A user relies on has_header answering for every sample whose dialect is detected. It reads the sample with line splitting at LF only, so a sample with bare CR line ends raises Error although detection succeeds (unless more than max_rows_to_check + 2 complete rows precede the first bare CR), and an empty sample raises StopIteration. For samples without bare CR and NUL and no longer than the field size limit it returns a boolean, or raises StopIteration if the parser yields no row. The boolean is the vote of the columns over the max_rows_to_check + 1 rows after the first.", "quantifier": "all samples", "why_tests_cant": "totality over all samples", "anchors": ["clevercsv/detect.py:Detector.has_header"]}
{"id": "C50", "title": "Encoding detection and checksums see the whole file", "statement": "get_encoding feeds the detector consecutive chunks whose concatenation is a prefix of the file, and the whole file unless the detector reports done earlier; sha1sum hashes exactly the file content for every file length (including multiples of the block size).", "quantifier": "all file contents and detector behaviours", "why_tests_cant": "chunk-boundary property over all lengths", "anchors": ["clevercsv/encoding.py:get_encoding", "clevercsv/utils.py:sha1sum"]}
{"id": "C51", "title": "num_chars only influences detection, never which rows are read", "statement": "read_table with any num_chars returns all rows of the whole file under the dialect detected on the prefix; num_chars=0 and None use the whole file; if the dialect is given no detection takes place.", "quantifier": "all files, all num_chars", "why_tests_cant": "quantifies over all prefixes", "anchors": ["clevercsv/wrappers.py:stream_table", "clevercsv/wrappers.py:read_table", "clevercsv/wrappers.py:detect_dialect"]}
{"id": "C52", "title": "field_size_limit gets and sets atomically", "statement": "field_size_limit() returns the current limit without changing it; field_size_limit(n) returns the previous limit and installs n; a bad call raises TypeError and leaves the limit unchanged, for every sequence of calls. A limit that does not fit a C long is accepted, and every parse then raises OverflowError.", "quantifier": "all call sequences", "why_tests_cant": "history property", "anchors": ["clevercsv/cparser_util.py:field_size_limit"]}
{"id": "C53", "title": "Keyword arguments always win over the dialect", "statement": "reader, writer and parse_data use, for each attribute, the value of the keyword argument if it was given and the dialect's value otherwise; a writer without line terminator gets LF; a writer assembled from any dialect and keyword arguments that quotes and doubles quotes writes text that reads back as the same table.", "quantifier": "all dialect arguments, all combinations of keyword arguments, all tables", "why_tests_cant": "quantifies over every combination of keywords", "anchors": ["clevercsv/write.py:writer._make_python_dialect", "clevercsv/read.py:reader._make_simple_dialect", "clevercsv/cparser_util.py:parse_data"]}
{"id": "C54", "title": "standardize -o onto the input file destroys the data", "statement": "Standardizing a file with the output path equal to the input path (without --in-place) truncates the file before it is read, so for every input with at least one row the file afterwards does not contain the table; --in-place does not have this problem, and a different output path leaves the input alone.", "quantifier": "all file contents", "why_tests_cant": "file-system aliasing", "anchors": ["clevercsv/console/commands/standardize.py:StandardizeCommand._to_file"]}
{"id": "C55", "title": "Breaking a three-way tie over the quote character needs all three parses to agree", "statement": "For three dialects with the same delimiter and escapechar and different quote characters, break_ties_three returns the dialect without quotechar if it is among them and all three parsing results are equal, and None otherwise. The documented rule (break the tie between the dialect without quotechar and another dialect with the same parsing result) is therefore not what the code does: with one equal and one different result it returns None.", "quantifier": "all texts, delimiters, escape characters and triples of quote characters, all set orders", "why_tests_cant": "an unreachable branch is a statement about all inputs", "anchors": ["clevercsv/break_ties.py:break_ties_three", "clevercsv/break_ties.py:reduce_pairwise"]}
{"id": "C56", "title": "Blank lines do not change the pattern score, except in front of the first record", "statement": "Two files whose non-blank records have the same numbers of cells in the same order have the same pattern score, however many blank lines are between or after the records; but a blank line at the very start changes the score.", "quantifier": "all dialects, all layouts with closed quotes and no escaped line terminators", "why_tests_cant": "an equality over all files", "anchors": ["clevercsv/detect_pattern.py:pattern_score", "clevercsv/cabstraction.pyi:base_abstraction"]}
{"id": "C57", "title": "Detection does not depend on hash order unless the text has two escape characters", "statement": "If no two candidate dialects have different non-empty escape characters, the detected dialect is the same for every iteration order of every set used on the way, tie breaking included. With two different escape characters the answer can depend on the hash seed: for the text 1,2,3,b\\'c@'d the two listing orders of one set give two different dialects.", "quantifier": "all texts, all type detectors, all iteration orders", "why_tests_cant": "hash randomisation is fixed within a test run", "anchors": ["clevercsv/break_ties.py:tie_breaker", "clevercsv/break_ties.py:reduce_pairwise", "clevercsv/consistency.py:ConsistencyDetector.detect"]}
{"id": "C58", "title": "The detected dialect has the highest consistency score of all candidates", "statement": "The consistency measure returns None or a candidate whose score (pattern score times type score, computed without cache and without skipping) is at least that of every other candidate; if exactly one candidate has the highest score, that one is returned, otherwise the result is what the tie breaker says about the tied ones.", "quantifier": "all NUL-free texts below 2^50 characters without lone surrogates, all type detectors, all iteration orders, all cache sizes", "why_tests_cant": "an optimality statement over all candidates and inputs, in floating point", "anchors": ["clevercsv/consistency.py:ConsistencyDetector.detect", "clevercsv/consistency.py:ConsistencyDetector.get_best_dialects"]}
{"id": "C59", "title": "The rules for breaking a tie between two dialects", "statement": "break_ties_two: dialects that differ only in the quote character, one of them empty, are separated by whether the two parses are equal; comma beats space and anything beats hyphen; dialects that differ only in the escape character are separated by the number of escapechar-quotechar pairs in the FIRST cell that differs (positive and even: the dialect with escape character), with None if the parses are equal or of different shape; the dialect without quote and escape character loses to one with both exactly if the shapes agree and every differing cell contains escapechar+quotechar; all other pairs give None. The comment that the count must be even within each offending cell is false, and swapping two columns can change the answer.", "quantifier": "all texts, limits and pairs of dialects", "why_tests_cant": "a complete case distinction over all inputs; the false comment needs a witness nobody tested", "anchors": ["clevercsv/break_ties.py:break_ties_two"]}
{"id": "C60", "title": "The rules for ties between three or four dialects", "statement": "The tie breaker answers None unless two, three or four dialects are tied; three or four tied dialects must have one delimiter; three with different escape characters are decided by the two of them that have a quote character (None if there are not exactly two); four dialects with one delimiter are reduced to the winners between listing neighbours with equal parses plus the dialects without such a neighbour, and the reduced set of one, two or three is decided by the smaller rule.", "quantifier": "all texts, limits, tied dialects and set orders", "why_tests_cant": "a complete case distinction; four-way ties occur for one known file only", "anchors": ["clevercsv/break_ties.py:tie_breaker", "clevercsv/break_ties.py:reduce_pairwise", "clevercsv/break_ties.py:break_ties_three", "clevercsv/break_ties.py:break_ties_four"]}
{"id": "C61", "title": "What counts as a number", "statement": "A cell is a number exactly if, without the white space around it, it is a sign, a whole part without leading zeros and a tail (nothing, an exponent behind a digit, a dot with a digit on one side and an optional exponent, or a comma with digits behind it and an exponent only behind two or more of them), not all empty, or a number with groups of three digits and both separators. So a lone sign is a number and 1,5e3 is not although 1.5e3 is.", "quantifier": "all strings, all Unicode tables that agree with ASCII", "why_tests_cant": "an exact description of the language of three patterns with lookaround and conditionals", "anchors": ["clevercsv/_regexes.py:PATTERN_NUMBER_1", "clevercsv/_regexes.py:PATTERN_NUMBER_2", "clevercsv/_regexes.py:PATTERN_NUMBER_3", "clevercsv/detect_type.py:TypeDetector.is_number"]}
{"id": "C62", "title": "What counts as a time, a date and a date with time", "statement": "Times, dates and datetimes are accepted exactly as described by the numeric ranges of their parts: hours below 24, minutes and seconds below 60, months 1 to 12, days 1 to 31, years of two digits or of four digits starting with 1 or 2, one separator used twice. Dates that do not exist (31 February) are accepted, a time zone given in hours only is rejected because time_HH equals time_HHMM, and whatever follows a second sign behind the zone is ignored.", "quantifier": "all strings, all Unicode tables that agree with ASCII", "why_tests_cant": "an exact description of patterns with back references, over all strings", "anchors": ["clevercsv/_regexes.py:PATTERN_DATE", "clevercsv/detect_type.py:TypeDetector.is_date", "clevercsv/detect_type.py:TypeDetector.is_time", "clevercsv/detect_type.py:TypeDetector.is_datetime"]}
{"id": "C63", "title": "What counts as a URL, an e-mail address, an IP address and a path", "statement": "The four patterns accept exactly the strings of their stated shape; parts of an IP address may exceed 255, the final optional part of the domain pattern adds nothing, and a file name such as data.csv is a URL.", "quantifier": "all strings, all Unicode tables that agree with ASCII", "why_tests_cant": "language equality over all strings", "anchors": ["clevercsv/_regexes.py:PATTERN_URL", "clevercsv/_regexes.py:PATTERN_EMAIL", "clevercsv/_regexes.py:PATTERN_IPV4", "clevercsv/_regexes.py:PATTERN_UNIX_PATH"]}
{"id": "C64", "title": "What counts as text, an amount, a percentage and a byte array", "statement": "A cell is text exactly if it is not empty and consists of letters, numerals, spaces and the listed marks, with the listed commas if it was quoted; amounts and percentages are numbers with one currency sign in front or percent signs behind them.", "quantifier": "all strings, all Unicode tables", "why_tests_cant": "language equality over all strings", "anchors": ["clevercsv/_regexes.py:PATTERN_ALPHANUM", "clevercsv/_regexes.py:PATTERN_ALPHANUM_QUOTED", "clevercsv/_regexes.py:PATTERN_CURRENCY", "clevercsv/detect_type.py:TypeDetector.is_currency", "clevercsv/detect_type.py:TypeDetector.is_percentage"]}
{"id": "C65", "title": "The type of a cell is the first that applies", "statement": "detect_type returns the first type in the documented order whose description the stripped cell meets, and None if there is none; white space around a cell never matters; quoting a cell never makes it unknown; is_known_type holds exactly for cells that meet one of the descriptions.", "quantifier": "all strings, both values of is_quoted", "why_tests_cant": "a complete characterisation of the detector", "anchors": ["clevercsv/detect_type.py:TypeDetector.detect_type", "clevercsv/detect_type.py:TypeDetector.is_known_type"]}
{"id": "C66", "title": "Type detection returns for every cell, except for some JSON objects", "statement": "detect_type can only raise for cells that begin with { and end with }, and then only what json.loads raises besides JSONDecodeError: ValueError for integers beyond the interpreter's limit and RecursionError for deep nesting. Both do happen and they abort dialect detection.", "quantifier": "all strings, all limits of the interpreter", "why_tests_cant": "an exception inside a third-party parser on rare cells", "anchors": ["clevercsv/detect_type.py:TypeDetector.is_json_obj", "clevercsv/detect_type.py:type_score"]}
{"id": "C67", "title": "Removing URLs loses nothing but URL characters", "statement": "With the shipped URL pattern, filter_urls leaves every character that is not a letter, a numeral or one of _/()~?=&%-#.: exactly as often and in the same order; text in which neither a dot nor the word localhost occurs is not changed.", "quantifier": "all texts, all Unicode tables", "why_tests_cant": "a property of substitution over all texts", "anchors": ["clevercsv/potential_dialects.py:filter_urls", "clevercsv/_regexes.py:PATTERN_URL"]}
{"id": "C68", "title": "The type score with the shipped type detector", "statement": "With the shipped detector the type score of a text is the share of cells that meet one of the type descriptions; it is 1 exactly if all cells do and at least one cell exists.", "quantifier": "all texts and dialects", "why_tests_cant": "quantifies over all tables", "anchors": ["clevercsv/detect_type.py:type_score"]}
{"id": "C69", "title": "A regular delimiter between cells of known type is detected", "statement": "In a text that is a table of at least two columns without quotes, in which every cell is of a known type and no possible escape character stands before a possible delimiter, consistency detection answers the table's delimiter, provided that every other possible delimiter in it is either found unequally often in the rows (and, in a table of two columns, missing from some row) or found equally often but less often than the delimiter (in a table of at most 2^20 columns). The cells contain no line ends, NUL, surrogates, quotes or opening braces, and the delimiter is none of the marks _~?=&%-#: that may belong to a URL. Without the proviso it can fail: a b c d|e is read as space delimited.", "quantifier": "all tables, all shapes and sizes below 2^50 characters, all line ends, all iteration orders of sets, all cache sizes, all Unicode tables of the stated kind", "why_tests_cant": "tests try examples; this is a guarantee for a whole class of files", "anchors": ["clevercsv/consistency.py:ConsistencyDetector.detect", "clevercsv/cparser_util.py:parse_string", "clevercsv/consistency.py:ConsistencyDetector.compute_consistency_scores", "clevercsv/break_ties.py:tie_breaker"]}
{"id": "C70", "title": "Tables of words and decimal numbers are detected", "statement": "If all cells of a table with at least two columns consist of letters, numerals, full stops and round brackets, or are empty, consistency detection answers its delimiter, for every delimiter that is not a letter, numeral, bracket, quote or possible escape character and not a mark that occurs in URLs.", "quantifier": "all tables, all such delimiters, all line ends, all iteration orders", "why_tests_cant": "a guarantee for a whole class of files", "anchors": ["clevercsv/consistency.py:ConsistencyDetector.detect", "clevercsv/potential_dialects.py:get_dialects"]}
{"id": "C71", "title": "All detection methods find the delimiter of a regular table", "statement": "Under the conditions of C69 or of C70, every valid detection method answers the table's delimiter and leaves the field size limit unchanged, provided that none of comma, semicolon, bar and tab, other than the delimiter, is found equally often and at least once in every row (for C70 this is automatic). Without the proviso the methods can disagree: a b 1,234 is space delimited by the consistency measure and comma delimited by default. Words separated by dashes are taken for a single column.", "quantifier": "all such tables, all methods, all iteration orders of sets, all Unicode tables of the stated kind", "why_tests_cant": "a guarantee for a whole class of files across two independent detectors", "anchors": ["clevercsv/detect.py:Detector.detect", "clevercsv/normal_form.py:detect_dialect_normal", "clevercsv/consistency.py:ConsistencyDetector.detect"]}
{"id": "C72", "title": "Plain tables are read back without a given dialect", "statement": "If a file contains a table of words and decimal numbers as in C70, read_table without a dialect returns its cells. Hence a table of such cells with at least two columns that is written by write_table with a dialect that quotes only where needed or never, such as excel, is returned by read_table without a dialect. This is false for arbitrary tables: the row ($1 2 3 4; 5) comes back as four cells.", "quantifier": "all such tables, dialects, encodings that can encode the text and decode it again, file systems and iteration orders", "why_tests_cant": "combines the writer, the file layer, detection and the parser", "anchors": ["clevercsv/wrappers.py:read_table", "clevercsv/wrappers.py:stream_table", "clevercsv/wrappers.py:write_table", "clevercsv/detect.py:Detector.detect"]}
{"id": "C73", "title": "The detect command reports the detected dialect", "statement": "The command exits with 0 exactly if detect_dialect answers a dialect and with 1 and no output if it answers None. Its JSON output, with or without the runtime, is read back by json.loads as the detected dialect; its default output consists of the three string literals of the dialect. The plain output names delimiter, quotechar and escapechar, but because each line is stripped, white space prints like nothing: a tab delimited and a one-column file give the same output. As long as the type detector raises nothing, --no-skip changes nothing.", "quantifier": "all files, encodings, options, runtimes and iteration orders", "why_tests_cant": "relates printed text to the dialect for all inputs through two readers", "anchors": ["clevercsv/console/commands/detect.py:DetectCommand.handle", "clevercsv/dialect.py:SimpleDialect.__repr__", "clevercsv/dialect.py:SimpleDialect.to_dict"]}
{"id": "C74", "title": "The view command shows every cell", "statement": "Without --transpose the command shows the rows of read_table. With it, row j of what is shown is column j of the table, every cell of every row is shown in its place, and missing cells are None. It exits with 1 exactly if no dialect is detected. A file without rows cannot be transposed (ValueError), and on Windows the command shows nothing and still exits with 0.", "quantifier": "all files, encodings, ragged tables, options", "why_tests_cant": "quantifies over all ragged tables", "anchors": ["clevercsv/console/commands/view.py:ViewCommand.handle", "clevercsv/console/commands/view.py:ViewCommand._tabview"]}
{"id": "C75", "title": "When an optional dependency is used", "statement": "import_optional_dependency returns the module exactly if it can be imported, is one of the four known names and has no version or one that is not too old; it returns None exactly if the import fails and raise_on_missing is false. The documented promise that nothing is raised with raise_on_missing=False is false: an old cchardet makes get_encoding raise ImportError although chardet is there.", "quantifier": "all sets of installed modules, versions and names", "why_tests_cant": "depends on what is installed", "anchors": ["clevercsv/_optional.py:import_optional_dependency", "clevercsv/encoding.py:get_encoding"]}
{"id": "C76", "title": "What read_dataframe hands to pandas", "statement": "read_dataframe calls pandas.read_csv exactly once with the given file, the csv.Dialect of the dialect that detect_dialect answers, and the encoding that was used for detection; all other arguments are passed through. It raises NoDetectionResult exactly if detect_dialect answers None, and nothing is read if the file is not a regular file. A file of one column, for which the detected delimiter is empty, makes it raise csv.Error, while read_table reads that file.", "quantifier": "all files, encodings, keyword arguments, detectors", "why_tests_cant": "relates three functions for all files", "anchors": ["clevercsv/wrappers.py:read_dataframe", "clevercsv/wrappers.py:detect_dialect", "clevercsv/dialect.py:SimpleDialect.to_csv_dialect"]}
{"id": "C77", "title": "The explore command runs the code that the code command prints", "statement": "For the same file and options the explore command pushes to the interactive console exactly the lines the code command prints, in order, and both fail in the same cases in the same way. It exits with 1 exactly if no dialect is detected or the console waits for more input after the last line; an error in an earlier line is not noticed.", "quantifier": "all files, options, consoles", "why_tests_cant": "relates two commands for all inputs", "anchors": ["clevercsv/console/commands/explore.py:ExploreCommand.handle", "clevercsv/console/commands/code.py:CodeCommand.handle"]}
{"id": "C78", "title": "The delimiter and the quote character of a table with quoted cells are detected", "statement": "In a text that is a table of at least two columns in which some cells are enclosed in quotes (double quotes throughout or single quotes throughout), every cell is of a known type and no possible escape character stands before a possible delimiter or a quote, consistency detection answers the table's delimiter and quote character and no escape character, under the proviso of C69 for every other possible delimiter, counted both inside and outside the quotes and outside the quotes only. The delimiter may occur inside quoted cells if it does not occur there equally often in every row (for two columns: in a table of fewer than 2^30 rows and at most 2^20 pieces a row). Without that it can fail: the row a,\"b,c,d,e,f\" is taken to have no quote character.", "quantifier": "all tables, all shapes and sizes below 2^50 characters, both quote characters, all line ends, all iteration orders of sets, all cache sizes, all Unicode tables of the stated kind", "why_tests_cant": "tests try examples; this is a guarantee for a whole class of files", "anchors": ["clevercsv/consistency.py:ConsistencyDetector.detect", "clevercsv/consistency.py:ConsistencyDetector.compute_consistency_scores", "clevercsv/potential_dialects.py:get_quotechars", "clevercsv/detect_type.py:type_score"]}
{"id": "C79", "title": "All detection methods find the dialect of a table with quoted cells", "statement": "Under the conditions of C78, every valid detection method answers the table's delimiter and quote character and leaves the field size limit unchanged: the normal forms never accept another dialect for such a table. Where C78 fails the methods can disagree: for two rows a,\"b,c,d,e,f\" the default method finds the quotes and consistency detection does not.", "quantifier": "all such tables, all methods, both quote characters, all line ends, all iteration orders of sets, all Unicode tables of the stated kind", "why_tests_cant": "a guarantee for a whole class of files across two independent detectors", "anchors": ["clevercsv/detect.py:Detector.detect", "clevercsv/normal_form.py:detect_dialect_normal", "clevercsv/consistency.py:ConsistencyDetector.detect"]}
{"id": "C80", "title": "Tables with quoted cells are read back without a given dialect", "statement": "If a file contains a table as in C79, read_table without a dialect returns its cells without the quotes. Hence a table of words and decimal numbers with at least two columns, whose cells may also contain the delimiter if that is a comma, is returned by read_table without a dialect if it was written by write_table with a dialect that quotes where needed, all cells or all that are not numbers, provided that no cell contains the delimiter or that the rows do not all contain it equally often. Without the proviso it is false: the row (a; b,c,d,e,f) comes back as six cells.", "quantifier": "all such tables, dialects, encodings that can encode the text and decode it again, file systems and iteration orders", "why_tests_cant": "combines the writer's quoting, the file layer, detection and the parser", "anchors": ["clevercsv/wrappers.py:read_table", "clevercsv/wrappers.py:write_table", "clevercsv/write.py:writer.writerows", "clevercsv/detect.py:Detector.detect"]}
{"id": "C81", "title": "The default method finds tables in simple form whatever their cells mean", "statement": "Let the rows of a text have the same number of cells, at least two, separated by comma, semicolon, bar or tab, with one kind of line end. Unquoted cells consist of letters, digits and ._&-@+%() / only; quoted cells contain neither their quote nor line ends. If no possible escape character stands before one of those delimiters or a quote, the default method (and 'normal') answers the delimiter, the quote character if there are quotes, and no escape character, in three cases: no cell is quoted; all cells are quoted; there are at least two rows and no empty cell. The scores, the types of the cells and the iteration orders of sets play no part. Without the condition on escape characters it is false, and so it is for a single row in which only some cells are quoted.", "quantifier": "all such tables of any size, both quote characters, all three line ends, all Unicode tables, all iteration orders, all type detectors", "why_tests_cant": "the quoted cells are arbitrary strings; tests can only sample them", "anchors": ["clevercsv/detect.py:Detector.detect", "clevercsv/normal_form.py:detect_dialect_normal", "clevercsv/normal_form.py:is_form_1", "clevercsv/normal_form.py:is_form_2", "clevercsv/normal_form.py:is_form_3"]}
{"id": "C82", "title": "Tables in simple form are read back without a given dialect", "statement": "A table whose written form is as in C81 and contains no NUL is returned unchanged by read_table without a dialect after write_table. In particular, a dialect that quotes all cells (as the standard library's unix dialect does) gives back every table of at least two columns whose cells contain no quote, no line end and no NUL and whose text has no possible escape character before a common delimiter or a quote; a dialect that quotes where needed gives back every table of at least two rows and two columns whose cells are not empty and are made of the simple characters or contain the delimiter. A cell that ends with a backslash can be lost.", "quantifier": "all such tables, dialects, encodings that can encode the text and decode it again, file systems and iteration orders", "why_tests_cant": "combines the writer's quoting, the file layer, normal forms and the parser for arbitrary cell contents", "anchors": ["clevercsv/wrappers.py:read_table", "clevercsv/wrappers.py:write_table", "clevercsv/detect.py:Detector.detect"]}
{"id": "C83", "title": "The dictionary wrappers agree with the table wrappers", "statement": "If stream_table yields some rows and then ends or raises an error, stream_dicts with the same arguments yields the dictionaries of these rows and then ends or raises the same error, provided that the names in the first row are distinct: the first row names the columns, blank rows are dropped, missing cells are None and superfluous cells go to the key None. write_dicts writes the same file and raises the same error as write_table for the table made of the names and of the values, where missing keys become empty cells. Hence whenever a table made of dictionaries is written and read back unchanged, with or without a given dialect, so are the dictionaries, with values as strings.", "quantifier": "all files, dialects (given or detected), encodings, field size limits, lists of dictionaries with string keys among those of the first one", "why_tests_cant": "relates four functions for all inputs, including failing ones", "anchors": ["clevercsv/wrappers.py:stream_dicts", "clevercsv/wrappers.py:stream_table", "clevercsv/wrappers.py:write_dicts", "clevercsv/wrappers.py:write_table", "clevercsv/dict_read_write.py:DictReader.__next__", "clevercsv/dict_read_write.py:DictWriter._dict_to_list"]}
{"id": "C84", "title": "Dictionaries in simple form are read back without a given dialect", "statement": "Dictionaries with at least two names whose names and values are as in C82 are returned, with values as strings and missing ones as empty strings, by stream_dicts without a dialect after write_dicts, for dialects that quote all cells or where needed.", "quantifier": "all such dictionaries, dialects, encodings that can encode the text and decode it again, file systems and iteration orders", "why_tests_cant": "combines the dictionary writer, the file layer, normal forms, the parser and the dictionary reader", "anchors": ["clevercsv/wrappers.py:write_dicts", "clevercsv/wrappers.py:stream_dicts", "clevercsv/detect.py:Detector.detect", "clevercsv/normal_form.py:detect_dialect_normal"]}
{"id": "C85", "title": "has_header on tables in simple form", "statement": "For tables as in C81 with line ends LF or CRLF, has_header raises nothing and its answer is the vote of the columns over the table's own cells; it is True if every column holds numbers of one type below a name that is not of that type, and False if in every column the cells with that of the first row have one type or one length. For line ends CR and at least two rows it raises an error instead. The vote does not tell a header from other rows: for the rows bob,rome and anna,paris it is True in both orders, and for name,city above these two it is False.", "quantifier": "all such tables of any size, both quote characters, all Unicode tables, all iteration orders, all conversions of cells", "why_tests_cant": "combines sniffing, the reader and the vote for arbitrary cells", "anchors": ["clevercsv/detect.py:Detector.has_header", "clevercsv/detect.py:Detector.sniff", "clevercsv/normal_form.py:detect_dialect_normal"]}
{"id": "C86", "title": "Files of one column", "statement": "A text of at least two lines with one kind of line end, each a non-empty word of letters, digits and ._&-, is detected by the default method (and 'normal') as having no delimiter and no quote character; if each line is a quoted string of these characters and spaces and no possible escape character stands before a common delimiter or a quote, it is detected as having that quote character and no delimiter. Hence read_table without a dialect returns the column, also after write_table with any dialect whose special characters do not occur in the cells, if it quotes none or all of them. read_dataframe refuses all these files with csv.Error. Unquoted cells with spaces are lost: the column (a b; c d) comes back as two columns.", "quantifier": "all such files of any size, both quote characters, all three line ends, all Unicode tables, iteration orders, dialects, encodings that can encode the characters and decode them again", "why_tests_cant": "a guarantee for a whole class of files", "anchors": ["clevercsv/normal_form.py:is_form_4", "clevercsv/normal_form.py:is_form_5", "clevercsv/normal_form.py:detect_dialect_normal", "clevercsv/detect.py:Detector.detect", "clevercsv/wrappers.py:read_table", "clevercsv/wrappers.py:write_table", "clevercsv/wrappers.py:read_dataframe"]}
{"id": "C87", "title": "The exact text that standardizing and writing produce", "statement": "Standardize writes one line per row, each ended by CR LF: the cells separated by commas, a cell in double quotes exactly if it contains a comma, a double quote, CR or LF or is the empty only cell of its row, with double quotes inside doubled. The rows are those that reading the file with the dialect gives, or their transpose. Printed output is this text, or nothing if there is an error; an output file keeps the text of the rows before an error, unless the table is to be transposed; in-place mode replaces the file by this text and returns 2, or returns 0 and changes nothing if the contents have the same hash. write_table with the excel dialect writes this text for every table with rows of equal length, its values converted to strings.", "quantifier": "all files, dialects, encodings, tables, transposed or not", "why_tests_cant": "fixes every output byte for all inputs", "anchors": ["clevercsv/console/commands/standardize.py:StandardizeCommand._write_to_stream", "clevercsv/console/commands/standardize.py:StandardizeCommand._to_stdout", "clevercsv/console/commands/standardize.py:StandardizeCommand._to_file", "clevercsv/console/commands/standardize.py:StandardizeCommand._in_place", "clevercsv/wrappers.py:write_table"]}
{"id": "C88", "title": "From a file in simple form to the output of the commands", "statement": "If a file contains a text as in C81 or C86, without NUL, then by default the detect command prints its delimiter and quote character in all three output formats, read_table returns its cells, read_dataframe passes its dialect to pandas or raises csv.Error if it has one column, and the standardize command writes exactly the text of C87 for its cells to the screen, to another file or into the file itself. If no cell needs quotes (in particular if the file has none), the standardized file is in simple form again, so a second run in place returns 0 and changes nothing. Otherwise a second run can change the file again: the quoted column (a b; c d) loses its quotes in the first run and is cut into two columns by the second.", "quantifier": "all such files, methods normal and auto, encodings, iteration orders of sets, Unicode tables", "why_tests_cant": "a guarantee for a whole class of files through whole commands", "anchors": ["clevercsv/console/commands/standardize.py:StandardizeCommand.handle_path", "clevercsv/console/commands/detect.py:DetectCommand.handle", "clevercsv/wrappers.py:read_table", "clevercsv/wrappers.py:read_dataframe", "clevercsv/wrappers.py:detect_dialect"]}
{"id": "C89", "title": "Line ends do not change the detected dialect", "statement": "Let two texts consist of the same lines, each line followed by a line end of any kind (LF, CR or CRLF) and the last one possibly by none, such that no line end can be misread (no CR before a blank line of LF). If on each line the double quotes and the apostrophes are balanced, the other two quote characters and NUL do not occur, and possible escape characters stand neither before a quote nor at the end of the line nor, if they are possible delimiters, twice in a row, then the consistency measure returns the same dialect for both. The shipped URL pattern never matches across a line end. The normal form test gives the same result for both texts if each of them has only one kind of line end and the last line is not blank, whatever else the lines contain; so does the detector with every method, under both conditions. Without them the normal form can differ: a blank line at the end counts for CRLF but not for LF, and a file with mixed line ends is split at the CRLFs only.", "quantifier": "all lists of lines of any length, all choices of line ends, user-given delimiters other than quotes and line ends, iteration orders, type tests, Unicode tables in which CR and LF are control characters", "why_tests_cant": "a relation between two runs for all texts and all mixtures of line ends", "anchors": ["clevercsv/consistency.py:ConsistencyDetector.detect", "clevercsv/potential_dialects.py:get_dialects", "clevercsv/potential_dialects.py:filter_urls", "clevercsv/break_ties.py:tie_breaker", "clevercsv/normal_form.py:split_file", "clevercsv/normal_form.py:detect_dialect_normal", "clevercsv/detect.py:Detector.detect", "clevercsv/detect_pattern.py:pattern_score"]}
{"id": "C90", "title": "Files with other line ends are read alike", "statement": "Let two files contain the same lines as in C89, the last one not blank, each file with one kind of line end (LF, CR or CRLF) and with or without one at the end. If the whole text is used for detection and fits the field size limit, then without a dialect read_table returns the same rows (in particular, both fail or neither does), stream_dicts the same dictionaries or error and read_dataframe passes the same arguments to pandas; detect prints the same text, view shows the same table and standardize prints the same text. has_header gives the same answer if neither file uses a CR alone; with it the answer can differ.", "quantifier": "all lists of lines of any length, all pairs of line ends, encodings, methods, iteration orders, file systems and Unicode tables in which CR and LF are control characters", "why_tests_cant": "a relation between two runs of whole commands for all such files", "anchors": ["clevercsv/wrappers.py:stream_table", "clevercsv/wrappers.py:read_table", "clevercsv/wrappers.py:stream_dicts", "clevercsv/wrappers.py:read_dataframe", "clevercsv/console/commands/detect.py:DetectCommand.handle", "clevercsv/console/commands/view.py:ViewCommand.handle", "clevercsv/console/commands/standardize.py:StandardizeCommand.handle_path", "clevercsv/detect.py:Detector.has_header"]}
{"id": "C91", "title": "The encoding argument of the dialect search", "statement": "If encoding and decoding with the given encoding gives every character of the data back, get_dialects and detect_dialect_normal return what they return for UTF-8. get_dialects raises an error exactly if encoding or decoding a character outside of URLs fails or does not give exactly one character (TypeError), even if the caller gives the delimiters, or the encoding is neither UTF-8 nor ASCII and a character that is not the last one cannot be encoded or decoded; the error is that of such a character. is_potential_escapechar answers yes for a character exactly if encoding and decoding gives one character that is punctuation of the category Po and not blocked, and raises exactly if encoding or decoding does.", "quantifier": "all encodings (as functions from characters to strings or errors), all texts, user-given delimiters, URL patterns, iteration orders of sets and Unicode tables", "why_tests_cant": "tests can only try a few encodings", "anchors": ["clevercsv/potential_dialects.py:get_dialects", "clevercsv/potential_dialects.py:unicode_category", "clevercsv/potential_dialects.py:get_delimiters", "clevercsv/escape.py:is_potential_escapechar", "clevercsv/normal_form.py:detect_dialect_normal"]}
{"id": "C92", "title": "The reader compared with csv.reader", "statement": "With a dialect and its conversion to a csv dialect: on every text without NUL, quote and escape characters, CleverCSV's reader and csv.reader give the same rows, and one raises its module's error if and only if the other does (after the same rows), whatever the strict flags are. They also give the same rows on every text whose cells are quoted as a whole or not at all, with escapes only before characters that need them. csv.reader reads what a CleverCSV writer writes with a quoting dialect, and what standardize prints, as the table that was written, strict or not. On other texts they can differ: a quote inside a cell, text behind a closing quote, an escape before an ordinary character, and any closing quote in strict mode.", "quantifier": "all texts of these kinds, dialects with a delimiter, tables, field size limits", "why_tests_cant": "a comparison of two parsers on infinite classes of texts", "anchors": ["clevercsv/read.py:reader", "clevercsv/cparser_util.py:parse_string", "src/cparser.c:parse_process_char", "clevercsv/dialect.py:SimpleDialect.to_csv_dialect", "clevercsv/write.py:writer.writerows", "clevercsv/console/commands/standardize.py:StandardizeCommand._to_stdout"]}
{"id": "C93", "title": "Characters matter by their role only", "statement": "Let f be a one-to-one map of characters that keeps NUL, CR and LF. Replacing every character of the input and of the dialect by its image replaces exactly the characters of the cells: the parser returns the images of the cells, with the same quoted flags and the same error; the abstraction, the pattern score and masked_by_quotechar are unchanged, and so is the type score if the type test does not distinguish a cell from its image. tie_breaker returns the image of its answer if f also keeps the comma, the space and the hyphen; without that it need not. The csv writer writes the image of the text and csv.reader reads the images of the cells (if spaces are kept or not skipped).", "quantifier": "all such maps, texts, iterators of lines, dialects (complete or not), field size limits, lists of dialects, tables", "why_tests_cant": "a relation between two runs for all texts and all permutations of characters", "anchors": ["clevercsv/cparser_util.py:parse_data", "clevercsv/cparser_util.py:parse_string", "src/cparser.c:parse_process_char", "clevercsv/detect_pattern.py:make_abstraction", "clevercsv/detect_pattern.py:pattern_score", "clevercsv/detect_type.py:type_score", "clevercsv/potential_dialects.py:masked_by_quotechar", "clevercsv/break_ties.py:tie_breaker", "clevercsv/write.py:writer.writerows"]}
{"id": "C94", "title": "JSON texts", "statement": "json.loads accepts exactly the texts of the JSON grammar extended by NaN, Infinity and -Infinity, nested no deeper than the recursion limit and with integers no longer than the digit limit, and returns the value they denote: escapes in either case of hexadecimal digits, neighbouring escapes of a surrogate pair joined, repeated members of an object replaced by the last one, elements in order. So is_json_obj accepts exactly the cells in braces that are such texts; json.dumps writes a text that json.loads reads back as the same value; and SimpleDialect.deserialize succeeds exactly for the texts of objects with the four attributes, in any order and layout and with any further members.", "quantifier": "all texts, limits on depth and digits, JSON values, dialects", "why_tests_cant": "texts of any length and nesting; an equivalence of a reader and a grammar", "anchors": ["clevercsv/detect_type.py:TypeDetector.is_json_obj", "clevercsv/dialect.py:SimpleDialect.deserialize", "clevercsv/dialect.py:SimpleDialect.from_dict", "clevercsv/dialect.py:SimpleDialect.serialize"]}
{"id": "C95", "title": "Rows that cannot be written", "statement": "writerow fails, with clevercsv's Error and no other exception, exactly if (1) there is no escape character and some value has a character that needs one (QUOTE_NONE: the delimiter, the quote, LF, CR or a character of the line terminator; otherwise: the quote if it is not doubled), (2) under QUOTE_NONE the row is one empty value, or (3) under QUOTE_NONE with a space as delimiter and skipinitialspace some value is empty. writerows succeeds exactly if no row is of this kind and otherwise has written the rows before the first such row. None is written like the empty string. writeheader of a DictWriter writes the field names, None as an empty string and repeated names repeatedly.", "quantifier": "all writer dialects, rows, tables, lists of field names, extrasaction and restval arguments", "why_tests_cant": "an exact condition for failure over all dialects and values", "anchors": ["clevercsv/write.py:writer.writerow", "clevercsv/write.py:writer.writerows", "clevercsv/dict_read_write.py:DictWriter.writeheader", "clevercsv/dict_read_write.py:DictWriter._dict_to_list"]}
{"id": "C96", "title": "Several files on one standardize command line", "statement": "Whatever happens, the standardize command changes no file but the named outputs, or with --in-place the inputs and, if an exception escapes, one temporary file that was not there before (such a file does stay behind). If it returns without the code 1, every file ends up as if it were the only one on the command line, with its own encoding and output: with --in-place if the paths are distinct, with -o if the outputs are distinct and no output is also an input (an output that is a later input is read after it was overwritten), and without outputs no file changes and the printed texts follow one another. The return code is the first nonzero code of the single files.", "quantifier": "all file systems, lists of paths, outputs and encodings, detectors, encodings and hash functions", "why_tests_cant": "lists of any length and arbitrary file systems; a statement about files the command does not name", "anchors": ["clevercsv/console/commands/standardize.py:StandardizeCommand.handle", "clevercsv/console/commands/standardize.py:StandardizeCommand.handle_path", "clevercsv/console/commands/standardize.py:StandardizeCommand._in_place", "clevercsv/console/commands/standardize.py:StandardizeCommand._to_file", "clevercsv/console/commands/standardize.py:StandardizeCommand._to_stdout"]}
{"id": "C97", "title": "Verbose mode", "statement": "With verbose=True detection has the same result as without, if standard output takes every line; otherwise it ends with the exception of print at the first refused line, and if that is a line of scores, the global field size limit is left changed. The lines say which methods ran and which normal form matched, or that a possible escape character stands in front of a quote or delimiter, which is then true, followed by one line for each candidate dialect, in ascending order, with its pattern score, type score and product; the type score is replaced by 'skip.' exactly if skipping is on and an earlier candidate has a score above this one's pattern score, and never for the dialect that is detected. The messages go to standard output: what 'detect' prints in verbose mode is never JSON, and what 'standardize' prints starts with a message that reading the output back returns as the first row. Files written by standardize are the same as without verbose. If the file cannot be read nothing is printed.", "quantifier": "all texts, methods, delimiters, type detectors, set orders, ways in which printing fails, file systems and arguments", "why_tests_cant": "a comparison of two runs for all inputs, and output for every set of candidates", "anchors": ["clevercsv/detect.py:Detector.detect", "clevercsv/consistency.py:ConsistencyDetector.compute_consistency_scores", "clevercsv/consistency.py:ConsistencyDetector.detect", "clevercsv/normal_form.py:detect_dialect_normal", "clevercsv/console/commands/standardize.py:StandardizeCommand.handle_path", "clevercsv/console/commands/detect.py:DetectCommand.handle"]}
{"id": "C98", "title": "The text that is written", "statement": "What writerow writes is, for every csv dialect, this text: the values joined by the delimiter and followed by the line terminator; a value is in quotes if the quoting style says so for it (QUOTE_ALL: every value, QUOTE_NONNUMERIC: every value that is no number, None included), if under QUOTE_MINIMAL some character asks for quotes (a quote that is doubled, or a delimiter, LF, CR or character of the line terminator that is neither quote nor escape character), if it is empty, the delimiter is a space and spaces are skipped, or if it is the only value of its row and empty; inside, a quote is doubled or escaped, an escape character is escaped, and with QUOTE_NONE every separator is escaped. If the line terminator is None rows end with LF. writerows writes the texts of the rows one after another, and write_table puts exactly this text, encoded, into the file.", "quantifier": "all writer dialects (every quoting style, with or without quote, escape character, doubling), rows that can be written, tables, encodings, file systems", "why_tests_cant": "the exact output for all dialects and values of any length", "anchors": ["clevercsv/write.py:writer.writerow", "clevercsv/write.py:writer.writerows", "clevercsv/wrappers.py:write_table", "clevercsv/dialect.py:SimpleDialect.to_csv_dialect"]}
{"id": "C99", "title": "Quotes inside cells: CleverCSV and csv.reader", "statement": "On a text described by its layout (cells of plain, escaped and quoted pieces), csv.reader returns, unless it cuts a cell at a delimiter or line end in quotes it does not honour, the cells in which every escape character is dropped and only quotes at the very start of a cell count. Hence, for dialects without escape character, csv.reader and CleverCSV's reader return the same rows if and only if every cell is in quotes as a whole, or starts with plain text and has neither a doubled quote, nor a delimiter, nor a line end inside its quotes; a last cell whose quotes are not closed may also start with them if the text does not end with a doubled quote.", "quantifier": "all layouts (every text without NUL has one), dialects, field size limits above the length of the text", "why_tests_cant": "an exact condition for the agreement of two parsers on all texts", "anchors": ["clevercsv/cparser_util.py:parse_string", "src/cparser.c:parse_process_char", "clevercsv/dialect.py:SimpleDialect.to_csv_dialect", "clevercsv/console/commands/standardize.py:StandardizeCommand._to_stdout"]}
{"id": "C100", "title": "The options of the type detector", "statement": "With its default patterns and strip_whitespace=True a TypeDetector is the detector used for the type score; with strip_whitespace=False it is the same detector for texts in which nothing counts as white space. Stripping makes no known cell unknown (a cell that has a type without stripping has one with it); and a type found with stripping is found without it once the cell is stripped beforehand, unless it is percentage, currency or datetime, whose parts are stripped on their own. With a dictionary that lacks some patterns of another one every answer is the same or an AssertionError; an empty dictionary means the default. A currency pattern that matches without its first group raises AttributeError, or TypeError without stripping. detect_type returns only names from list_known_types. gen_known_type yields the answers cell by cell and ends with the exception of the first cell that raises one.", "quantifier": "all cells, quoted or not, Unicode data in which white space is no letter, number or currency sign, dictionaries of patterns", "why_tests_cant": "a relation between two detectors for all texts; regular expressions over all of Unicode", "anchors": ["clevercsv/detect_type.py:TypeDetector.__init__", "clevercsv/detect_type.py:TypeDetector.detect_type", "clevercsv/detect_type.py:TypeDetector._run_regex", "clevercsv/detect_type.py:TypeDetector.list_known_types", "clevercsv/detect_type.py:TypeDetector.is_known_type", "clevercsv/detect_type.py:TypeDetector.is_datetime", "clevercsv/detect_type.py:gen_known_type"]}
{"id": "C101", "title": "A sample of the file is enough", "statement": "If the first num_chars characters of a file in simple form are themselves in simple form with the same delimiter and quote character, then detect_dialect answers the same as for the whole file, read_table returns all rows of the file, and standardize writes all of them. The first rows of such a file are such a sample, with or without the last line end: at least one row of a table without quotes, where the sample may also end anywhere in the last cell of a row; of a table with quotes rows that show them (all cells quoted, or two rows with a quoted cell); two lines of a column. The sample may also end between the CR and the LF of a line end. It is not true of every sample: one that ends before the last cell of a row can lead to another delimiter, and one whose rows show no quotes to a dialect without them.", "quantifier": "all files in simple form, all sample sizes of the given kinds, file systems, encodings, the methods normal and auto", "why_tests_cant": "a claim about all files and all places to cut them", "anchors": ["clevercsv/wrappers.py:detect_dialect", "clevercsv/wrappers.py:read_table", "clevercsv/wrappers.py:stream_table", "clevercsv/normal_form.py:detect_dialect_normal", "clevercsv/console/commands/standardize.py:StandardizeCommand.handle_path"]}
{"id": "C102", "title": "The order of the lines", "statement": "Two texts with the same lines in different orders (none blank, double quotes and apostrophes balanced on each line, no possible escape character in front of a quote or at the end of a line) get the same answer from the consistency measure, dialect or exception, if for every potential dialect the two orders show the different numbers of cells of a line for the first time in the same order, or there are at most two such numbers, and the type detector answers for all cells (the shipped one does on lines without an opening brace). The normal forms never depend on the order of lines that are not blank. Hence the detector as shipped does not either, with any method, and lines that repeat earlier ones can come in any order. It is not true of all orders: for the lines a;b and a,b;c,d;e and a,b the default method answers comma, and in the reverse order semicolon, because the scores of the kinds of rows are added in the order of appearance and rounded.", "quantifier": "all lines, all their orders, line ends, user delimiters, iteration orders of the sets, cache sizes, both settings of skip", "why_tests_cant": "all permutations of all files; the difference is in the last bit of a sum of floating-point numbers", "anchors": ["clevercsv/consistency.py:ConsistencyDetector.detect", "clevercsv/cparser_util.py:parse_string", "clevercsv/_regexes.py:PATTERN_URL", "clevercsv/detect_pattern.py:pattern_score", "clevercsv/detect_type.py:type_score", "clevercsv/break_ties.py:tie_breaker", "clevercsv/normal_form.py:detect_dialect_normal", "clevercsv/detect.py:Detector.detect"]}
{"id": "C103", "title": "How the input is divided into strings", "statement": "The parser takes any iterable of strings. For dialects without escape character: a cut between two strings inside a quoted cell makes no difference to the rows or errors; a string that ends outside of quoted cells ends a row, with or without a line end, and the strings after it are parsed as if they were the whole input (an empty string is an empty row); lines given without their line ends, such as those of splitlines, give the same rows except that the line ends inside quoted cells are gone, and exactly the same rows if no cell contains one, provided every quote is closed and no cell exceeds the field limit. It is not true that only the joined text matters, and the last two conditions are needed.", "quantifier": "all iterables of strings, all dialects without escape character, strict or not, with or without information about quotes, all field limits", "why_tests_cant": "every way to cut every text into strings", "anchors": ["src/cparser.c:Parser_iternext", "src/cparser.c:parse_process_char", "src/cparser.c:parse_save_field", "clevercsv/cparser_util.py:_parse_data", "clevercsv/read.py:reader.__next__"]}
{"id": "C104", "title": "Strict mode and the field size limit only refuse", "statement": "Switching strict mode off or raising the field size limit never changes what was accepted: the parser, parse_data and the reader return the same rows and end in the same way, unless the iteration was ended by one of the errors of strict mode or of the limit; in that case the rows returned before the error are the first rows of the laxer run. The same holds for csv.reader.", "quantifier": "all iterables (strings, other objects, exceptions), dialects, limits, dialect objects, keyword arguments", "why_tests_cant": "a comparison of two runs for all inputs and all pairs of limits", "anchors": ["src/cparser.c:Parser_iternext", "src/cparser.c:parse_process_char", "src/cparser.c:parse_add_char", "clevercsv/cparser_util.py:parse_data", "clevercsv/cparser_util.py:field_size_limit", "clevercsv/read.py:reader.__next__"]}
{"id": "C105", "title": "What a command line means", "statement": "For the commands detect, view, standardize, code and explore: a command line made of runs of file names (any words that are no options, with `-`, negative numbers and words with a space), flags (alone, several letters behind one dash, long, or shortened to an unambiguous beginning) and options with a value (`-e v`, `-ev`, `--encoding v`, `--encoding=v`, shortened, behind grouped flags) is accepted exactly if it has one file name (standardize: one run of them), every number given is an int and not both --plain and --json are given. The command then gets the file names, the last value of each option, all values of options that may be repeated, and the flags that occur; otherwise it gets nothing and the usage is shown. The order of the parts does not matter as long as no option is repeated, and behind `--` every word is a file name. For any words at all the parsing ends, and an accepted line gives the command every argument it reads with the right type. File names separated by an option are refused although the same words in another order are accepted. A word in front of `--` that names no option (an unknown letter or long name) makes the line fail unless it contains a space or is a negative number, in which case it counts as a file name; the beginning of two long names is refused; -h and --help, also shortened, show the help.", "quantifier": "all command lines, all spellings of the options, any meaning of int and of digit characters", "why_tests_cant": "there are infinitely many command lines, spellings and orders; the tests run a handful", "anchors": ["clevercsv/console/commands/detect.py:DetectCommand.register", "clevercsv/console/commands/view.py:ViewCommand.register", "clevercsv/console/commands/standardize.py:StandardizeCommand.register", "clevercsv/console/commands/code.py:CodeCommand.register", "clevercsv/console/commands/explore.py:ExploreCommand.register"]}
{"id": "C106", "title": "From the words of a command line to the result", "statement": "clevercsv standardize, with any spelling of its options, on any number of files with tables in simple form: without -o and -i it prints the standard form of each table one after the other and changes no file; with as many different outputs as files, none of them an input, each output holds the standard form of its table in the target encoding (or the encoding of the input), nothing is printed and no other file changes; with -i each file whose checksum changes is replaced, no other file changes, and the exit code is 0 if none is replaced and 2 otherwise. clevercsv detect prints the dialect of such a file in the chosen form. For any words at all, standardize changes only files that are named by a word or the end of a word, except for one new temporary file if an exception ends it, and neither command fails because an argument is missing or of the wrong type. Refused lines show the usage and lines that begin with -h or --help the help; no file is read or changed and the command does not run.", "quantifier": "all command lines and spellings, any number of files, all tables in simple form, all encodings and sets of characters; for the last sentence all lists of words and all files", "why_tests_cant": "the combinations of options, files and tables are infinite, and the claim about touched files is about everything that is not named", "anchors": ["clevercsv/console/application.py:build_application", "clevercsv/console/commands/standardize.py:StandardizeCommand.handle", "clevercsv/console/commands/standardize.py:StandardizeCommand.handle_path", "clevercsv/console/commands/standardize.py:StandardizeCommand.register", "clevercsv/console/commands/detect.py:DetectCommand.handle"]}
{"id": "C107", "title": "View, code and explore from the words of a command line to the result", "statement": "On a file with a table in simple form and with any spelling of the options: clevercsv view shows the cells of the table (transposed with -t) if tabview is installed and the platform is not Windows; clevercsv code prints a program and exits with 0, and the program reads that file with the encoding that was used and the dialect of the table, and its rows are the cells of the table (with --pandas it reads a data frame with that dialect); clevercsv explore runs exactly these lines and names the variable that holds the data. A command line without exactly one file name or with a number that is no int shows the usage. No command runs if an unknown option is given, -h or --help in front shows the help, and for any words at all none of these commands fails because an argument is missing or of the wrong type.", "quantifier": "all command lines and spellings, all tables in simple form, all encodings and sets of characters; file names and encoding names without quotes, backslashes and line ends for the program", "why_tests_cant": "a test can run the generated program for a few files only; the tests never join the options, the detection and the generated program", "anchors": ["clevercsv/console/commands/view.py:ViewCommand.handle", "clevercsv/console/commands/code.py:CodeCommand.handle", "clevercsv/console/commands/explore.py:ExploreCommand.handle", "clevercsv/console/commands/_utils.py:generate_code"]}
