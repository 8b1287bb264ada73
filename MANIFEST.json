{
 "claims": [
  {
   "property": "C01",
   "status": "partial",
   "theorems": [
    "C01_all_names",
    "C01_class_name_gate_partial",
    "C01_class_name_gate_refuted"
   ],
   "note": "Refuted as stated: keywords and superscript characters are accepted. The _partial theorem excludes the seven odd Latin-1 characters and does not exclude keywords. C01_all_names: exactly which names are accepted."
  },
  {
   "property": "C02",
   "status": "partial",
   "theorems": [
    "C02_exact_partial",
    "C02_no_later_naming_failure_partial",
    "C02_no_later_naming_failure_refuted"
   ],
   "note": "Refuted for classes whose __name__ is not a word; proved for all other data. C02_exact_partial: when the classes of dicts and keys are words, it fails exactly if an element of a list, tuple, set ... within the limit is of a class whose name is not a word."
  },
  {
   "property": "C03",
   "status": "partial",
   "theorems": [
    "C03_when_identifier",
    "C03_all_keys",
    "C03_names_extend_class_name",
    "C03_names_are_identifiers_partial",
    "C03_names_are_identifiers_refuted"
   ],
   "note": "The prefix part is proved for all data and strategies; identifiers are proved when no key contains a superscript, fraction or middle dot; refuted otherwise. C03_all_keys: for all keys every name begins like an identifier and goes on with letters, digits, underscores, superscripts and fractions, so it is an identifier exactly if it has none of the latter; a middle dot does no harm."
  },
  {
   "property": "C04",
   "status": "partial",
   "theorems": [
    "C04_strategy_validation_partial",
    "C04_strategy_validation_refuted",
    "C04_kept"
   ],
   "note": "Refuted as stated: a limit of 0 is accepted (and means no limit). The _partial theorem is the exact acceptance condition."
  },
  {
   "property": "C05",
   "status": "partial",
   "theorems": [
    "C05_reached_partial",
    "C05_failure",
    "C05_exact_partial",
    "C05_never_diverges",
    "C05_totality_partial",
    "C05_totality_refuted"
   ],
   "note": "Refuted as stated (C05_totality_refuted): a class whose name is not a word makes the construction stop with a naming error, as in C02. Termination is proved without conditions (C05_never_diverges). A tree is returned whenever the class names are words after which types are named (C05_reached_partial); exact condition when the classes of dicts and keys are words (C05_exact_partial)."
  },
  {
   "property": "C06",
   "status": "proved",
   "theorems": [
    "C06_dispatch",
    "C06_project_table_is_consistent"
   ],
   "note": "For every table of parser classes, every runtime type and every isinstance relation."
  },
  {
   "property": "C07",
   "status": "proved",
   "theorems": [
    "C07_bookkeeping"
   ],
   "note": "For every node of every tree from_data returns."
  },
  {
   "property": "C08",
   "status": "partial",
   "theorems": [
    "C08_data_partial",
    "C08_json_sound_partial",
    "C08_json_sound_plain_dicts_partial",
    "C08_values_of_merged_dicts_refuted",
    "C08_shared_rows_refuted",
    "C08_empty_containers_refuted",
    "C08_clear_partial"
   ],
   "note": "Refuted as stated (merged dicts keep the value type of the last dict, lists with the same keys share optional keys, empty list and empty dict are confused). Proved for all JSON data, strategies and set orders under conditions that exclude these cases: rows_agree, optional_keys_agree, empties_differ, no documentation keys, within the element limit, names told apart (or, in C08_clear_partial, clear names and a class name that typing does not use; in C08_data_partial all conditions are about data, strategies and class name, and it is also proved that tree and declarations exist)."
  },
  {
   "property": "C09",
   "status": "partial",
   "theorems": [
    "C09_data_partial",
    "C09_sound_partial",
    "C09_frozenset_refuted",
    "C09_classes_refuted",
    "C09_list_and_set_refuted",
    "C09_dict_and_proxy_refuted",
    "C09_arrays_refuted",
    "C09_clear_partial"
   ],
   "note": "Refuted as stated (set/frozenset, lists and sets or dicts and mapping proxies below the first level, classes, array element types). Proved for tidy data: one kind of sequence besides fixed size tuples and one kind of mapping besides TypedDicts, functions with one-line signatures, no iterators, consistent classes, and the conditions of C08; C09_clear_partial replaces the condition on the declarations by clear names, C09_data_partial by a condition on the data."
  },
  {
   "property": "C10",
   "status": "partial",
   "theorems": [
    "C10_equal_trees_partial",
    "C10_equal_trees_refuted"
   ],
   "note": "Refuted as stated (set and frozenset). Proved for values that occur in tidy data; the declarations of one then accept the other."
  },
  {
   "property": "C11",
   "status": "partial",
   "theorems": [
    "C11_equality_is_an_equivalence",
    "C11_equality_ignores_names",
    "C11_equality_ignores_docs_partial",
    "C11_equality_ignores_docs_refuted"
   ],
   "note": "Equivalence and independence of names proved. Independence of documentation keys proved without an element limit, refuted with one."
  },
  {
   "property": "C12",
   "status": "partial",
   "theorems": [
    "C12_declared_before_use_partial",
    "C12_declared_before_use_refuted",
    "C12_all_data"
   ],
   "note": "Refuted as stated: a TypedDict field refers to the camel-cased name of its child, and the class of a key is written unimported. Proved for data with built-in key classes and, with TypedDicts, a capitalised alphanumeric class name and alphanumeric type names. C12_all_data: for all data, the only names that can be left unresolved are these."
  },
  {
   "property": "C13",
   "status": "partial",
   "theorems": [
    "C13_data_partial",
    "C13_unique_names_partial",
    "C13_unique_names_refuted",
    "C13_clear_names_partial",
    "C13_clear_nodes_partial"
   ],
   "note": "Refuted as stated: names are concatenations and collide. Proved for trees with clear names (clear_names: under every mapping the words added by different keys are neither equal nor extended by one another): no name is declared twice, and declared nodes of one name are the same. C13_data_partial states the condition on the data alone (clear_data: keys holding containers or functions begin with a letter, do not continue each other in camel case, and hold values that are told apart). In general no declaration text is emitted twice."
  },
  {
   "property": "C14",
   "status": "partial",
   "theorems": [
    "C14_finished_partial",
    "C14_data_partial",
    "C14_sibling_names_partial",
    "C14_sibling_names_refuted"
   ],
   "note": "Proved for the children of every sequence when it is constructed (any place, any name). For every sequence of the finished tree it is proved when no node with children is in several places inside of values that are renamed (C14_finished_partial), in particular for data whose keys and values are told apart (C14_data_partial). Refuted otherwise: nodes shared by several keys are renamed several times, which can give different siblings the same name."
  },
  {
   "property": "C15",
   "status": "partial",
   "theorems": [
    "C15_up_to_order_partial",
    "C15_errors_partial",
    "C15_order_refuted",
    "C15_merge_refuted"
   ],
   "note": "Refuted as stated: the order of the declarations depends on the iteration order of sets, and with TypedDicts in a list the fields too. Proved for all orders, strategies and data without dicts directly inside sequences (or without TypedDicts): same errors, same imports, same declarations up to their order."
  },
  {
   "property": "C16",
   "status": "partial",
   "theorems": [
    "C16_first_elements_partial",
    "C16_walk_exhausts",
    "C16_limit_is_cut_partial",
    "C16_zero_is_none",
    "C16_no_limit",
    "C16_typed_dict_keys",
    "C16_second_pass_refuted"
   ],
   "note": "Proved for all n, strategies and orders: the tree is that of the data cut to the first n elements (without the element values kept in dict nodes), None and 0 mean no limit, TypedDict keys are not limited. Missing: iterators with more than n+1 elements below merged TypedDicts, where the claim is false (C16_second_pass_refuted)."
  },
  {
   "property": "C17",
   "status": "partial",
   "theorems": [
    "C17_tuple_arity_partial",
    "C17_tuple_arity_refuted",
    "C17_nested_partial",
    "C17_root_partial"
   ],
   "note": "Refuted as stated: elements beyond the element limit are dropped. Proved for every tuple node of the tree (C17_nested_partial): one type per element of a tuple of the data within the limit, in order, and so for tuples in tuples; class names other than A, An, Any."
  },
  {
   "property": "C18",
   "status": "proved",
   "theorems": [
    "C18_unions_canonical"
   ],
   "note": "For every node; children enter as they are written by the tool."
  },
  {
   "property": "C19",
   "status": "partial",
   "theorems": [
    "C19_when_merged_partial",
    "C19_exact",
    "C19_decision",
    "C19_when_merged_refuted"
   ],
   "note": "Refuted as stated: 29 common keys of 50 are not merged at threshold 58. C19_exact gives the exact condition for fewer than 2^40 keys: merged exactly if the percentage reaches the threshold, except when it is met exactly at 29, 57 or 58 percent. The types compared are those of one representative per class of equal nodes."
  },
  {
   "property": "C20",
   "status": "partial",
   "theorems": [
    "C20_similarity_partial",
    "C20_exact",
    "C20_similarity_refuted"
   ],
   "note": "Refuted as stated: percentage 29 50 = 57 because the quotient is computed in binary64. C20_exact: for fewer than 2^40 keys the value is the rounded-down percentage, except one less at exactly 29, 57 and 58 percent."
  },
  {
   "property": "C21",
   "status": "proved",
   "theorems": [
    "C21_required_keys",
    "C21_one_group"
   ],
   "note": "for every sequence built by the tool (elements beyond the limit excluded)"
  },
  {
   "property": "C22",
   "status": "partial",
   "theorems": [
    "C22_merged_dicts_partial",
    "C22_merged_dicts_refuted"
   ],
   "note": "Refuted as stated: the value type of the last dict wins. Proved for tidy data: every dict with string keys is accepted by a TypedDict declared for the elements of its list."
  },
  {
   "property": "C23",
   "status": "proved",
   "theorems": [
    "C23_no_doc_fields",
    "C23_no_node_for_documentation"
   ],
   "note": "Nodes and fields; keys of one dict are distinct, as in Python."
  },
  {
   "property": "C24",
   "status": "proved",
   "theorems": [
    "C24_typed_dict_fields",
    "C24_plain_dict"
   ],
   "note": "For every TypedDict node; order relative to the input dict is stated for the root."
  },
  {
   "property": "C25",
   "status": "partial",
   "theorems": [
    "C25_syntax_partial",
    "C25_syntax_refuted",
    "C25_all_keys"
   ],
   "note": "Refuted as stated: key _, keys with quotes, name-mangled keys. Proved for keys with a letter or digit and without exotic characters. C25_all_keys: for all keys, when class syntax is used and which quoted keys read as the key."
  },
  {
   "property": "C26",
   "status": "partial",
   "theorems": [
    "C26_min_height_partial",
    "C26_min_height_refuted",
    "C26_all_data"
   ],
   "note": "Refuted as stated: nodes behind a None key are never visited. Proved without None keys; monotonicity is proved for all data. C26_all_data: exactly which nodes are declared, and in which order, for all data."
  },
  {
   "property": "C27",
   "status": "partial",
   "theorems": [
    "C27_builtins",
    "C27_imports_complete_partial",
    "C27_imports_complete_refuted",
    "C27_signatures",
    "C27_simple_annotations"
   ],
   "note": "Refuted as stated: names after a comma inside a function signature are missed. Proved for everything but the copied signatures. C27_signatures: exactly which keywords a copied signature asks for, for all signatures; C27_simple_annotations: nothing is missed in annotations without white space and commas. C27_builtins: the names that need no import are the classes of the library reference."
  },
  {
   "property": "C28",
   "status": "proved",
   "theorems": [
    "C28_import_block_order_insensitive",
    "C28_import_block_content",
    "C28_statements_resolve",
    "C28_future_first"
   ],
   "note": "For every history of add() calls and every iteration order of the set. Line length at least 26 (the code uses 90)."
  },
  {
   "property": "C29",
   "status": "proved",
   "theorems": [
    "C29_ordered_set"
   ],
   "note": "For every element type with decidable equality and every history."
  },
  {
   "property": "C30",
   "status": "partial",
   "theorems": [
    "C30_all_trees",
    "C30_rename_partial",
    "C30_rename_refuted"
   ],
   "note": "Proved when no node is shared, and for shared nodes when the new name is as long as the old one; refuted when a node is stored under several keys. C30_all_trees: what happens to every node of every tree."
  },
  {
   "property": "C31",
   "status": "partial",
   "theorems": [
    "C31_to_string_partial",
    "C31_to_string_refuted"
   ],
   "note": "Refuted as stated: the cache ignores the argument. Proved for what the histories return: always the result of the first call."
  },
  {
   "property": "C32",
   "status": "proved",
   "theorems": [
    "C32_docstring_words"
   ],
   "note": "Latin-1 strings."
  },
  {
   "property": "C33",
   "status": "partial",
   "theorems": [
    "C33_docstring_width_partial",
    "C33_docstring_width_refuted",
    "C33_all_texts",
    "C33_determined"
   ],
   "note": "Refuted as stated: the one-line form can be longer than the limit. The _partial theorem covers all wrapped lines; C33_all_texts and C33_determined state the exact docstring of every text for every limit and indentation."
  },
  {
   "property": "C34",
   "status": "partial",
   "theorems": [
    "C34_untouched_partial",
    "C34_all_data",
    "C34_walk_is_exhaust",
    "C34_iterators_lose_elements",
    "C34_iterators_refuted"
   ],
   "note": "Refuted as stated: iterators are used up. Proved for all data without iterators. C34_all_data: the data is unchanged exactly if every iterator that is looked at is empty."
  },
  {
   "property": "C35",
   "status": "partial",
   "theorems": [
    "C35_function_hints_partial",
    "C35_function_hints_refuted",
    "C35_all_functions"
   ],
   "note": "Refuted as stated: an arrow in a default value counts as a return annotation. Proved for the other signatures; C35_all_functions gives every case."
  },
  {
   "property": "C36",
   "status": "proved",
   "theorems": [
    "C36_rewriting_keeps_document"
   ],
   "note": "All texts, positions and file names. Texts are Latin-1; lines are those of str.splitlines."
  },
  {
   "property": "C37",
   "status": "partial",
   "theorems": [
    "C37_no_comments_partial",
    "C37_no_comments_refuted",
    "C37_all_files"
   ],
   "note": "Refuted as stated: a line that is only a dash makes the rewriting raise IndexError. Proved for all other files without #, for mixed tabs and spaces, and when no comment is extracted. A final line feed is dropped. C37_all_files: for all files in which no key has a comment, it fails exactly with a lone dash in a file with spaces and without tabs, and otherwise changes nothing."
  },
  {
   "property": "C38",
   "status": "proved",
   "theorems": [
    "C38_positions"
   ],
   "note": "All names and position sequences."
  },
  {
   "property": "C39",
   "status": "partial",
   "theorems": [
    "C39_all_lines",
    "C39_search_partial",
    "C39_one_kind_partial",
    "C39_search_refuted"
   ],
   "note": "Refuted as stated: both quote characters toggle the same flag, so an apostrophe inside double quotes hides the rest of the line. Exact for all lines: the first occurrence with an even number of quote characters before it (C39_all_lines); this is the claim for lines in which no quoted scalar contains the other quote character."
  },
  {
   "property": "C40",
   "status": "partial",
   "theorems": [
    "C40_all_lines",
    "C40_block_below",
    "C40_block_above_partial",
    "C40_block_found_partial",
    "C40_block_above_refuted",
    "C40_other_side_comment_refuted"
   ],
   "note": "Refuted as stated: the search above wraps around to the end of the file, and side comments of the previous line are taken. Proved below for all files, above unless the block reaches the top and the last line has a # in the same column. C40_all_lines: exactly which lines are read, for all lines."
  },
  {
   "property": "C41",
   "status": "partial",
   "theorems": [
    "C41_fallback_partial",
    "C41_fallback_refuted",
    "C41_all_calls",
    "C41_determined"
   ],
   "note": "Refuted as stated: file names other than *.yaml/*.yml and above+below raise although the loader could read the file. Proved for all other inputs, all loaders and all from_data. C41_all_calls and C41_determined: what is answered in every case."
  },
  {
   "property": "C42",
   "status": "partial",
   "theorems": [
    "C42_all_schedules",
    "C42_concurrent_partial",
    "C42_concurrent_refuted",
    "C42_same_file_refuted"
   ],
   "note": "Refuted as stated: the temporary file is shared by all files of the same name. Proved for all schedules when names differ and neither file is the other's temporary file. C42_all_schedules: any number of callers with any file names; what each can find, and that it answers as if alone if no other call has its file name."
  },
  {
   "property": "C43",
   "status": "partial",
   "theorems": [
    "C43_comment_text_partial",
    "C43_comment_text_refuted"
   ],
   "note": "Refuted as stated: triple quotes are deleted. The period is proved for all blocks, the words for blocks without triple quotes."
  },
  {
   "property": "C44",
   "status": "partial",
   "theorems": [
    "C44_search_all",
    "C44_all_files",
    "C44_label_in_value_refuted",
    "C44_value_with_equals_refuted",
    "C44_frame_partial",
    "C44_found_again_partial",
    "C44_refuses_partial"
   ],
   "note": "Refuted as stated: the label is also found in the value, and a value with '=' is cut. Proved: the frame for all files; the new value is found again when the label stands before the last '=' and the value is not blank and has no '='; zero or several assignments are refused. C44_search_all and C44_all_files give the result of every search and replacement."
  },
  {
   "property": "C45",
   "status": "partial",
   "theorems": [
    "C45_add_lines",
    "C45_add_line",
    "C45_empty_sequence_refuted",
    "C45_add_imports"
   ],
   "note": "Refuted for an empty sequence (an empty line is inserted). Proved for all files, indexes and non-empty sequences, and for imports."
  },
  {
   "property": "C46",
   "status": "partial",
   "theorems": [
    "C46_extent_unique",
    "C46_all_files",
    "C46_apart_partial",
    "C46_nested_refuted",
    "C46_line_below_refuted",
    "C46_two_methods_refuted",
    "C46_first_line_refuted",
    "C46_layout_partial",
    "C46_terminates"
   ],
   "note": "Refuted as stated: the line below a method is removed also when it is not empty; a decorator on the last line counts as above the first. Proved for files where each private method has no empty line inside and is followed by an empty line or the end. C46_all_files: exactly which lines are removed, or that it fails, for all files; C46_apart_partial: methods that do not overlap."
  },
  {
   "property": "C47",
   "status": "proved",
   "theorems": [
    "C47_all_histories",
    "C47_no_arrow",
    "C47_registry",
    "C47_calls_return"
   ],
   "note": "Every well-formed stub template, every generator, all histories in which an object is not used any more after another was created (one instance and restarts); without resets and crashes. _calls_return adds that valid calls of a total generator return. C47_all_histories: the same counts for all histories, also with several objects, resets and crashes, against the machine of C94. C47_no_arrow: why the template has to be well-formed: of a method without a return annotation the overload keeps two characters."
  },
  {
   "property": "C48",
   "status": "proved",
   "theorems": [
    "C48_class_files",
    "C48_crash_refuted"
   ],
   "note": "All interleavings of objects, with resets, without crashes. C48_crash_refuted: a crash can store a text of a call that did not return."
  },
  {
   "property": "C49",
   "status": "partial",
   "theorems": [
    "C49_line_ends",
    "C49_agreement",
    "C49_docstring_refuted",
    "C49_types_refuted",
    "C49_validate_partial",
    "C49_lines_partial",
    "C49_failure",
    "C49_all_calls"
   ],
   "note": "Refuted as stated: the whole line of a closing triple quote is dropped, and quotes inside keys count as docstrings. Proved: the call returns exactly when the texts that _remove_docstrings yields are equal; on failure nothing changes; for texts without triple quotes inside lines the comparison ignores exactly the docstring lines. C49_all_calls: exactly when a call returns, after every history, with any number of objects, resets and crashes. C49_line_ends, C49_agreement: the class file is compared with its line ends read as line feeds."
  },
  {
   "property": "C50",
   "status": "partial",
   "theorems": [
    "C50_all_calls",
    "C50_new_objects_partial",
    "C50_old_objects_refuted"
   ],
   "note": "Refuted as stated: objects created before the reset fail. Proved for objects created after it, all states. C50_all_calls: an object from before the reset can be used right after it exactly if it registered nothing (later: C49_all_calls)."
  },
  {
   "property": "C51",
   "status": "partial",
   "theorems": [
    "C51_refuted",
    "C51_sequential_partial",
    "C51_all_calls"
   ],
   "note": "Refuted as stated: an instance writes its own copy of the stub. Proved when an instance is not used any more after another was created. C51_all_calls: exactly which registered classes a call loses, after every history."
  },
  {
   "property": "C52",
   "status": "partial",
   "theorems": [
    "C52_all_histories",
    "C52_never_repaired",
    "C52_refuted",
    "C52_repaired_partial"
   ],
   "note": "Refuted as stated: a crash after the registry was written is never repaired (proved for all histories and later operations). Proved: crashes before the registry or after the last write are repaired. C52_all_histories: which parts of the class are in the stub, for every crash point, every history before it and every history without reset after it, with any number of objects."
  },
  {
   "property": "C53",
   "status": "partial",
   "theorems": [
    "C53_untyped",
    "C53_only_tuples",
    "C53_all_frames",
    "C53_overloads_partial",
    "C53_odd_columns",
    "C53_overloads_refuted"
   ],
   "note": "Refuted as stated: columns that are all tuples of one label give pd.DataFrame, and a tuple among other labels has no overload. Proved for all indexes of simple labels and all multi indexes with at least two levels: one overload per different first label, in order of first occurrence, with a literal that evaluates to the label; and pd.DataFrame whenever some column is not a literal. C53_all_frames: for every index (of tuples of the same length, if a multi index) the result is pd.DataFrame exactly if a column is not a literal or all columns are tuples of one label, and otherwise the class with one overload per different label that is no tuple (or first label of the tuples), in order, plus Hashable if a tuple stands among other labels; C53_only_tuples: a plain index of tuples gives no tree. Frames inside other containers are not modelled."
  },
  {
   "property": "C54",
   "status": "partial",
   "theorems": [
    "C54_terminates_partial",
    "C54_different_columns",
    "C54_tree_partial",
    "C54_no_tree",
    "C54_terminates_refuted"
   ],
   "note": "Refuted as stated: a plain index with a repeated label recurses for ever (the lookup of the label returns the same frame). Proved to be the only obstacle: construction terminates when no plain index, at any level, repeats a label, and never gives a tree when one does."
  },
  {
   "property": "C55",
   "status": "partial",
   "theorems": [
    "C55_file_objects_refuted",
    "C55_io_partial"
   ],
   "note": "Refuted as stated: the iterator parser is found before the IO parser, so open files are hinted as iterators. Proved: exactly the objects of the class IOBase itself, and the instances of IOBase that are instances of no type asked earlier, get the IO parser."
  },
  {
   "property": "C56",
   "status": "proved",
   "theorems": [
    "C56_every_comment_gets_its_entry"
   ],
   "note": "Keys that start with an ASCII letter, without white space, quotes or colons; files indented with spaces; list items with one space after the dash."
  },
  {
   "property": "C57",
   "status": "partial",
   "theorems": [
    "C57_all_lines",
    "C57_side_comment_partial",
    "C57_side_comment_refuted"
   ],
   "note": "Refuted as stated: a # inside of a plain value hides the comment after it (and quotes, see C39). Exact for all lines: C57_all_lines; the claim is proved for lines whose quoted scalars do not contain the other quote character and whose first # outside of quotes follows a space."
  },
  {
   "property": "C58",
   "status": "partial",
   "theorems": [
    "C58_all_items",
    "C58_dash_stays",
    "C58_dash_column_refuted",
    "C58_dash_column_partial"
   ],
   "note": "Refuted as stated: with several spaces after the dash it moves. Proved for one space. C58_all_items and C58_dash_stays: where the dash goes for every number of spaces, and that it stays exactly with one."
  },
  {
   "property": "C59",
   "status": "partial",
   "theorems": [
    "C59_all_histories",
    "C59_decorators_refuted",
    "C59_decorated_partial"
   ],
   "note": "Refuted as stated: search_decorator never finds the decorator, so decorators accumulate. Proved: after every history with one object at a time, each class in use has exactly one overload of each method and it is below an @overload and an @override line. C59_all_histories: for every overload in the stub after any history."
  },
  {
   "property": "C60",
   "status": "partial",
   "theorems": [
    "C60_stale_validation_refuted",
    "C60_sequential_partial",
    "C60_all_calls"
   ],
   "note": "Refuted as stated: an instance does not see classes that another one registered later. Proved when an instance is not used any more after another was created. C60_all_calls: which text a class file holds after a call with another text, after every history."
  },
  {
   "property": "C61",
   "status": "partial",
   "theorems": [
    "C61_no_columns_refuted",
    "C61_no_columns_partial"
   ],
   "note": "Refuted: the strategy is only read for the hash of a node; the class with all columns is generated. Proved: tree, declarations and text are always those of the strategy for autocomplete."
  },
  {
   "property": "C62",
   "status": "proved",
   "theorems": [
    "C62_columns_declared_first",
    "C62_hints_declared"
   ],
   "note": "Every declaration of a data frame tree comes after the declarations of its permitted columns."
  },
  {
   "property": "C63",
   "status": "partial",
   "theorems": [
    "C63_names_refuted",
    "C63_names_partial"
   ],
   "note": "Refuted: the suffixes of 'a b' and 'aB' are equal, so two different classes get the same name. Proved: the class of a column adds the camel case of its label (WSpace if that is empty), so names differ exactly where these differ."
  },
  {
   "property": "C64",
   "status": "proved",
   "theorems": [
    "C64_text",
    "C64_imports"
   ],
   "note": ""
  },
  {
   "property": "C65",
   "status": "proved",
   "theorems": [
    "C65_literals",
    "C65_different_literals",
    "C65_text"
   ],
   "note": "C65_text: exactly what is written for a text label."
  },
  {
   "property": "C66",
   "status": "proved",
   "theorems": [
    "C66_layout",
    "C66_one_text",
    "C66_one_reading",
    "C66_one_reading_docs"
   ],
   "note": "C66_one_reading: the text has one reading as imports and declarations. C66_one_reading_docs: with docstrings in class syntax that contain no triple quotes and no backslashes, two readings declare the same up to docstrings."
  },
  {
   "property": "C67",
   "status": "partial",
   "theorems": [
    "C67_written",
    "C67_succeeds",
    "C67_refused",
    "C67_failure_partial",
    "C67_histories_partial",
    "C67_to_file_refuted"
   ],
   "note": "Proved for the first call on a tree, except that directories made before the generation of the text fails stay, and for all histories: what they write and where; refuted after to_string(include_imports=False), whose result is cached."
  },
  {
   "property": "C68",
   "status": "partial",
   "theorems": [
    "C68_all_declarations",
    "C68_alias_partial",
    "C68_class_partial",
    "C68_rename_refuted"
   ],
   "note": "What is returned for every text is characterised exactly (C68_all_declarations). The claim follows for unannotated aliases with one '=' and for classes without '=' and without a further class head after the name; refuted for the declarations the tool writes (annotated aliases, default values, '=' in keys)."
  },
  {
   "property": "C69",
   "status": "partial",
   "theorems": [
    "C69_typed_partial",
    "C69_data_refuted",
    "C69_comment_refuted",
    "C69_functional_wrong",
    "C69_all_trees",
    "C69_inherits_partial",
    "C69_inherits_refuted",
    "C69_assigned_partial",
    "C69_alias_wrong"
   ],
   "note": "The effect on all trees is stated (C69_all_trees). Proved for class roots without '=' and further class heads and for unannotated aliases; refuted for annotated aliases, which all give a broken class statement (C69_alias_wrong). C69_typed_partial states it for TypedDicts in class syntax by their fields; C69_data_refuted and C69_comment_refuted show that its conditions on names and docstrings are needed. C69_functional_wrong: in functional syntax only the variable is renamed, not the name in quotes."
  },
  {
   "property": "C70",
   "status": "proved",
   "theorems": [
    "C70_histories",
    "C70_data",
    "C70_errors"
   ],
   "note": ""
  },
  {
   "property": "C71",
   "status": "partial",
   "theorems": [
    "C71_value_partial",
    "C71_value_refuted"
   ],
   "note": "Refuted as stated: the hidden documentation keys of the temporary copy are in the returned value. Proved without comments and whenever the copy loads to the same value."
  },
  {
   "property": "C72",
   "status": "proved",
   "theorems": [
    "C72_camel",
    "C72_names",
    "C72_numbers"
   ],
   "note": "C72_numbers: the number of a shared node is determined by how many other shared nodes of its type come before it."
  },
  {
   "property": "C73",
   "status": "partial",
   "theorems": [
    "C73_all_keys",
    "C73_different_partial",
    "C73_different_refuted"
   ],
   "note": "Refuted as stated: 'a b' and 'aB' have the same camel case. Proved: keys that share no node have the same name exactly if their words are the same (C73_all_keys), and shared nodes of one type have different names."
  },
  {
   "property": "C74",
   "status": "partial",
   "theorems": [
    "C74_root_partial",
    "C74_nodes_partial",
    "C74_declarations_partial",
    "C74_root_refuted"
   ],
   "note": "Refuted as stated for a subclass of dict called mappingproxy. Proved for all other values: the root, every declaration of the output, and what is written for nodes without a declaration (C74_nodes_partial)."
  },
  {
   "property": "C75",
   "status": "partial",
   "theorems": [
    "C75_scan_string_partial",
    "C75_command_partial",
    "C75_stderr_partial",
    "C75_success_refuted",
    "C75_all_outputs",
    "C75_determined"
   ],
   "note": "Refuted as stated: a note with a bracket counts as an error and an error without a code is lost. Proved for reports whose errors have codes and whose other lines contain no bracket (printable ASCII without apostrophe and backslash); for all runs, what is written to stderr is reported as a literal of it, and the scan asks exactly one process. C75_all_outputs: the result for every output, by a specification that determines it (C75_determined)."
  },
  {
   "property": "C76",
   "status": "partial",
   "theorems": [
    "C76_all_runs",
    "C76_determined",
    "C76_posix_refuted",
    "C76_windows_partial",
    "C76_stderr_partial",
    "C76_ignored_refuted"
   ],
   "note": "Refuted as stated: on POSIX the whole command is taken for the name of a program (C76_posix_refuted, for all arguments), and with several keywords only lines with all of them are ignored. Proved for Windows, names without blanks, with that reading of the keywords; output on stderr is an error everywhere. C76_all_runs and C76_determined: arguments and result for every platform, command and output."
  },
  {
   "property": "C77",
   "status": "partial",
   "theorems": [
    "C77_all_files",
    "C77_lines_partial",
    "C77_numbers_refuted",
    "C77_errors_partial",
    "C77_verdict_partial"
   ],
   "note": "Refuted as stated: the lines are numbered from 0. Proved: all lines in order with these numbers, every error is shown and the first words give the verdict; C77_all_files: for files with any line ends."
  },
  {
   "property": "C78",
   "status": "proved",
   "theorems": [
    "C78_decides"
   ],
   "note": "For trees as ast.parse makes them (the attributes of a node depend on its class)."
  },
  {
   "property": "C79",
   "status": "partial",
   "theorems": [
    "C79_unchanged_partial",
    "C79_essence_partial",
    "C79_changed_refuted"
   ],
   "note": "Refuted as stated: with ignore_imports the import statements of the second tree are deleted. Proved without it; with it, what is compared stays the same."
  },
  {
   "property": "C80",
   "status": "partial",
   "theorems": [
    "C80_all_data",
    "C80_classes",
    "C80_lines_partial",
    "C80_lines_refuted"
   ],
   "note": "Refuted as stated: nodes behind a None key are missing and the argument recursive has no effect. Proved for data without None keys; C80_all_data gives the lines for all data; C80_classes: the class shown for each kind of value."
  },
  {
   "property": "C81",
   "status": "partial",
   "theorems": [
    "C81_exit_partial",
    "C81_pass_refuted",
    "C81_all_texts",
    "C81_unknown_daemon",
    "C81_verdict"
   ],
   "note": "Refuted as stated: a single text under pass_if_output_contains is taken letter by letter. Proved for lists (and single letters), all configurations, machines and options: all selected tools are run in order and the exit status is 0 exactly if all have passed. C81_verdict: the last text printed fits the status. C81_all_texts: a single text means the list of its characters, for all configurations; C81_unknown_daemon: the case in which an entry raises KeyError."
  },
  {
   "property": "C82",
   "status": "partial",
   "theorems": [
    "C82_refused",
    "C82_listed",
    "C82_single_partial",
    "C82_single_refuted"
   ],
   "note": "Refuted as stated: --single-tool is a substring search in lower case. Proved for --only-run-tools, for single lower case names in which no other name occurs, and that nothing is run when nothing is selected."
  },
  {
   "property": "C83",
   "status": "partial",
   "theorems": [
    "C83_report_partial",
    "C83_ignored_refuted"
   ],
   "note": "Refuted as stated: with only_include the texts to ignore have no effect. Proved otherwise, for lists of texts, with the whole report. For single texts see C81_all_texts."
  },
  {
   "property": "C84",
   "status": "partial",
   "theorems": [
    "C84_auto_linting_partial",
    "C84_empty_refuted",
    "C84_all_commands",
    "C84_hook_blocks",
    "C84_messages"
   ],
   "note": "Refuted as stated: an empty command removes the hook, also one of somebody else. Proved for all other commands. C84_all_commands: the other cases (empty command, no hooks directory, refused options). C84_hook_blocks: what the hook does when it is executed. C84_messages: what is printed."
  },
  {
   "property": "C85",
   "status": "partial",
   "theorems": [
    "C85_no_effect",
    "C85_parallel_refuted"
   ],
   "note": "Refuted as stated: the default of --disable-parallel is True as well. Proved: the option changes nothing."
  },
  {
   "property": "C86",
   "status": "partial",
   "theorems": [
    "C86_commands_partial",
    "C86_arguments_refuted"
   ],
   "note": "Refuted as stated: with the daemon the extra arguments of the entry are replaced. Proved: which commands are run, in all cases."
  },
  {
   "property": "C87",
   "status": "proved",
   "theorems": [
    "C87_configuration"
   ],
   "note": "All configurations whose values have the documented types."
  },
  {
   "property": "C88",
   "status": "proved",
   "theorems": [
    "C88_text",
    "C88_data"
   ],
   "note": "All data the model covers; C88_text at the level of the nodes, C88_data for the values."
  },
  {
   "property": "C89",
   "status": "partial",
   "theorems": [
    "C89_bodies_partial",
    "C89_lines_partial",
    "C89_bodies_refuted"
   ],
   "note": "Refuted as stated: asynchronous functions keep their bodies. Proved: the loop ends for every tree in a heap, with shared nodes, and the exact result; parsing and printing are parameters."
  },
  {
   "property": "C90",
   "status": "partial",
   "theorems": [
    "C90_text",
    "C90_below",
    "C90_above_partial",
    "C90_determined",
    "C90_shape",
    "C90_single_quotes_refuted"
   ],
   "note": "Refuted as stated: three single quotes can be left (or arise) when the double ones between them are deleted afterwards. Otherwise exact for all blocks: C90_text and C90_determined say what the text is, C90_shape that it never has three double quotes, ends with a full stop and does not begin with a small letter; the blocks of all lines, above and below, are those of C40_all_lines."
  },
  {
   "property": "C91",
   "status": "partial",
   "theorems": [
    "C91_all_files",
    "C91_copy_refuted",
    "C91_copy_partial"
   ],
   "note": "Refuted as stated: a dash directly before a commented key, or alone in its line, gives IndexError. C91_all_files says exactly which files fail."
  },
  {
   "property": "C92",
   "status": "partial",
   "theorems": [
    "C92_all_functions",
    "C92_value_partial",
    "C92_value_refuted",
    "C92_generator_refuted",
    "C92_dedent",
    "C92_dedent_determined",
    "C92_first_column"
   ],
   "note": "Refuted as stated: a bare return and the return of an inner function count, generators get None, and a text that cannot be parsed gives None. C92_all_functions says exactly what is hinted; inspect.getsource and ast.parse are parameters, textwrap.dedent is modelled."
  },
  {
   "property": "C93",
   "status": "partial",
   "theorems": [
    "C93_top_unique",
    "C93_methods",
    "C93_decorators",
    "C93_signature",
    "C93_signature_lines_partial",
    "C93_longer_name_refuted",
    "C93_last_line_refuted",
    "C93_second_decorator_refuted",
    "C93_decorator_call_refuted"
   ],
   "note": "Refuted as stated: methods with longer names are found, a decorator in the last line is taken as one of the first method, only the nearest decorator is looked at and a parenthesis in a decorator ends the signature. The other theorems say exactly what is found, for all files and all names that do not end with white space."
  },
  {
   "property": "C94",
   "status": "proved",
   "theorems": [
    "C94_machine",
    "C94_determined",
    "C94_yaml"
   ],
   "note": "Every well-formed stub template and every generator that returns or raises. The machine is in SpecMachine.v; C94_yaml adds from_yaml_file anywhere. C47-C52 and C60 are about this machine; C94 has no condition on the order of objects."
  },
  {
   "property": "C95",
   "status": "partial",
   "theorems": [
    "C95_all_files",
    "C95_determined",
    "C95_other_class_refuted"
   ],
   "note": "Refuted as stated only because the last __init__ of the file may belong to another class (C95_other_class_refuted: methods and class lines are removed then). C95_all_files says exactly which lines are kept for all files and names, and when an exception is raised."
  },
  {
   "property": "C96",
   "status": "proved",
   "theorems": [
    "C96_text",
    "C96_files",
    "C96_call"
   ],
   "note": "C96_text: the text of any such data; C96_call: a call after any history by an object that finds its class files and does not validate or does not know the class; C96_files: all class files after any history, crashes included. Acceptance and the conditions are those of C09."
  },
  {
   "property": "C97",
   "status": "proved",
   "theorems": [
    "C97_docstrings_only",
    "C97_describes",
    "C97_every_reading"
   ],
   "note": "Where the element limit counts entries (dicts that do not become a TypedDict, with a limit) there must be no documentation entries, since they would count as elements. The order of sets must not depend on the documentation. C97_describes adds the conditions of C09 for the data without the entries. C97_every_reading: if moreover no documentation contains triple quotes or backslashes, the class accepts the data in every reading of the text."
  },
  {
   "property": "C98",
   "status": "partial",
   "theorems": [
    "C98_same",
    "C98_all_classes",
    "C98_history",
    "C98_subclass_refuted"
   ],
   "note": "Refuted as stated: without a stub the class is looked for by type(self).__name__ in the source file, so the first object of a subclass raises ValueError. Proved: with a stub the lines are the same for every class; without one an object can be made only for names of classes in the file (C98_all_classes); after every history the stub decides (C98_history)."
  },
  {
   "property": "C99",
   "status": "partial",
   "theorems": [
    "C99_copy_partial",
    "C99_one_reading",
    "C99_lasting",
    "C99_call_partial",
    "C99_copy_refuted",
    "C99_last_line_refuted",
    "C99_nested_refuted",
    "C99_no_space_refuted",
    "C99_describes_partial"
   ],
   "note": "Refuted as stated: a line of a literal text that looks like a key gets its comment inserted into the text (C99_copy_refuted), a text at the end of the file loses its line feed, as the copy ends without one (C99_last_line_refuted), a sequence in a sequence loses its nesting when its first key has a comment (C99_nested_refuted), and in a file without any space no comment is found (C99_no_space_refuted). Proved for all files of a part of YAML (SpecYamlDoc.v: block mappings with plain keys, which may contain spaces, block sequences, values in one line as a parameter, literal and folded texts with chomping, comments, \"---\" at the beginning) with a space, without three quotes in a row, with texts and sequences in sequences whose lines do not look like keys, with or without dashes, and that mean the same without the end of their last line (C99_lasting: all that do not end in a text of several lines): C99_copy_partial (the meaning of the copy), C99_call_partial (what from_yaml_file makes), C99_describes_partial (the hints describe the data). C99_one_reading: the specification reads a file in one way. Missing: the rest of YAML."
  },
  {
   "property": "C100",
   "status": "partial",
   "theorems": [
    "C100_only",
    "C100_kept_partial",
    "C100_text_partial",
    "C100_items_partial",
    "C100_refuted",
    "C100_items_refuted",
    "C100_syntax_refuted"
   ],
   "note": "Refuted as stated: dicts with equal keys share a declaration with the documentation of one of them (C100_refuted, C100_items_refuted), and the functional syntax has no docstrings (C100_syntax_refuted). Proved: every docstring is the documentation of that key in a dict of the value (C100_only, all values and strategies); a dict under a path of keys where no earlier value is like it is declared with exactly its own documentation (C100_kept_partial), printed after the field (C100_text_partial); dicts in a list (C100_items_partial)."
  },
  {
   "property": "C101",
   "status": "partial",
   "theorems": [
    "C101_items_partial",
    "C101_call_partial",
    "C101_docstrings_partial",
    "C101_one_text",
    "C101_refuted"
   ],
   "note": "Refuted as stated: mappings with equal keys share a declaration with the comments of the first one (C101_refuted). Proved for all files of the part of YAML of C99: what is built is built from the data together with the comments (C101_call_partial); every docstring is the comment of a line of that key, and a key of a mapping under a path of keys where no earlier value is like it has exactly the comment of its own line, or none (C101_docstrings_partial). For a mapping of a sequence under such a path: a commented key has a docstring in a declaration of the sequence, and it is the comment of that key in one of the mappings of the sequence (C101_items_partial). C101_one_text: the specification gives each key one text. Missing: the rest of YAML, mappings deeper inside of sequences for the second half."
  },
  {
   "property": "C102",
   "status": "proved",
   "theorems": [
    "C102_returned",
    "C102_call",
    "C102_without_comments",
    "C102_every_reading"
   ],
   "note": "C102_returned: any history and object; C102_call: when the call returns, and that it then returns the data with the comments; C102_without_comments: any file and loader. The conditions are those of C09 on the data and, with comments, those of C99 on the file; with comments, declarations of one name may differ in docstrings (C97). C102_every_reading: every reading of the text of the class file accepts the data."
  },
  {
   "property": "C103",
   "status": "partial",
   "theorems": [
    "C103_one_reading",
    "C103_literal_partial",
    "C103_comments",
    "C103_quotes_refuted",
    "C103_value_refuted",
    "C103_escape_refuted",
    "C103_side_refuted",
    "C103_written",
    "C103_file_partial"
   ],
   "note": "Refuted as stated: three double quotes in the text end the literal (C103_quotes_refuted; comments beside keys can have them, C103_side_refuted), a backslash changes its value (C103_value_refuted), and a wrong escape is no literal at all, so that the written file is no Python (C103_escape_refuted). Proved for all texts without three double quotes in a row and without backslashes (C103_literal_partial); block comments of YAML files never have three double quotes (C103_comments). C103_one_reading: the specification of literals gives one value and one end. C103_written: the comments of a YAML file without triple quotes and backslashes have none; C103_file_partial: so the hints made from such a file (of the part of YAML of C99, under the conditions of C09) can be read, and in every reading the class accepts the data."
  },
  {
   "property": "C104",
   "status": "proved",
   "theorems": [
    "C104_resembles",
    "C104_keys",
    "C104_files"
   ],
   "note": "C104_resembles: what the class accepts resembles the data; C104_keys: in particular it has the same keys; C104_files: the same of every class file that the live generator leaves after any history. Under the conditions of C96 (the data is describable), with the meaning of declarations of SpecSound.v. Nothing is said about tuples, empty sequences, other mappings, functions, classes, modules and arrays, nor about the values in dicts of sequences that are merged."
  }
 ]
}