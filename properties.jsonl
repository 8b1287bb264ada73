{"id": "C01", "title": "class_name gate", "statement": "`from_data(data, class_name=n)` is accepted exactly when n is a lexical Python identifier that contains at least one letter or digit; every other name is refused with an error and no tree. (Keywords and non-ASCII digits are part of the claim: a name that gets through must be usable as a class name.)", "quantifier": "every string n, every data value", "why_tests_cant": "the set of candidate names is infinite; the tests try a handful of literals", "anchors": ["lazy_type_hint/generators/lazy_type_hint_abc.py:from_data", "lazy_type_hint/utils/utils.py:is_string_python_keyword_compatible"]}
{"id": "C02", "title": "accepted class_name means no naming failure later", "statement": "Once the class name is accepted, building the tree never fails because of the name of a nested node, whatever the keys, element types and strategies.", "quantifier": "every value, every strategy, every accepted class name", "why_tests_cant": "names of nested nodes are computed from arbitrary keys and element type names at every depth", "anchors": ["lazy_type_hint/data_type_tree/data_type_tree.py:_validate_name", "lazy_type_hint/data_type_tree/generic_type/mapping_data_type_tree.py:_to_camel_case", "lazy_type_hint/data_type_tree/generic_type/set_and_sequence_operations.py:instantiate_children"]}
{"id": "C03", "title": "declared names are identifiers prefixed by class_name", "statement": "Every node of the tree (hence every alias or class the output declares) has a name that starts with class_name and is a lexical identifier.", "quantifier": "every value built from identifiers-named types, every strategy", "why_tests_cant": "unbounded nesting and arbitrary dict keys", "anchors": ["lazy_type_hint/data_type_tree/generic_type/mapping_data_type_tree.py:_to_camel_case", "lazy_type_hint/data_type_tree/generic_type/mapping_data_type_tree.py:_instantiate_children", "lazy_type_hint/data_type_tree/data_type_tree.py:rename"]}
{"id": "C04", "title": "strategy validation", "statement": "`ParsingStrategies(...)` is constructible exactly when every literal field has one of its documented values, min_height >= 0, 1 <= merge percentage <= 100 and the element limit is None or >= 1.", "quantifier": "every combination of field values", "why_tests_cant": "integers and strings are unbounded", "anchors": ["lazy_type_hint/strategies.py:ParsingStrategies.__post_init__"]}
{"id": "C05", "title": "totality", "statement": "For every finite value, every strategy and every accepted class name `from_data` returns a tree: it neither raises nor recurses forever, although similar dicts are merged and rebuilt during the construction.", "quantifier": "every finite value, strategy, hash seed", "why_tests_cant": "the merge step rebuilds trees from data that is not a sub-value of the input, so termination is not structural", "anchors": ["lazy_type_hint/data_type_tree/data_type_tree.py:__init__", "lazy_type_hint/data_type_tree/generic_type/set_and_sequence_operations.py:_merge_similar_typed_dicts", "lazy_type_hint/data_type_tree/generic_type/dict_data_type_tree.py:from_multiple_dict_data_type_trees"]}
{"id": "C06", "title": "parser dispatch", "statement": "The factory picks for any object a parser that accepts it: the exact-type parser if there is one, otherwise a parser one of whose wrapped types the object is an instance of, otherwise the instance parser; the 'wrong parser' error is unreachable through the factory.", "quantifier": "every runtime type and every isinstance relation", "why_tests_cant": "user-defined classes and multiple inheritance are unbounded", "anchors": ["lazy_type_hint/data_type_tree/data_type_tree.py:get_subclass", "lazy_type_hint/data_type_tree/data_type_tree.py:_check_tree_is_correct_one", "lazy_type_hint/data_type_tree/factory.py:data_type_tree_factory"]}
{"id": "C07", "title": "depth, height and parent bookkeeping", "statement": "In every tree, a child has depth parent+1, only the root has no parent, leaves have height 0 and an inner node has height 1 + the maximum of the heights of the children it yields when iterated.", "quantifier": "every node of every tree", "why_tests_cant": "unbounded trees; nodes are replaced and renamed while the tree is built", "anchors": ["lazy_type_hint/data_type_tree/data_type_tree.py:_get_height", "lazy_type_hint/data_type_tree/data_type_tree.py:__init__", "lazy_type_hint/data_type_tree/generic_type/set_and_sequence_operations.py:instantiate_children"]}
{"id": "C08", "title": "soundness on JSON-like data", "statement": "For JSON/YAML-shaped data (None, bool, int, float, str, lists, dicts with string keys) the emitted declarations, read with Python's typing rules, accept the very data they were generated from.", "quantifier": "all JSON-like values of any size and nesting, all strategies, all hash seeds", "why_tests_cant": "tests compare output text for chosen literals; acceptance has to hold for every value", "anchors": ["lazy_type_hint/generators/lazy_type_hint.py:from_data", "lazy_type_hint/data_type_tree/data_type_tree.py:get_str_all_nodes", "lazy_type_hint/data_type_tree/generic_type/generic_data_type_tree.py:_get_types"]}
{"id": "C09", "title": "soundness on arbitrary supported data", "statement": "The emitted type of a container accepts all elements of the container, whatever supported objects it holds.", "quantifier": "all supported values", "why_tests_cant": "needs all combinations of element kinds", "anchors": ["lazy_type_hint/data_type_tree/generic_type/set_and_sequence_operations.py:instantiate_children", "lazy_type_hint/data_type_tree/data_type_tree.py:__eq__", "lazy_type_hint/data_type_tree/data_type_tree.py:__hash__"]}
{"id": "C10", "title": "tree equality means equal types", "statement": "Two values whose trees compare equal (`==`) have the same type; equality is what the tool uses to drop or share nodes.", "quantifier": "all pairs of values", "why_tests_cant": "pairs of arbitrary values", "anchors": ["lazy_type_hint/data_type_tree/data_type_tree.py:__eq__", "lazy_type_hint/data_type_tree/generic_type/sequence_data_type_tree.py:_get_hash", "lazy_type_hint/data_type_tree/generic_type/set_data_type_tree.py:_get_hash", "lazy_type_hint/data_type_tree/simple_data_type_tree/simple_data_type_tree.py:_get_hash"]}
{"id": "C11", "title": "tree equality is an equivalence and ignores names", "statement": "`==` between trees is reflexive, symmetric and transitive, is preserved by `rename`, and does not look at docstring keys.", "quantifier": "all trees", "why_tests_cant": "all triples of trees", "anchors": ["lazy_type_hint/data_type_tree/data_type_tree.py:__eq__", "lazy_type_hint/data_type_tree/data_type_tree.py:rename", "lazy_type_hint/data_type_tree/generic_type/dict_data_type_tree.py:_get_hash"]}
{"id": "C12", "title": "references are declared before use", "statement": "Every alias name that a declaration of the output mentions is itself declared earlier in the same output.", "quantifier": "all values, strategies, camel-case class names", "why_tests_cant": "unbounded nesting; sharing, merging and renaming all change names after they were handed out", "anchors": ["lazy_type_hint/data_type_tree/data_type_tree.py:_get_strs_all_nodes_unformatted", "lazy_type_hint/data_type_tree/generic_type/dict_data_type_tree.py:_parse_typed_dict", "lazy_type_hint/data_type_tree/generic_type/mapping_data_type_tree.py:_to_camel_case"]}
{"id": "C13", "title": "declared names are unique", "statement": "No name is declared twice with different contents in one output.", "quantifier": "all values", "why_tests_cant": "collisions depend on combinations of keys across levels", "anchors": ["lazy_type_hint/data_type_tree/generic_type/mapping_data_type_tree.py:_instantiate_children", "lazy_type_hint/data_type_tree/generic_type/mapping_data_type_tree.py:_assign_same_data_type_tree_to_keys_with_same_value_type", "lazy_type_hint/data_type_tree/generic_type/set_and_sequence_operations.py:instantiate_children"]}
{"id": "C14", "title": "sibling names in sequences are unique", "statement": "In one list, set, tuple or iterator, two elements that are not equal as trees get different names, and equal elements of a fixed tuple get the same name.", "quantifier": "all element lists", "why_tests_cant": "the numbering loop is unbounded", "anchors": ["lazy_type_hint/data_type_tree/generic_type/set_and_sequence_operations.py:instantiate_children"]}
{"id": "C15", "title": "output does not depend on the hash seed", "statement": "The generated text is the same in every process for the same data (the validate mode compares texts across processes).", "quantifier": "all data, all set iteration orders", "why_tests_cant": "a test runs under one hash seed", "anchors": ["lazy_type_hint/data_type_tree/generic_type/set_and_sequence_operations.py:instantiate_children", "lazy_type_hint/data_type_tree/generic_type/set_and_sequence_operations.py:_merge_similar_typed_dicts"]}
{"id": "C16", "title": "element limit", "statement": "With `check_max_n_elements_within_container=n` the generated tree depends only on the first n elements of every list, set, tuple or iterator; with None or 0 there is no limit; TypedDict keys are never limited.", "quantifier": "all n, all data", "why_tests_cant": "unbounded sizes", "anchors": ["lazy_type_hint/data_type_tree/generic_type/set_and_sequence_operations.py:instantiate_children", "lazy_type_hint/data_type_tree/generic_type/dict_data_type_tree.py:__pre_child_instantiation__", "lazy_type_hint/data_type_tree/generic_type/mapping_proxy_data_type_tree.py"]}
{"id": "C17", "title": "fixed tuple hints have the arity of the tuple", "statement": "With the fixed strategy the hint of a non-empty tuple lists exactly one type per element, in order.", "quantifier": "all tuples", "why_tests_cant": "all lengths (the default element limit interacts with it)", "anchors": ["lazy_type_hint/data_type_tree/generic_type/tuple_data_type_tree.py", "lazy_type_hint/data_type_tree/generic_type/set_and_sequence_operations.py:instantiate_children"]}
{"id": "C18", "title": "unions are canonical", "statement": "The element type printed for a list/set/any-size tuple/mapping is sorted, without duplicates, `Any` when there is no element, and mentions `int` only if `float` is absent; it is insensitive to the order of the elements.", "quantifier": "all lists of element types", "why_tests_cant": "all permutations", "anchors": ["lazy_type_hint/data_type_tree/generic_type/generic_data_type_tree.py:_get_types", "lazy_type_hint/data_type_tree/generic_type/generic_data_type_tree.py:_format_types"]}
{"id": "C19", "title": "when dicts are merged", "statement": "String-keyed dicts in one container are merged exactly when the percentage of keys common to all of them reaches the configured threshold and, key by key, their values have one runtime type (an int followed by floats counting as float).", "quantifier": "all families of dicts, all thresholds", "why_tests_cant": "all families of dicts", "anchors": ["lazy_type_hint/data_type_tree/generic_type/dict_data_type_tree.py:compare_multiple_dicts", "lazy_type_hint/data_type_tree/generic_type/set_and_sequence_operations.py:_merge_similar_typed_dicts"]}
{"id": "C20", "title": "similarity percentage is the true percentage", "statement": "The similarity compared with the threshold is floor(100*common/total).", "quantifier": "all pairs common <= total", "why_tests_cant": "the code computes it in binary floating point", "anchors": ["lazy_type_hint/data_type_tree/generic_type/dict_data_type_tree.py:percentage_similarity"]}
{"id": "C21", "title": "required keys of a merged dict", "statement": "After merging, a key is Required exactly when every merged dict has it; every key of every merged dict is present.", "quantifier": "all families of dicts, in any order", "why_tests_cant": "all families of dicts, all merge orders", "anchors": ["lazy_type_hint/data_type_tree/generic_type/dict_data_type_tree.py:DictMetadata.update", "lazy_type_hint/data_type_tree/generic_type/dict_data_type_tree.py:_update_key_info", "lazy_type_hint/data_type_tree/generic_type/dict_data_type_tree.py:from_multiple_dict_data_type_trees"]}
{"id": "C22", "title": "merged dicts accept all originals", "statement": "The merged TypedDict accepts every dict that was merged into it.", "quantifier": "all families of dicts", "why_tests_cant": "nested value types", "anchors": ["lazy_type_hint/data_type_tree/generic_type/dict_data_type_tree.py:from_multiple_dict_data_type_trees", "lazy_type_hint/data_type_tree/generic_type/set_and_sequence_operations.py:_merge_similar_typed_dicts"]}
{"id": "C23", "title": "hidden documentation keys never surface", "statement": "No field of a generated TypedDict is a `___docstring_hidden_key_...` key and no node is created for one.", "quantifier": "all dicts with hidden keys", "why_tests_cant": "all key sets", "anchors": ["lazy_type_hint/data_type_tree/generic_type/mapping_data_type_tree.py:_instantiate_children", "lazy_type_hint/data_type_tree/generic_type/dict_data_type_tree.py:_build_typed_dict"]}
{"id": "C24", "title": "TypedDict fields mirror the dict", "statement": "A generated TypedDict declares exactly the visible keys of the dict, once each, in the dict's order, wrapped in ReadOnly exactly when requested and in NotRequired exactly when the key is optional.", "quantifier": "all string-keyed dicts", "why_tests_cant": "all key sets", "anchors": ["lazy_type_hint/data_type_tree/generic_type/dict_data_type_tree.py:_parse_typed_dict", "lazy_type_hint/data_type_tree/generic_type/dict_data_type_tree.py:_build_typed_dict"]}
{"id": "C25", "title": "class vs functional syntax", "statement": "Class syntax is used exactly when all keys can be written as attribute names; with functional syntax the quoted key, read as a Python string literal, is the key.", "quantifier": "all string keys", "why_tests_cant": "all strings", "anchors": ["lazy_type_hint/data_type_tree/generic_type/dict_data_type_tree.py:is_functional_syntax", "lazy_type_hint/data_type_tree/generic_type/dict_data_type_tree.py:_build_typed_dict"]}
{"id": "C26", "title": "min_height controls aliases monotonically", "statement": "Raising `min_height_to_define_type_alias` never makes the tool declare a node it did not declare before, and TypedDicts, functions and the root are always declared.", "quantifier": "all trees, all thresholds", "why_tests_cant": "all trees", "anchors": ["lazy_type_hint/data_type_tree/data_type_tree.py:permission_to_be_created_as_type_alias", "lazy_type_hint/data_type_tree/generic_type/dict_data_type_tree.py:permission_to_be_created_as_type_alias"]}
{"id": "C27", "title": "imports are complete", "statement": "Every typing construct a generated declaration uses has been recorded as an import by the time the import block is printed, and every recorded keyword is known to the import table.", "quantifier": "all values and strategies", "why_tests_cant": "all combinations of constructs", "anchors": ["lazy_type_hint/utils/import_manager.py:ImportManager", "lazy_type_hint/data_type_tree/data_type_tree.py:get_strs_all_nodes_unformatted"]}
{"id": "C28", "title": "import block is canonical", "statement": "The import block lists every recorded symbol exactly once, packages sorted, symbols sorted, and does not depend on the order (or multiplicity) in which imports were recorded.", "quantifier": "all sequences of add() calls, all set iteration orders", "why_tests_cant": "all orders", "anchors": ["lazy_type_hint/utils/import_manager.py:format", "lazy_type_hint/utils/import_manager.py:_format_single_package"]}
{"id": "C29", "title": "OrderedSet", "statement": "After any sequence of add() calls the contents are the distinct elements in order of first insertion.", "quantifier": "all sequences of operations", "why_tests_cant": "all histories", "anchors": ["lazy_type_hint/utils/ordered_set.py"]}
{"id": "C30", "title": "rename rewrites exactly one prefix", "statement": "`rename(new)` gives the node the name new and, to each descendant, the name obtained by replacing the node's old name as a prefix by new, once.", "quantifier": "all trees, all names", "why_tests_cant": "trees share nodes between siblings", "anchors": ["lazy_type_hint/data_type_tree/data_type_tree.py:rename", "lazy_type_hint/data_type_tree/data_type_tree.py:_rename"]}
{"id": "C31", "title": "to_string honours include_imports", "statement": "What to_string/to_file produce depends only on their arguments, not on which calls were made before on the same tree.", "quantifier": "all histories of to_string/to_file/str calls", "why_tests_cant": "all histories", "anchors": ["lazy_type_hint/data_type_tree/data_type_tree.py:get_strs_all_nodes_unformatted", "lazy_type_hint/utils/utils.py:cache_returned_value_per_instance", "lazy_type_hint/generators/lazy_type_hint.py:Tree.to_file"]}
{"id": "C32", "title": "docstrings keep the words", "statement": "A formatted docstring contains exactly the words of the input, in order, plus at most one final period.", "quantifier": "all strings, widths, indentations", "why_tests_cant": "all strings", "anchors": ["lazy_type_hint/utils/docstring_formatter.py"]}
{"id": "C33", "title": "docstrings respect the width", "statement": "Every line of a wrapped docstring fits into max_line_length unless it is a single word.", "quantifier": "all strings, widths", "why_tests_cant": "all strings", "anchors": ["lazy_type_hint/utils/docstring_formatter.py:_split_string"]}
{"id": "C34", "title": "input data is left untouched", "statement": "Building hints does not change the data: afterwards the caller sees the same value as before.", "quantifier": "all data incl. iterators", "why_tests_cant": "all data", "anchors": ["lazy_type_hint/data_type_tree/generic_type/iterator_data_type_tree.py", "lazy_type_hint/data_type_tree/generic_type/set_and_sequence_operations.py:instantiate_children"]}
{"id": "C35", "title": "callable hints", "statement": "A lambda with k parameters is hinted as Callable with k Any arguments; another inspectable function is hinted with its own signature, with a return annotation added exactly when missing.", "quantifier": "all functions", "why_tests_cant": "all signatures", "anchors": ["lazy_type_hint/data_type_tree/simple_data_type_tree/function_data_type_tree.py"]}
{"id": "C36", "title": "YAML rewriting keeps the document", "statement": "The text built from a YAML file with comments-as-keys consists of the original lines, in order, unchanged except for the list dash that moves to the inserted key, plus inserted documentation entries directly above their key.", "quantifier": "all texts and comment positions", "why_tests_cant": "all texts", "anchors": ["lazy_type_hint/file_modifiers/yaml_file_modifier.py:_create_temporary_string_with_comments_as_keys"]}
{"id": "C37", "title": "files without recognised comments are unchanged", "statement": "If no comment is attached to a key (or tabs and spaces are mixed) the rewritten text is the original text.", "quantifier": "all texts", "why_tests_cant": "all texts", "anchors": ["lazy_type_hint/file_modifiers/yaml_file_modifier.py:_extract_comments", "lazy_type_hint/file_modifiers/yaml_file_modifier.py:_detect_indentation"]}
{"id": "C38", "title": "comment positions", "statement": "above and below cannot be combined; only .yaml/.yml files are read.", "quantifier": "all position sequences, all paths", "why_tests_cant": "all inputs", "anchors": ["lazy_type_hint/file_modifiers/yaml_file_modifier.py:__init__"]}
{"id": "C39", "title": "quote-aware search", "statement": "The search for `#` or `:` returns the first occurrence that is outside quotes, None if there is none.", "quantifier": "all lines", "why_tests_cant": "all lines", "anchors": ["lazy_type_hint/file_modifiers/yaml_file_modifier.py:_find_first_occurrence_that_is_not_between"]}
{"id": "C40", "title": "block comments belong to the adjacent key", "statement": "A comment attached as 'above' (below) to a key consists of the `#` lines contiguous with the key directly above (below) it.", "quantifier": "all files", "why_tests_cant": "all files, in particular the first and last line", "anchors": ["lazy_type_hint/file_modifiers/yaml_file_modifier.py:_extract_single_block_comment"]}
{"id": "C41", "title": "from_yaml_file falls back", "statement": "from_yaml_file yields hints whenever the loader can read the original file, whatever goes wrong while processing comments, and the failure of the comment path is never visible.", "quantifier": "all failures of the comment path", "why_tests_cant": "all exceptions", "anchors": ["lazy_type_hint/generators/lazy_type_hint_abc.py:from_yaml_file"]}
{"id": "C42", "title": "concurrent from_yaml_file calls do not interfere", "statement": "Two concurrent from_yaml_file calls each produce hints for their own file.", "quantifier": "all schedules of two callers", "why_tests_cant": "all interleavings", "anchors": ["lazy_type_hint/file_modifiers/yaml_file_modifier.py:create_temporary_file_with_comments_as_keys", "lazy_type_hint/generators/lazy_type_hint_abc.py:from_yaml_file"]}
{"id": "C43", "title": "comment text", "statement": "The docstring extracted from a block comment is empty or ends with a period, and keeps the words of the comment lines.", "quantifier": "all comment blocks", "why_tests_cant": "all texts", "anchors": ["lazy_type_hint/file_modifiers/yaml_file_modifier.py:_join_multi_line_comments"]}
{"id": "C44", "title": "assignment editing", "statement": "After replace_assignement(label, v), search_assignment(label) returns v (stripped, unquoted), and every other line is unchanged; it refuses when the label is assigned zero or several times.", "quantifier": "all files, labels and values", "why_tests_cant": "all texts", "anchors": ["lazy_type_hint/file_modifiers/py_file_modifier.py:search_assignment", "lazy_type_hint/file_modifiers/py_file_modifier.py:replace_assignement"]}
{"id": "C45", "title": "line insertion is a frame", "statement": "add_line/add_imports insert exactly the given lines at the given place and leave all other lines and their order alone.", "quantifier": "all files", "why_tests_cant": "all texts", "anchors": ["lazy_type_hint/file_modifiers/py_file_modifier.py:add_line", "lazy_type_hint/file_modifiers/py_file_modifier.py:add_imports"]}
{"id": "C46", "title": "private methods are removed and nothing else", "statement": "remove_all_private_methods deletes the private methods and keeps every line that does not belong to one.", "quantifier": "all files", "why_tests_cant": "all layouts", "anchors": ["lazy_type_hint/file_modifiers/py_file_modifier.py:remove_all_private_methods"]}
{"id": "C47", "title": "live registry", "statement": "After any history of from_data calls with valid class names on one instance starting from a clean installation, the stub lists exactly the class names used, in order of first use, and each has one import line and one overload per method.", "quantifier": "all histories", "why_tests_cant": "all histories", "anchors": ["lazy_type_hint/generators/lazy_type_hint_live.py:_get_classes_added", "lazy_type_hint/generators/lazy_type_hint_live.py:_add_class_created_to_this_file_pyi", "lazy_type_hint/generators/lazy_type_hint_live.py:_add_new_class_to_loader_pyi"]}
{"id": "C48", "title": "live class files", "statement": "The file of a registered class always holds the text generated by the last successful from_data for that class.", "quantifier": "all histories", "why_tests_cant": "all histories", "anchors": ["lazy_type_hint/generators/lazy_type_hint_live.py:_create_custom_class_py", "lazy_type_hint/generators/lazy_type_hint_live.py:from_data"]}
{"id": "C49", "title": "validate mode", "statement": "In validate mode from_data on an existing class succeeds exactly when the new text equals the stored text up to docstrings; on failure nothing on disk changes.", "quantifier": "all texts, all histories", "why_tests_cant": "all texts", "anchors": ["lazy_type_hint/generators/lazy_type_hint_live.py:from_data", "lazy_type_hint/generators/lazy_type_hint_live.py:_remove_docstrings"]}
{"id": "C50", "title": "reset", "statement": "After reset() nothing generated remains and the tool works as if freshly installed.", "quantifier": "all histories, incl. instances created before the reset", "why_tests_cant": "all histories", "anchors": ["lazy_type_hint/generators/lazy_type_hint_live.py:reset"]}
{"id": "C51", "title": "several live instances", "statement": "Class names registered through one LazyTypeHintLive instance are not lost when another instance registers a class.", "quantifier": "all interleavings of operations of two instances", "why_tests_cant": "all schedules", "anchors": ["lazy_type_hint/generators/lazy_type_hint_live.py:__init__", "lazy_type_hint/generators/lazy_type_hint_live.py:_update_this_file_pyi"]}
{"id": "C52", "title": "crash safety of registration", "statement": "If the process dies between two file writes of from_data, calling from_data again for the same class repairs the stub.", "quantifier": "all crash points", "why_tests_cant": "all crash points", "anchors": ["lazy_type_hint/generators/lazy_type_hint_live.py:_add_new_class_to_loader_pyi", "lazy_type_hint/generators/lazy_type_hint_live.py:from_data"]}
{"id": "C53", "title": "data frame columns", "statement": "For a data frame whose columns are all str/bool/int (or tuples starting with one) the generated class has exactly one overload per distinct first-level column, in order; otherwise the hint is pd.DataFrame.", "quantifier": "all column sets", "why_tests_cant": "all column sets", "anchors": ["lazy_type_hint/data_type_tree/generic_type/pandas_data_frame_data_type_tree.py"]}
{"id": "C54", "title": "data frame termination", "statement": "Building the tree of a data frame terminates.", "quantifier": "all column indexes, including repeated labels", "why_tests_cant": "all column indexes", "anchors": ["lazy_type_hint/data_type_tree/generic_type/pandas_data_frame_data_type_tree.py:_instantiate_children"]}
{"id": "C55", "title": "file objects", "statement": "An open file (an io.IOBase instance) is hinted as a text stream by from_data.", "quantifier": "all file objects", "why_tests_cant": "every class of file object, and the parser order is implicit in import order", "anchors": ["lazy_type_hint/data_type_tree/data_type_tree.py:get_subclass", "lazy_type_hint/data_type_tree/simple_data_type_tree/io_data_type_tree.py"]}
{"id": "C56", "title": "every comment gets its entry", "statement": "For every plain key line the comments found at the chosen positions, in the order of the positions, become one documentation entry directly above the line; without a comment the line stays as it is.", "quantifier": "all files, positions and lines", "why_tests_cant": "all files", "anchors": ["lazy_type_hint/file_modifiers/yaml_file_modifier.py:_extract_comments", "lazy_type_hint/file_modifiers/yaml_file_modifier.py:_merge_comments", "lazy_type_hint/file_modifiers/yaml_file_modifier.py:_create_temporary_string_with_comments_as_keys"]}
{"id": "C57", "title": "side comment text", "statement": "The side comment of a line is the text after the first `#` outside quotes that is preceded by a space, trimmed and ending with a period.", "quantifier": "all lines", "why_tests_cant": "all lines", "anchors": ["lazy_type_hint/file_modifiers/yaml_file_modifier.py:_extract_side_comment"]}
{"id": "C58", "title": "the list dash keeps its column", "statement": "When the documentation entry takes over the dash of a list item, the dash stays in its column.", "quantifier": "all files", "why_tests_cant": "all files", "anchors": ["lazy_type_hint/file_modifiers/yaml_file_modifier.py:_create_temporary_string_with_comments_as_keys"]}
{"id": "C59", "title": "overloads are decorated once", "statement": "In the stub of LazyTypeHintLive every overload carries exactly one @overload line.", "quantifier": "all histories", "why_tests_cant": "all histories", "anchors": ["lazy_type_hint/generators/lazy_type_hint_live.py:_add_new_class_to_loader_pyi", "lazy_type_hint/file_modifiers/py_file_modifier.py:search_decorator"]}
{"id": "C60", "title": "validation sees the registered classes", "statement": "A call of a validating instance never replaces the stored text of a registered class by one that does not compare equal.", "quantifier": "all histories of several instances", "why_tests_cant": "all histories", "anchors": ["lazy_type_hint/generators/lazy_type_hint_live.py:from_data", "lazy_type_hint/generators/lazy_type_hint_live.py:_get_classes_added"]}
{"id": "C61", "title": "data frames without column hints", "statement": "With the pandas strategy \"Do not type hint columns\" a data frame is hinted as pd.DataFrame.", "quantifier": "all data frames", "why_tests_cant": "all data frames", "anchors": ["README.md:285", "lazy_type_hint/data_type_tree/generic_type/pandas_data_frame_data_type_tree.py:_get_str_top_node"]}
{"id": "C62", "title": "nested data frames are declared before use", "statement": "The class or alias of every column group that is declared separately precedes the class that mentions it.", "quantifier": "all column indexes", "why_tests_cant": "all column indexes", "anchors": ["lazy_type_hint/data_type_tree/generic_type/pandas_data_frame_data_type_tree.py:_get_str_top_node", "lazy_type_hint/data_type_tree/data_type_tree.py:_get_strs_all_nodes_unformatted"]}
{"id": "C63", "title": "nested data frames have different names", "statement": "Different column groups of a data frame get different class names.", "quantifier": "all column indexes", "why_tests_cant": "all column indexes", "anchors": ["lazy_type_hint/data_type_tree/generic_type/pandas_data_frame_data_type_tree.py:_create_child"]}
{"id": "C64", "title": "imports of data frame classes", "statement": "The text of a data frame can always be generated and its import block provides every name that the class template uses.", "quantifier": "all data frames and strategies", "why_tests_cant": "all data frames", "anchors": ["lazy_type_hint/data_type_tree/generic_type/pandas_data_frame_data_type_tree.py:_get_str_top_node", "lazy_type_hint/utils/import_manager.py:format"]}
{"id": "C65", "title": "column literals", "statement": "The literal written for a column evaluates to the label of the column, and different labels have different literals.", "quantifier": "all str, bool and int labels", "why_tests_cant": "all labels, including quotes and control characters", "anchors": ["lazy_type_hint/data_type_tree/generic_type/pandas_data_frame_data_type_tree.py:_get_str_top_node"]}
{"id": "C66", "title": "layout of the text", "statement": "The text consists of the import block and the declarations in order, with two empty lines after the first part and before every class and one empty line before any other declaration; a single part ends with a newline.", "quantifier": "all trees, strategies and both values of include_imports", "why_tests_cant": "all trees", "anchors": ["lazy_type_hint/data_type_tree/data_type_tree.py:_format_node_strings", "lazy_type_hint/data_type_tree/data_type_tree.py:get_str_all_nodes"]}
{"id": "C67", "title": "to_file writes the text", "statement": "to_file writes exactly the text that to_string() gives for the tree, makes the missing parent directories when it may and changes nothing else; when it raises nothing has changed.", "quantifier": "all trees, file systems, paths and histories of calls on the tree", "why_tests_cant": "all file systems and call histories", "anchors": ["lazy_type_hint/generators/lazy_type_hint.py:Tree.to_file"]}
{"id": "C68", "title": "rename_declaration", "statement": "Given a declaration of a name, rename_declaration returns the same declaration with the new name, and the old name.", "quantifier": "all declarations", "why_tests_cant": "all declarations", "anchors": ["lazy_type_hint/data_type_tree/data_type_tree.py:rename_declaration"]}
{"id": "C69", "title": "inheriting parent class", "statement": "With make_parent_class_inherit_from_original_type the root declaration is renamed to _Name and followed by a class Name deriving from _Name.", "quantifier": "all trees", "why_tests_cant": "all trees", "anchors": ["lazy_type_hint/data_type_tree/data_type_tree.py:get_strs_all_nodes_unformatted"]}
{"id": "C70", "title": "from_yaml_file of the live class", "statement": "from_yaml_file of LazyTypeHintLive acts on the stub and the class files like from_data with the loaded value, and falls back to the value of the unchanged file when the copy with comments cannot be loaded or hinted.", "quantifier": "all loaders, files, states and histories", "why_tests_cant": "all histories", "anchors": ["lazy_type_hint/generators/lazy_type_hint_live.py:from_yaml_file", "lazy_type_hint/generators/lazy_type_hint_abc.py:from_yaml_file"]}
{"id": "C71", "title": "from_yaml_file returns the loaded value", "statement": "from_yaml_file of LazyTypeHintLive returns what the loader gives for the file.", "quantifier": "all loaders and files", "why_tests_cant": "all loaders and files", "anchors": ["lazy_type_hint/generators/lazy_type_hint_live.py:from_yaml_file"]}
{"id": "C72", "title": "names under keys", "statement": "A key of a mapping adds its camel case to the name of the mapping (the name of its type if it is no text); keys with equal nodes share one node, named after its type and numbered.", "quantifier": "all mappings", "why_tests_cant": "all texts and mappings", "anchors": ["lazy_type_hint/data_type_tree/generic_type/mapping_data_type_tree.py:_to_camel_case", "lazy_type_hint/data_type_tree/generic_type/mapping_data_type_tree.py:_assign_same_data_type_tree_to_keys_with_same_value_type"]}
{"id": "C73", "title": "different nodes under keys have different names", "statement": "Keys of a mapping with different nodes get different names.", "quantifier": "all mappings", "why_tests_cant": "all mappings", "anchors": ["lazy_type_hint/data_type_tree/generic_type/mapping_data_type_tree.py:_instantiate_children"]}
{"id": "C74", "title": "the strategies decide the form of the hints", "statement": "The declaration of a value has the form that its kind and the strategies demand: List or Sequence, Tuple with the types of the elements or with an ellipsis, Set, FrozenSet, Iterator, pd.Series, MappingProxyType, TypedDict, Dict or Mapping, Type, Callable or Protocol, ModuleType, TextIO, NDArray, or the class itself.", "quantifier": "all values and strategies", "why_tests_cant": "all values and combinations of strategies", "anchors": ["lazy_type_hint/data_type_tree/generic_type/mapping_data_type_tree.py:_parse_dict", "lazy_type_hint/data_type_tree/generic_type/list_data_type_tree.py:_get_str_top_node", "lazy_type_hint/data_type_tree/generic_type/tuple_data_type_tree.py:_get_str_top_node", "lazy_type_hint/data_type_tree/generic_type/set_data_type_tree.py:_get_str_top_node"]}
{"id": "C75", "title": "scan_string reports what mypy says", "statement": "Mypy.scan_string succeeds exactly when mypy reported no error that mentions none of the keywords to ignore, and lists these errors in order.", "quantifier": "all outputs of mypy and all keywords", "why_tests_cant": "all outputs of mypy", "anchors": ["lazy_type_hint/utils/mypy.py:scan_string"]}
{"id": "C76", "title": "scan_file reports the errors of the file", "statement": "Mypy.scan_file runs mypy on the file and lists, in order, the error lines of that file that mention none of the keywords to ignore.", "quantifier": "all platforms, outputs, files and keywords", "why_tests_cant": "all outputs; the command is only run on one platform", "anchors": ["lazy_type_hint/utils/mypy.py:scan_file"]}
{"id": "C77", "title": "the printed scan result", "statement": "A failed result prints every error and, for a file, its lines with the numbers that mypy uses.", "quantifier": "all results and files", "why_tests_cant": "all results and files", "anchors": ["lazy_type_hint/utils/mypy.py:__str__", "lazy_type_hint/utils/mypy.py:file_content_with_lineno"]}
{"id": "C78", "title": "compare_ast", "statement": "compare_ast decides whether two syntax trees agree up to positions, contexts, None at the end of lists and what the arguments say to ignore.", "quantifier": "all syntax trees and both arguments", "why_tests_cant": "all syntax trees", "anchors": ["lazy_type_hint/utils/utils.py:compare_ast"]}
{"id": "C79", "title": "compare_ast leaves its arguments alone", "statement": "compare_ast changes neither tree.", "quantifier": "all syntax trees and both arguments", "why_tests_cant": "all syntax trees", "anchors": ["lazy_type_hint/utils/utils.py:compare_ast"]}
{"id": "C80", "title": "print_all_children", "statement": "print_all_children prints one line per node, parents before children, indented by the distance from the root; with recursive=False only the node and its children.", "quantifier": "all data and strategies", "why_tests_cant": "all data", "anchors": ["lazy_type_hint/data_type_tree/data_type_tree.py:print_all_children", "lazy_type_hint/data_type_tree/data_type_tree.py:__repr__"]}
{"id": "C81", "title": "exit status of check_code", "statement": "check_code.py runs every selected tool, in order, and exits with 0 exactly when each of them returned 0 without the word ERROR in its output or printed one of its pass_if_output_contains texts.", "quantifier": "all configurations, options and machines", "why_tests_cant": "all outputs and return codes of the tools", "anchors": ["check_code.py:main", "check_code.py:run_tool"]}
{"id": "C82", "title": "selection of tools", "statement": "--single-tool runs exactly the tools of that name, --only-run-tools those of the names given, 'all linters' everything but pytest; if nothing is selected nothing is run and ValueError is raised.", "quantifier": "all configurations and options", "why_tests_cant": "all configurations", "anchors": ["check_code.py:filter_tools_to_be_used", "check_code.py:tools"]}
{"id": "C83", "title": "report about a tool", "statement": "A failed tool is reported with its command, suggestions and the lines of its output that contain one of the texts to include (if any are given) and none of the texts to ignore.", "quantifier": "all entries and outputs", "why_tests_cant": "all outputs", "anchors": ["check_code.py:print_output", "check_code.py:run_tool"]}
{"id": "C84", "title": "auto linting", "statement": "--auto-linting enable writes a pre-push hook that runs the linters unless there is one, disable removes the hook of the script, any other command is refused and changes nothing.", "quantifier": "all commands and hooks", "why_tests_cant": "all commands and states of the hooks", "anchors": ["check_code.py:from_argparse", "check_code.py:_setup_auto_run", "check_code.py:_disable_auto_run"]}
{"id": "C85", "title": "parallel runs", "statement": "Without --disable-parallel several tools run in parallel.", "quantifier": "all options", "why_tests_cant": "the tests do not run the script", "anchors": ["check_code.py:parser_args", "check_code.py:main"]}
{"id": "C86", "title": "the daemon of mypy", "statement": "With dmypy enabled, mypy is checked by its daemon (started if it does not run) with the arguments of the entry.", "quantifier": "all entries and machines", "why_tests_cant": "all states of the daemon", "anchors": ["check_code.py:setup_dmypy_server", "check_code.py:run_tool_from_dct"]}
{"id": "C87", "title": "configuration of check_code", "statement": "The configuration is refused exactly if it is not a list or an entry has no tool; otherwise the path '.' becomes the directory of the script and nothing else changes.", "quantifier": "all configurations", "why_tests_cant": "all configurations", "anchors": ["check_code.py:read_and_parse_args"]}
{"id": "C88", "title": "when a text is generated", "statement": "Generating the text of a tree fails exactly if the iteration over the tree meets a function with a signature without an arrow whose source is needed and cannot be read; the argument include_imports makes no difference.", "quantifier": "all data, strategies and both values of include_imports", "why_tests_cant": "all data; functions without a source are not among the tests", "anchors": ["lazy_type_hint/data_type_tree/data_type_tree.py:get_strs_all_nodes_unformatted", "lazy_type_hint/data_type_tree/simple_data_type_tree/function_data_type_tree.py:_get_str_top_node", "lazy_type_hint/utils/import_manager.py:format"]}
{"id": "C89", "title": "bodies of methods are removed", "statement": "After remove_all_method_bodies every function and asynchronous function of the module has the body ... and everything else of the syntax tree is as before; the loop ends although it changes the tree it walks through.", "quantifier": "all syntax trees, also with shared nodes", "why_tests_cant": "all syntax trees; the tests use one file", "anchors": ["lazy_type_hint/file_modifiers/py_file_modifier.py:remove_all_method_bodies"]}
{"id": "C90", "title": "text of a block comment", "statement": "The lines of a comment block become one text: words of following lines are joined by a space, a line that begins with a capital letter (or follows an empty line) ends the sentence before it, empty lines separate paragraphs, triple quotes are removed, and the text begins with a capital letter and ends with a period.", "quantifier": "all blocks of lines", "why_tests_cant": "all blocks", "anchors": ["lazy_type_hint/file_modifiers/yaml_file_modifier.py:_join_multi_line_comments", "lazy_type_hint/file_modifiers/yaml_file_modifier.py:_extract_single_block_comment"]}
{"id": "C91", "title": "the copy with comments can be made", "statement": "Making the text of the temporary YAML file raises no exception.", "quantifier": "all files and positions", "why_tests_cant": "all files; malformed lists are not among the tests", "anchors": ["lazy_type_hint/file_modifiers/yaml_file_modifier.py:_create_temporary_string_with_comments_as_keys", "lazy_type_hint/file_modifiers/yaml_file_modifier.py:spacing", "lazy_type_hint/file_modifiers/yaml_file_modifier.py:_extract_key_from_line"]}
{"id": "C92", "title": "return type of functions", "statement": "A function without a return annotation is hinted to return Any if it has a return statement with a value and None otherwise.", "quantifier": "all functions, sources and parsers", "why_tests_cant": "all functions; sources that cannot be parsed after removing the indentation are not among the tests", "anchors": ["lazy_type_hint/data_type_tree/simple_data_type_tree/function_data_type_tree.py:_has_return", "lazy_type_hint/data_type_tree/simple_data_type_tree/function_data_type_tree.py:_get_protocol_str"]}
{"id": "C93", "title": "finding methods", "statement": "search_method gives the lines that define a method of the given name (or the first decorator above each), search_decorator the decorators of that name above them, and get_signature the text from the first decorator to the end of the signature of the last one.", "quantifier": "all files and names", "why_tests_cant": "all files", "anchors": ["lazy_type_hint/file_modifiers/py_file_modifier.py:search_method", "lazy_type_hint/file_modifiers/py_file_modifier.py:search_decorator", "lazy_type_hint/file_modifiers/py_file_modifier.py:get_signature", "lazy_type_hint/file_modifiers/py_file_modifier.py:it_is_string"]}
{"id": "C94", "title": "histories of live objects", "statement": "In every history of any number of LazyTypeHintLive objects, calls, resets and crashes between two writes, results, class files and stub are those of a machine that only knows four lists of class names per object and stub and the last text of each class; the machine is deterministic.", "quantifier": "all histories, objects, data and crash points", "why_tests_cant": "all interleavings and crash points", "anchors": ["lazy_type_hint/generators/lazy_type_hint_live.py:from_data", "lazy_type_hint/generators/lazy_type_hint_live.py:from_yaml_file", "lazy_type_hint/generators/lazy_type_hint_live.py:reset", "lazy_type_hint/generators/lazy_type_hint_live.py:_add_new_class_to_loader_pyi"]}
{"id": "C95", "title": "removing the variables of a class", "statement": "remove_all_instance_variables removes the lines between the line of the class and the first decorator of __init__, except those that mention classes_created and the line after each of them; every other line stays.", "quantifier": "all files and class names", "why_tests_cant": "all files; the tests use one file", "anchors": ["lazy_type_hint/file_modifiers/py_file_modifier.py:remove_all_instance_variables", "lazy_type_hint/file_modifiers/py_file_modifier.py:search_line"]}
{"id": "C96", "title": "class files describe the data", "statement": "For tidy data whose names cannot clash (the conditions of C09) a live call succeeds and the class file it writes can be read in one way, declares every name once, uses only names that are declared before, built in or imported, and declares the class as a type of the data; after any history of objects, calls, resets and crashes every class file was written for data given for its class.", "quantifier": "all histories, objects, strategies and data that meets the conditions", "why_tests_cant": "all data and histories together", "anchors": ["lazy_type_hint/generators/lazy_type_hint_live.py:from_data", "lazy_type_hint/lazy_type_hint.py:from_data", "lazy_type_hint/data_type_tree/data_type_tree.py:get_strs_all_nodes_unformatted"]}
{"id": "C97", "title": "comments only add docstrings", "statement": "Data with documentation entries (the keys that from_yaml_file adds for comments) is treated as the data without them: the construction ends alike, the same keywords are imported, and the declarations are the same but for the docstrings of the keys; so they accept the data without the entries.", "quantifier": "all strategies, data, set orders and documentation entries that are texts beside the key they document", "why_tests_cant": "all data and comments", "anchors": ["lazy_type_hint/data_type_tree/generic_type/mapping_data_type_tree.py:_instantiate_children", "lazy_type_hint/data_type_tree/generic_type/dict_data_type_tree.py:_get_str_top_node", "lazy_type_hint/file_modifiers/yaml_file_modifier.py:_create_temporary_string_with_comments_as_keys"]}
{"id": "C98", "title": "objects of subclasses", "statement": "An object of a subclass of LazyTypeHintLive can be made whenever one of LazyTypeHintLive can, and starts with the same lines.", "quantifier": "all subclasses, files and histories", "why_tests_cant": "all states of the disk; the tests have no subclasses", "anchors": ["lazy_type_hint/generators/lazy_type_hint_live.py:__init__", "lazy_type_hint/generators/lazy_type_hint_live.py:_generate_this_file_pyi"]}
{"id": "C99", "title": "comments become documentation of the data", "statement": "For every YAML file with comments, the temporary copy that is loaded means the data of the file with the comments of each key as a documentation entry directly before it, and nothing else is changed; the hints of from_yaml_file then describe the data of the file.", "quantifier": "all files, comment positions, loaders and directories", "why_tests_cant": "all texts of files; the tests compare a few copies as texts and never say what they mean as YAML", "anchors": ["lazy_type_hint/file_modifiers/yaml_file_modifier.py:create_temporary_file_with_comments_as_keys", "lazy_type_hint/file_modifiers/yaml_file_modifier.py:_create_temporary_string_with_comments_as_keys", "lazy_type_hint/generators/lazy_type_hint.py:from_yaml_file"]}
{"id": "C100", "title": "the documentation of a key is its docstring", "statement": "A docstring under a key of a TypedDict is the documentation entry of that key in a dict of the data, and the documentation entry of every visible key appears as the docstring under that key in the output.", "quantifier": "all values, strategies and set orders", "why_tests_cant": "all positions of documentation entries in nested data; nodes are shared, merged and renamed after the entries were read", "anchors": ["lazy_type_hint/data_type_tree/generic_type/dict_data_type_tree.py:_build_typed_dict", "lazy_type_hint/data_type_tree/generic_type/dict_data_type_tree.py:DictMetadata.update", "lazy_type_hint/data_type_tree/generic_type/mapping_data_type_tree.py:_instantiate_children"]}
{"id": "C101", "title": "the comments of a YAML file are the docstrings of its hints", "statement": "Every docstring in the hints that from_yaml_file generates with comments is the comment of a line with that key in the file, and the comment of every key appears as the docstring of that key.", "quantifier": "all files, comment positions, loaders, strategies and set orders", "why_tests_cant": "all files and nestings; a comment passes through the copy of the file, the YAML loader, the tree with its shared nodes, and the printer", "anchors": ["lazy_type_hint/file_modifiers/yaml_file_modifier.py:create_temporary_file_with_comments_as_keys", "lazy_type_hint/generators/lazy_type_hint.py:from_yaml_file", "lazy_type_hint/data_type_tree/generic_type/dict_data_type_tree.py:_build_typed_dict"]}
{"id": "C102", "title": "live hints of a YAML file describe its data", "statement": "A call of LazyTypeHintLive.from_yaml_file, after any history of calls of both methods by any objects, either raises and changes nothing or returns the data of the file, up to documentation entries for the comments, and the class file then declares the class as a type that the data of the file has.  It returns if the object finds its class files and does not validate or does not know the class.", "quantifier": "all histories, strategies, set orders and files; with comments: the part of YAML of C99; data that meets the conditions of C09", "why_tests_cant": "all histories and files; the data passes through the copy of the file, the loader, the tree, the printer and the live object's own stub", "anchors": ["lazy_type_hint/generators/lazy_type_hint_live.py:from_yaml_file", "lazy_type_hint/generators/lazy_type_hint_live.py:from_data", "lazy_type_hint/file_modifiers/yaml_file_modifier.py:create_temporary_file_with_comments_as_keys"]}
{"id": "C103", "title": "docstrings are string literals", "statement": "What format_string_as_docstring returns is, after the indentation, one Python string literal with nothing after it, whose value consists of the words of the text and a final period.", "quantifier": "all texts, line lengths and indentations", "why_tests_cant": "all texts, including quotes and backslashes at every place and every way of filling the lines", "anchors": ["lazy_type_hint/utils/docstring_formatter.py:format_string_as_docstring", "lazy_type_hint/file_modifiers/yaml_file_modifier.py:_extract_single_block_comment"]}
{"id": "C104", "title": "the hints of a dict accept only what resembles it", "statement": "With the TypedDict strategy, what the generated class of a dict with text keys accepts is a dict with exactly the same keys, and at every key, through all levels of such dicts and sequences, a value as the one of the data: a dict with the same keys again, an instance of the class of the value (anything for None), or for a list, set or series that is not empty one (for a list with Sequence also a tuple) whose elements are as elements of it, or dicts with only keys of the dicts in it and with all keys that those have in common.", "quantifier": "all describable dicts, strategies, set orders and values that the class accepts", "why_tests_cant": "all values that may be checked against the class, and all sharing and renaming of declarations", "anchors": ["lazy_type_hint/data_type_tree/generic_type/dict_data_type_tree.py:_build_typed_dict", "lazy_type_hint/data_type_tree/generic_type/mapping_data_type_tree.py:_instantiate_children", "lazy_type_hint/data_type_tree/data_type_tree.py:__hash__"]}
