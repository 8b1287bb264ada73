# Design of the formal model of lazy_type_hint (mflova/dynamic_pyi_generator)

Prover: Rocq/Coq 8.16.1, standard library only.  All files are in `rocq/theories`
(logical prefix `Verif`).  The model follows `/repo/lazy_type_hint` function by function;
every definition cites the file and lines it models and says what it simplifies.

## 1. Layers

| file | models |
|---|---|
| `PyStr.v` | Python `str` operations used by the tool: classification of characters (Latin-1 range), `replace`, `split`, `strip`, `splitlines`, `join`, `in`, `capitalize`/`upper`, decimal printing, string order |
| `Utils.v` | `OrderedSet`, `is_string_python_keyword_compatible`, `cache_returned_value_per_instance` |
| `Strategies.v` | `ParsingStrategies.__post_init__` |
| `Docstring.v` | `format_string_as_docstring`, `_split_string` |
| `Imports.v` | `ImportManager` |
| `Dispatch.v` | `DataTypeTree.get_subclass`, `_check_tree_is_correct_one` |
| `Values.v` | Python values given to `from_data`, runtime types |
| `Tree.v` | tree nodes, equality/hash keys, `rename`, sharing of nodes |
| `Build.v` | construction of every node class, merging of typed dicts, element limit |
| `Emit.v` | generation of the declarations (`get_str_top_node`, `get_strs_all_nodes`, `to_string`) |
| `Exc.v` | Python exceptions as values, negative indexes, list edits (used by the file modifiers) |
| `Yaml.v` | `YamlFileModifier` (all methods but the file access) |
| `YamlLoad.v` | `LazyTypeHintABC.from_yaml_file`, its temporary file and two concurrent callers |
| `YamlMany.v` | any number of concurrent callers of it |
| `PyFile.v` | `PyFileModifier` (all methods but the next) |
| `Source.v` | `FunctionDataTypeTree._has_return`: `textwrap.dedent`, the search for `Return` nodes in a heap; `inspect.getsource` and the parser are parameters |
| `Bodies.v` | `PyFileModifier.remove_all_method_bodies`: `ast.walk` over a heap of nodes that is changed meanwhile; parser and printer are parameters |
| `Live.v` | `LazyTypeHintLive`: objects, stub file, class files, validation, reset, crashes (any generator, any well-formed stub template) |
| `Frame.v` | `PandasDataFrameDataTypeTree` for a data frame given to `from_data`: column labels, plain and multi indexes, `DataFrame.__getitem__` with one label |
| `LiveYaml.v` | `LazyTypeHintLive.from_yaml_file` over the state of `Live.v`, any loader |
| `LiveSub.v` | creation of objects of subclasses of `LazyTypeHintLive` |
| `Output.v` | `Tree.to_file`, `rename_declaration`, `make_parent_class_inherit_from_original_type` |
| `Mypy.v` | `Mypy.scan_string`, `Mypy.scan_file` (what they make of the output of mypy), `Result.__str__` |
| `Ast.v` | `compare_ast`, including the change of its second argument |
| `Show.v` | `DataTypeTree.__repr__`, `print_all_children` |
| `CheckCode.v` | the script `check_code.py`: options, configuration, selection, runs of the tools, reports, git hook, exit status; the shell is a parameter |
| `SpecTypes.v`, `Elab.v` | syntax trees of declarations and how node trees elaborate to them |
| `Spec*.v` | specifications written without reference to the model's helpers |
| `Props*.v` | the property theorems (`Theorem … . Proof. exact …. Qed.`) with `Print Assumptions` |

## 2. Modelling decisions

* **Strings** are Coq `string`s; each `ascii` stands for the Unicode code point 0-255.  Character
  classification (`isalpha`, `isnumeric`, `isspace`, ...) is exact on that range.  Code points above
  255 are outside the model.
* **Exceptions** are values (`Err e`).  Recursion on fuel returns a distinct `OutOfFuel`, which a theorem excludes.
* **Runtime types** are records (id, name); `id(type)` is the id.
* **Hashes**: `hash(x) == hash(y)` is modelled as structural equality of the hashed tuples / frozensets
  (i.e. no accidental 64-bit collisions).
* **Set iteration order** is an arbitrary permutation chosen by an oracle; properties quantify over all oracles.
* **Sharing** of nodes between siblings (the same Python object stored under several keys) is
  represented by multiplicities, since `rename` on shared nodes acts more than once.
* **Iterators** are consumed by iteration.  `Build.v` builds merged TypedDicts from *exhausted* values (`exhaust`): the values were
  walked before when their own nodes were built.  This is exact for iterators with at most n+1 elements (n the element limit);
  from longer ones the code would read further elements.  Theorem C16 carries this condition (`iterators_upto`); C34 models
  the walk with the limit (`walked`).  Nothing but iterators changes: `DictMetadata` and `update` work on copies.
* **Acceptance** of a value by declarations (`SpecSound.v`) is an inductive relation for the typing constructs the tool
  writes, with the promotions bool < int < float.  Declarations are read back from the text: `SoundRead.v` proves that the
  text of a readable declaration determines it.  User-defined subclassing, `str` as `Sequence` and Protocols with
  docstrings are left out of the relation.
* **Data frames** are columns with labels and cells.  `Frame.get` is what pandas returns for one label: the column, the sub-frame of
  all columns with that label (also for a repeated label of a plain index), or the levels below a label of a multi index, where a
  single remaining column with empty labels stands for the column itself.  Unbounded recursion is `FOut` for every fuel.
* **Output files**: paths are lists of components below the working directory, without links and `..`; reading and writing
  rights are always given.  The replacement text of `re.sub` has no backslashes.
* **Processes**: a run of mypy is a function from the arguments of a process to its output.  A command given as one text without a shell
  is the name of the program on POSIX and is split at blanks on Windows.
* **Modules**: `SpecModules.v` lists what the modules named in import statements offer on Python 3.8.
* **Files** are lists of lines (or strings), the file system a finite map; a crash is a prefix of the list of writes.

## 3. Proof files

`*Facts.v`, `BuildInd.v`, `*Proofs.v`, `Provenance.v`, `DictInv.v`, `EmitTop.v`, `YamlLines.v`, `YamlComments.v`,
`YamlWords.v`, `YamlMore.v`, `YamlEntries.v`, `YamlLoadFacts.v`, `PyFilePrivate.v`,
`SoundPrint.v`, `SoundRead.v`, `SoundTree.v`, `SoundBuild.v`, `SoundHash.v`, `SoundEmit.v`, `SoundTop.v`, `SoundJson.v`,
`FrameFacts.v`, `FrameText.v`, `PandasFacts.v`, `CamelFacts.v`, `ShareFacts.v`, `UniqueFacts.v`, `ClearFacts.v`, `BegunFacts.v`, `SiblingFacts.v`, `ReachedFacts.v`, `DeclarationFacts.v`, `TextFacts.v`, `Origin.v` (what holds for every tree that `build` returns, up to names and dict contents, holds for every node), `DataMap.v` (the values that dict nodes keep do not influence the text), `LimitFacts.v`, `WalkFacts.v`, `OrderFacts.v`, `SourceFacts.v`,
`LiveText.v`, `LiveMethods.v`, `LiveBlocks.v`, `LiveHistory.v`, `LiveCounts.v` contain lemmas only; `Samples.v`, `SampleEmit.v`, `SampleSound.v`, `SampleUnique.v`, `SampleClear.v`
and `LiveSample.v` (the stub of the module itself as `ast.unparse` prints it, derived by hand) hold the concrete data of the examples.

## 4. Not modelled

Loading of YAML by the user's loader, `inspect.getsource`, mypy itself, parsing and printing by the `ast` module
(the initial stub text is taken as a datum), the branch of `check_code.py` with threads (shown to be unreachable), data frames inside other containers, locale/encoding of files, import machinery.

## 5. Plan per property

* C01-C03 (names): characterise `is_string_python_keyword_compatible` against an independent inductive
  definition of identifiers; induction over the construction for nested names (`PropsNames.v`: for all keys). Refutations for keywords / `²`.
* C04: decision procedure vs. declarative spec.
* C05: fuel excluded by a theorem: enough fuel exists for all values and the result is then stable; `SpecReached.v` says which
  values are looked at, and the classes of those among them that are named after their class decide about success.
* C06: abstract isinstance relation (arbitrary boolean function), lemma over the registered table.
* C07: invariant by induction over construction.
* C08, C09, C12, C13, C22: two-level spec: type AST + printer + `accepts` relation; soundness by induction on values;
  refutations (by `vm_compute`) for the fragments on which the code is wrong.
* C10, C11: hash-key algebra; equality ⇒ same type proved on the fragment where it holds and refuted elsewhere.
* C14: invariant of the numbering loop; for finished trees an invariant under renaming (a single renaming is injective on the names
  below the renamed node, `SpecSibling.v`).
* C15: theorem for data without dict merging, refutation with it.
* C16-C18, C20, C21, C23-C26: direct theorems on the corresponding functions with independent specs.
* C19: declarative merge relation. C20: SpecFloat computation, refutation; the exact value for fewer than 2^40 keys (one too small at exactly 29, 57 and 58 percent) and with it the exact merge condition (C19_exact).
* C27, C28: table coverage; permutation invariance. `PropsBuiltins.v`: the names that need no import are the classes of the library reference. `SpecSignature.v`: the hints of a signature as relations on texts, for the regular expressions of the import manager.
* C29, C30: induction on histories / trees. C31: state machine of the cache; refuted, with the exact history law.
* C32, C33: words/width specs on strings. `SpecDoc.v` describes the exact docstring (greedy filling of lines with words, final period, one-line form); `PropsDocAll.v` proves that every docstring has that form and that the form is unique.
* C34: model of iterators as consumable; refuted for iterators, proved for the rest.
* C35: signature model. C36-C43: line-list specs for YAML; two-process interleaving model for the temporary file. `PropsYamlCalls.v`: the answer of `from_yaml_file` in every case; `PropsDash.v`: list items with any number of spaces after the dash.
* C90: relational text of a comment block (`SpecComment.v`). C91: exact condition of failure. C92: parts of syntax trees (`SpecSource.v`). `SpecExact.v`: exact behaviour for C01, C26, C30, C80 without exclusions.
* C94: refinement of an abstract machine (`SpecMachine.v`); simulation step by step over `Shape`, determinism by case analysis. `PropsCrash.v`: C50 and C52 for all histories, `PropsDecor.v`: C47 and C59 for all histories, from invariants of the machine.
* `PropsPrinted.v`: the exact texts of text labels (C65), of the classes in printed trees (C80) and of the messages of auto linting (C84).
* C44-C46, C93: line-list specs for `PyFileModifier` (`SpecMethods.v`: indexes from both ends; `SpecPrivate.v`: the extent of a method, removal by indexes).  C89: trees shown by a heap (nodes may be shared); invariant of the queue, weight of the waiting trees.
* C47-C52, C59, C60: transition system with arbitrary histories, invariants by induction, crash = prefix of writes.
  The theorems hold for every template that `SpecLive.well_formed` accepts; `LiveSample.v` shows that the real one is accepted.
* C53, C54, C61-C65: column-index model; construction is proved to terminate without repeated labels in plain indexes and to give no tree with them. `PropsColumns.v` classifies all indexes: pd.DataFrame, a class (with the text of the class), or no tree.

* C66: inductive layout relation, which determines the text. C67: before/after relation on file systems; histories with the
  cache (what every history writes where). C68: `SpecDeclaration.Renames` says what is returned for every text. C69: declarations given by their parts; for TypedDicts also by their fields (`PropsInherit.v`), in both syntaxes. C104 is the converse of C09 for dicts, lists, sets and series: `resembles` (`PropsOnly.v`) says, without the model, what may be accepted; `PropsOnlyLive.v` carries it to the class files.
* C70, C71: histories with both methods, reduced to histories of `from_data`. C72, C73: relational camel case; analysis of the groups of equal nodes.
* C13 (and C08, C09 without a hypothesis about the declarations): a condition on the words that keys add (`SpecUnique.v`), an invariant of all names of the tree; `SpecClear.v` says the condition of the data (which values are told apart), and equal hashes
  of nodes of such values are excluded by induction.
* C75-C77: reports of mypy as lists of errors and remarks; the run of mypy is a parameter; `SpecLines.v` says what the lines of any text are. C78, C79: what is left of a syntax tree
  without the ignored parts (`SpecAst.essence`). C80: preorder of the nodes.
* C88: failures of the text traced to the nodes that iteration reaches, and to the functions in the data.
* C81-C87: relation between entries, machine states, commands and outcomes (`SpecCheck.Does`), for every machine; `PropsCheckAll.v` covers single texts, unknown daemons and all commands of the linting hook; `SpecShell.v` is a small part of the shell, in which the hook is executed.
* C95: which lines of a file are taken for variables of a class (`SpecVars.v`), by line numbers; the others are kept in order.
* C12 for all data: `PropsMention.v` (with `MentionFacts.v`) says which names that a declaration mentions can be left without a declaration.
* C96: what it means that a class file describes data (`SpecEnd.v`): the text is read as a block of imports and declarations (`Reads`; one reading, C66_one_reading in `PropsRead.v`; with docstrings one reading up to docstrings, `PropsReadDocs.v`), and `Describes` joins C09 (acceptance), C12 (names resolved) and C13 (no name twice). `PropsEnd.v` puts them together with the machine of C94.
* C97: documentation entries (`SpecDocs.v`) only add docstrings. `DocMap.v` defines what data, trees and declarations are without them and shows that every step of the construction commutes with it, `DocFacts.v` lifts this to the construction and to the declarations, `PropsErase.v` has the theorems. The order of sets has to be `blind` for the documentation.
* C99: what the text of a YAML file means, for a part of YAML (`SpecYamlDoc.v`: lines, tokens, structure; a first line "---"; literal and folded texts with their chomping, which depends on whether the last line of the file has an end; values in one line are read by a parameter), without reference to the tool; one reading (`YamlDocOne.v`). `YamlDocLines.v`, `YamlDocTexts.v` and `YamlDocTokens.v` follow the temporary copy line by line, `YamlDocFacts.v` goes from tokens to data, `PropsYamlDoc.v` and `PropsYamlHints.v` have the theorems. The loader only has to read the file and its copy as specified.
* C100: documentation entries and docstrings. `SpecNotes.v` says what an entry is, what a declaration shows, and when nothing in front of a value can be taken for it; `NoteSource.v` follows every entry of the metadata back to the value; `NoteFacts.v` follows a dict or a list under a path of keys to its node (`PropsNotes.v`).
* C101: comments and docstrings. `SpecYamlNotes.v` reads a file together with its comments and says which line holds the key under a path of keys; `YamlNoteFacts.v` relates that to the copy of C99; `PropsYamlNotes.v` puts C99 and C100 together, `YamlItemFacts.v` and `PropsYamlItems.v` do so for the mappings of a sequence.
* C102: live objects and YAML files (`PropsYamlLive.v`): C70 (which data a call of `from_yaml_file` uses), C99 (what the copy with comments contains), C97 and C96 (what the class file says of the data) put together. `Shows` is `Describes` of C96 up to docstrings; as declarations of one name may differ in docstrings, it does not claim that every name is declared once. `PropsYamlText.v` adds every reading of the text of the class file.
* C103: docstrings as Python source. `SpecLiteral.v` says what a string literal between three double quotes is, with its escapes (`\N`, `\u`, `\U` and octal numbers over 255 left out); `PropsLiteral.v` proves that the specification is unambiguous and that the docstrings of C32 and C33 are literals. `PropsYamlText.v` carries this to whole YAML files: without backslashes and triple quotes the hints have a reading, and every reading describes the data.
* C74: inductive relation between a value, the strategies and a declaration (`SpecForm.v`).

## 6. Trusted base

* Coq's kernel (including `vm_compute`).
* Every property theorem is followed by `Print Assumptions`; each prints "Closed under the global context":
  no axioms are used.
* The correspondence between the model and the Python source, which was established by reading.
* Nothing in `/repo` was run.  The behaviour of Python's built-ins (`str` methods, `list.insert`, `sorted`,
  `set`, `pathlib.Path.suffix`) is as modelled in `PyStr.v`, `Utils.v`, `Exc.v`.
