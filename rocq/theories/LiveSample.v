(** The stub of the pinned commit: lines of [ast.unparse] of lazy_type_hint/generators/lazy_type_hint_live.py
    after [remove_all_method_bodies] (written by hand from the documentation of [ast.unparse]: one
    line for each statement and definition, an empty line above classes and functions, the new body "..." directly
    behind the colon, string statements in single quotes unless they are docstrings). *)
From Coq Require Import Ascii String List Bool Arith.
From Verif Require Import PyStr Exc PyFile Live SpecLive.
Import ListNotations.
Local Open Scope string_scope.

Definition live_unparsed : list string := [
"import os";
"import re";
"import shutil";
"from pathlib import Path";
"from typing import Any, Callable, Dict, Final, Literal, Mapping, Optional, Sequence, TypeVar, Union, cast, final, overload";
"from typing_extensions import TypeAlias, override";
"from lazy_type_hint.data_type_tree import DataTypeTree";
"from lazy_type_hint.file_modifiers.py_file_modifier import PyFileModifier";
"from lazy_type_hint.file_modifiers.yaml_file_modifier import YAML_COMMENTS_POSITION";
"from lazy_type_hint.generators.lazy_type_hint_abc import LazyTypeHintABC";
"from lazy_type_hint.strategies import ParsingStrategies";
"from lazy_type_hint.utils import TAB, is_string_python_keyword_compatible";
"THIS_DIR = Path(__file__).parent";
"";
"class LazyTypeHintLiveError(Exception):";
"    """"""Raised by `LazyTypeHintLive` class.""""""";
"ObjectT = TypeVar('ObjectT')";
"PathT = TypeVar('PathT', str, Path)";
"";
"class LazyTypeHintLive(LazyTypeHintABC):";
"    """"""Generate type hints for any data structure and use them out of the box.""""""";
"    this_file_pyi: PyFileModifier";
"    '.pyi representation of this same module.'";
"    strategies: ParsingStrategies";
"    'Strategies to follow when parsing the objects.'";
"    if_type_hint_exists: Literal['overwrite', 'validate']";
"    'Strategy to follow if existing type hints were found for the same class name.'";
"    classes_created: 'TypeAlias' = Any";
"    'Classes created by the class. Do not modify.'";
"    _methods_to_be_overloaded: Final = ('from_data', 'from_yaml_file')";
"    'Methods that will be modified in the PYI interface when new classes are added.'";
"    _this_file_pyi_path: Final = Path(__file__).with_suffix('.pyi')";
"    'Path to the .pyi file associated to this same module.'";
"    _custom_class_dir_path: Final = _this_file_pyi_path.parent / 'build'";
"    'Path where the new classes will be generated.c'";
"";
"    @final";
"    def __init__(self, strategies: ParsingStrategies=ParsingStrategies(), if_type_hint_exists: Literal['overwrite', 'validate']='overwrite') -> None:...";
"";
"    def _get_classes_added(self) -> Mapping[str, Path]:...";
"";
"    @override";
"    def from_yaml_file(self, loader: Callable[[PathT], ObjectT], path: PathT, *, class_name: str, comments_are: Optional[Union[YAML_COMMENTS_POSITION, Sequence[YAML_COMMENTS_POSITION]]]='side', **kwargs: Any) -> ObjectT:...";
"";
"    @override";
"    def from_data(self, data: ObjectT, class_name: str, **kwargs: Any) -> ObjectT:...";
"";
"    @staticmethod";
"    def _remove_docstrings(string: str) -> str:...";
"";
"    @classmethod";
"    def reset(cls) -> None:...";
"";
"    @final";
"    def _generate_this_file_pyi(self) -> PyFileModifier:...";
"";
"    def _create_custom_class_py(self, string: str, class_name: str) -> None:...";
"";
"    @final";
"    def _add_new_class_to_loader_pyi(self, *, new_class: str) -> None:...";
"";
"    @final";
"    def _add_import_to_this_file_pyi(self, new_class: str) -> None:...";
"";
"    @final";
"    def _add_overload_to_this_file_pyi(self, *, new_class: str, method_name: str, input_argument: str='class_name') -> None:...";
"";
"    @final";
"    def _add_class_created_to_this_file_pyi(self, new_class: str) -> None:...";
"";
"    @final";
"    def _update_this_file_pyi(self) -> None:..."].

Definition live_template : template := {|
  t_head := firstn 20 live_unparsed;
  t_indent := "    "; t_type := ": 'TypeAlias' ";
  t_mid1 := ["    'Classes created by the class. Do not modify.'"; "    @final";
"    def __init__(self, strategies: ParsingStrategies=ParsingStrategies(), if_type_hint_exists: Literal['overwrite', 'validate']='overwrite') -> None:..."; ""];
  t_yaml := Method "(self, loader: Callable[[PathT], ObjectT], path: PathT, *, "
     ", comments_are: Optional[Union[YAML_COMMENTS_POSITION, Sequence[YAML_COMMENTS_POSITION]]]='side', **kwargs: Any) " "ObjectT" "...";
  t_mid2 := [""];
  t_data := Method "(self, data: ObjectT, " ", **kwargs: Any) " "ObjectT" "...";
  t_tail := [""; "    @classmethod"; "    def reset(cls) -> None:..."; ""] |}.

Example live_initial : initial_lines live_unparsed = Val (template_lines live_template).
Proof. vm_compute. reflexivity. Qed.
Example live_well_formed : well_formed live_template = true.
Proof. vm_compute. reflexivity. Qed.
