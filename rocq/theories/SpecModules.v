(** What the modules named in import statements offer on the oldest Python that the project supports (pyproject.toml:12, 3.8). *)
From Coq Require Import String List.
From Verif Require Import Strategies.
From Coq Require Import ZArith.
Import ListNotations.
Local Open Scope string_scope.

(** [typing.__all__] of Python 3.8, and the parts of the other modules that annotations use. *)
Definition offers (module : string) : list string :=
  if String.eqb module "typing" then
    ["Any"; "Callable"; "ClassVar"; "Final"; "ForwardRef"; "Generic"; "Literal"; "Optional"; "Protocol"; "Tuple"; "Type"; "TypeVar"; "Union";
     "AbstractSet"; "ByteString"; "Container"; "ContextManager"; "Hashable"; "ItemsView"; "Iterable"; "Iterator"; "KeysView"; "Mapping"; "MappingView";
     "MutableMapping"; "MutableSequence"; "MutableSet"; "Sequence"; "Sized"; "ValuesView"; "Awaitable"; "AsyncIterator"; "AsyncIterable"; "Coroutine";
     "Collection"; "AsyncGenerator"; "AsyncContextManager"; "Reversible"; "SupportsAbs"; "SupportsBytes"; "SupportsComplex"; "SupportsFloat";
     "SupportsIndex"; "SupportsInt"; "SupportsRound"; "ChainMap"; "Counter"; "Deque"; "Dict"; "DefaultDict"; "List"; "OrderedDict"; "Set"; "FrozenSet";
     "NamedTuple"; "TypedDict"; "Generator"; "AnyStr"; "cast"; "final"; "get_args"; "get_origin"; "get_type_hints"; "NewType"; "no_type_check";
     "no_type_check_decorator"; "NoReturn"; "overload"; "runtime_checkable"; "Text"; "TYPE_CHECKING"; "IO"; "TextIO"; "BinaryIO"]
  else if String.eqb module "typing_extensions" then ["NotRequired"; "Required"; "ReadOnly"; "Self"; "TypeAlias"; "TypeGuard"; "Never"; "Unpack"]
  else if String.eqb module "types" then ["FunctionType"; "LambdaType"; "MappingProxyType"; "MethodType"; "ModuleType"; "SimpleNamespace"]
  else if String.eqb module "__future__" then ["annotations"]
  else if String.eqb module "numpy.typing" then ["ArrayLike"; "DTypeLike"; "NDArray"]
  else if String.eqb module "pandas._typing" then ["Scalar"]
  else [].

(** The statements [import m as a] that the tool may write. *)
Definition module_import (statement : string) : Prop :=
  In statement ["import pandas as pd"; "import numpy.typing as npt"; "import numpy as np"].

(** The arguments that a strategies object stands for. *)
Definition arguments (s : strategies) : raw_strategies :=
  Raw (match s_list s with LSequence => "Sequence" | LList => "list" end)
      (match s_tuple s with TFixed => "fixed" | TAnySize => "any size" end)
      (match s_dict s with DTypedDict => "TypedDict" | DMapping => "Mapping" | DDict => "dict" end)
      (match s_pandas s with PFull => "Full type hint" | PAutocomplete => "Type hint only for autocomplete" | PNoColumns => "Do not type hint columns" end)
      (Z.of_nat (s_min_height s)) (s_key_doc s) (Z.of_nat (s_merge s)) (s_read_only s) (option_map Z.of_nat (s_max_n s)).
