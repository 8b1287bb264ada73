(** C104: the class files of the live generator. *)
From Coq Require Import Ascii String List Bool Arith Lia Permutation.
From Verif Require Import Exc PyStr PyStrFacts Utils Strategies Dispatch Values Tree Build Emit Imports ImportsFacts TreeFacts SpecNames NamesFacts SpecData SpecTypes SpecEmit SpecImports SpecModules SpecMerge SpecExact Elab BuildFacts TotalFacts
  TreeProofs EmitFacts EmitTop TextFacts SpecSound SoundTop SoundRead SpecCamel SpecUnique SpecClear Samples SampleUnique SampleEmit SampleSound SampleClear PyFile PyFileFacts Live SpecLive LiveFacts LiveHistory LiveSample SoundJson
  PropsBase PropsEmit SoundHash PropsUnique PropsClear PropsOutput PropsLive PropsExact SpecMachine PropsMachine SpecEnd PropsRead PropsEnd PropsOnly.
Import ListNotations.
Local Open Scope string_scope.
Local Open Scope nat_scope.

(** So the class files of the live generator: after any history, a file describes data given for its class, and accepts nothing else. *)
Theorem C104_files : forall s ord unparsed t os c text, valid s -> set_like ord -> s_dict s = DTypedDict -> well_formed t = true -> initial_lines unparsed = Val (template_lines t) ->
  lookup c (d_build (w_disk (snd (steps unparsed (class_text s ord) clean os)))) = Some text ->
  exists v, given os c v /\ class_text s ord v c = Val text /\
    forall ty kvs, v = VMap MDict ty kvs -> string_keys kvs -> describable s c v ->
      (exists stmts ds, Reads text stmts ds) /\ forall stmts ds, Reads text stmts ds -> accepts ds (TName c) v /\ forall w, accepts ds (TName c) w -> resembles v w.
Proof.
  intros s ord unparsed t os c text Hs Ho Td Wf Il Lk. destruct (C96_files s ord unparsed t os c text Hs Ho Wf Il Lk) as (v & G & T & _). exists v. split; [exact G|]. split; [exact T|].
  intros ty kvs -> Sk De. destruct (C104_resembles s ord ty kvs c Hs Ho Td Sk De) as (text' & T' & R & All). rewrite T in T'. injection T' as <-. auto.
Qed.
Print Assumptions C104_files.
Definition c104_history : list (@op pyval) := [New false; Use 0 order "Order"].
Example C104_files_example : exists text, well_formed live_template = true /\ initial_lines live_unparsed = Val (template_lines live_template) /\
  lookup "Order" (d_build (w_disk (snd (steps live_unparsed (class_text default_strategies as_inserted) clean c104_history)))) = Some text /\
  order = VMap MDict ty_dict order_entries /\ describable default_strategies "Order" order /\
  forall stmts ds, Reads text stmts ds -> forall w, accepts ds (TName "Order") w -> resembles order w.
Proof.
  destruct C104_example as (_ & _ & _ & Sk & _). 
  assert (Wf : well_formed live_template = true) by (vm_compute; reflexivity). assert (Il : initial_lines live_unparsed = Val (template_lines live_template)) by (vm_compute; reflexivity).
  destruct (lookup "Order" (d_build (w_disk (snd (steps live_unparsed (class_text default_strategies as_inserted) clean c104_history))))) as [text|] eqn:Lk; [|vm_compute in Lk; discriminate Lk].
  exists text. split; [exact Wf|]. split; [exact Il|]. split; [reflexivity|]. split; [reflexivity|]. split; [exact order_describable|].
  destruct (C104_files default_strategies as_inserted live_unparsed live_template c104_history "Order" text default_valid as_inserted_set_like eq_refl Wf Il Lk) as (v & G & _ & All).
  assert (v = order) as ->. { destruct G as (o & [<-|[<-|[]]] & G); cbn in G; [destruct G|]. destruct G as [G _]; exact (eq_sym G). }
  destruct (All ty_dict order_entries eq_refl Sk order_describable) as [_ X]. intros stmts ds R w A. exact (proj2 (X stmts ds R) w A).
Qed.
