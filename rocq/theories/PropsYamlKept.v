(** C37: files in which no key has a comment. *)
From Coq Require Import Ascii String List Bool Arith Lia.
From Verif Require Import PyStr PyStrFacts Exc Yaml SpecNames SpecText SpecImports SpecYaml YamlFacts YamlLines YamlComments YamlMore YamlEntries PropsYaml PropsYamlFail.
Import ListNotations.
Local Open Scope string_scope.
Local Open Scope nat_scope.

(** C37 for all files in which no key has a comment. *)
Theorem C37_all_files : forall y, (forall idx l, nth_error (y_lines y) idx = Some l -> ~ documented y idx l) ->
  (spaces_only (y_lines y) /\ (exists l, In l (y_lines y) /\ Trimmed l "-") -> temporary_string y = Raise IndexError) /\
  (~ (spaces_only (y_lines y) /\ exists l, In l (y_lines y) /\ Trimmed l "-") -> exists out, temporary_string y = Val out /\ Joined newline (y_lines y) out).
Proof.
  intros y N. split; [intros [Sp L]; apply (proj1 (C91_all_files y)); split; auto|]. intros H. exists (join nl (y_lines y)). split; [|apply join_Joined].
  apply no_comments. unfold extract_comments.
  assert (Z : forall ind, ind = detect_indentation (y_lines y) -> ind <> Unclear -> comments_from y ind 0 (y_lines y) = Val []).
  { intros ind Ei Nu. destruct (comments_from_total y ind (y_lines y)) with (idx := 0) as (cs & E).
    { intros l Hl. destruct ind; [left|now right|congruence]. intros D. apply H. split; [now apply detected_spaces|exists l; auto]. }
    rewrite E. destruct cs as [|c cs]; [reflexivity|]. exfalso.
    destruct (comments_from_In _ _ _ _ _ c E (or_introl eq_refl)) as (k & l & cl & Nl & Ecl & Hc). cbn [Nat.add] in Ecl.
    destruct (comments_of_line_In _ _ _ _ _ c Ecl Hc) as (_ & _ & Nd & (p & Hp & Hs) & ch & r & R & K & NE & _). apply (N k l Nl). split; [exists p, (full_string c); auto|exists (for_key c); auto]. }
  destruct (detect_indentation (y_lines y)) eqn:D; [rewrite Z|rewrite Z|]; auto; discriminate.
Qed.
Print Assumptions C37_all_files.
Example C37_all_files_example :
  (forall idx l, nth_error ["# a"; "- b: 2"; "c: '# 3'"] idx = Some l -> ~ documented (Yaml "a.yaml" ["# a"; "- b: 2"; "c: '# 3'"] [Side; Below]) idx l) /\
  temporary_string (Yaml "a.yaml" ["# a"; "- b: 2"; "c: '# 3'"] [Side; Below]) = Val ("# a" ++ nl ++ "- b: 2" ++ nl ++ "c: '# 3'").
Proof.
  split; [|vm_compute; reflexivity]. intros idx l Nl ((p & s & [<-|[<-|[]]] & E & Ns) & k & K & Nk); destruct idx as [|[|[|idx]]]; try (destruct idx; discriminate Nl); cbn in Nl; injection Nl as <-;
    (try (vm_compute in K; injection K as <-)); vm_compute in E; injection E as <-; congruence.
Qed.
