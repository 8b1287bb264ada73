(** Types are determined by their text. *)
From Coq Require Import Ascii String List Bool Arith Lia.
From Verif Require Import PyStr PyStrFacts Docstring SpecNames SpecTypes SpecData SpecEmit Values Build BuildFacts SpecSound.
Import ListNotations.
Local Open Scope string_scope.

Lemma wf_all (args : list ty) :
  (fix all (l : list ty) : Prop := match l with [] => True | a :: r => wf_ty a /\ all r end) args <-> Forall wf_ty args.
Proof.
  induction args as [|a l IH]; [split; auto|]. split.
  - intros [A B]. constructor; auto. now apply IH.
  - intros H. inversion H; subst. split; auto. now apply IH.
Qed.
Lemma wf_app h args : wf_ty (TApp h args) <-> is_name h /\ Forall wf_ty args.
Proof. cbn [wf_ty]. now rewrite wf_all. Qed.
Lemma wf_args args : wf_ty (TArgs args) <-> Forall wf_ty args.
Proof. cbn [wf_ty]. now rewrite wf_all. Qed.

(** A text that can follow a type. *)
Definition stops (r : string) : Prop := r = "" \/ exists c q, r = String c q /\ (c = ","%char \/ c = "]"%char).

Lemma split_name p a b x y : str_forall p a = true -> str_forall p b = true ->
  (x = "" \/ exists c r, x = String c r /\ p c = false) -> (y = "" \/ exists c r, y = String c r /\ p c = false) ->
  a ++ x = b ++ y -> a = b /\ x = y.
Proof.
  revert b. induction a as [|c a IH]; intros [|d b] Ha Hb Hx Hy E; cbn [append] in E.
  - auto.
  - subst x. cbn [str_forall] in Hb. apply andb_true_iff in Hb as [Hb _]. destruct Hx as [Hx|(c & r & Hx & F)]; [discriminate|]. injection Hx as <- <-. congruence.
  - subst y. cbn [str_forall] in Ha. apply andb_true_iff in Ha as [Ha _]. destruct Hy as [Hy|(c' & r & Hy & F)]; [discriminate|]. injection Hy as <- <-. congruence.
  - injection E as <- E. cbn [str_forall] in *. apply andb_true_iff in Ha as [_ Ha], Hb as [_ Hb]. destruct (IH b Ha Hb Hx Hy E) as [-> ->]. auto.
Qed.
Lemma stops_name r : stops r -> r = "" \/ exists c q, r = String c q /\ name_char c = false.
Proof. intros [->|(c & q & -> & [-> | ->])]; [now left| |]; right; do 2 eexists; (split; [reflexivity|reflexivity]). Qed.

Lemma ty_ind' (P : ty -> Prop) : (forall n, P (TName n)) -> (forall x, P (TStr x)) -> (forall h args, Forall P args -> P (TApp h args)) ->
  (forall args, Forall P args -> P (TArgs args)) -> P TDots -> forall t, P t.
Proof.
  intros A B C D E. fix F 1. intros [n|x|h args|args|].
  - apply A.
  - apply B.
  - apply C. induction args as [|a args IH]; constructor; [apply F|exact IH].
  - apply D. induction args as [|a args IH]; constructor; [apply F|exact IH].
  - apply E.
Qed.

(** The first character tells the form of a type. *)
Definition shape (t : ty) (c : ascii) : Prop :=
  match t with
  | TName _ | TApp _ _ => name_char c = true /\ c <> "."%char
  | TStr _ => c = """"%char
  | TArgs _ => c = "["%char
  | TDots => c = "."%char
  end.
Lemma print_first t : wf_ty t -> exists c r, print_ty t = String c r /\ shape t c.
Proof.
  destruct t as [n|x|h args|args|]; cbn [print_ty shape]; intros H.
  - destruct H as [H (c & r & -> & N)]. cbn [str_forall] in H. apply andb_true_iff in H as [H _]. eauto.
  - do 2 eexists. split; reflexivity.
  - apply wf_app in H as [[H (c & r & -> & N)] _]. cbn [str_forall] in H. apply andb_true_iff in H as [H _]. do 2 eexists. split; [reflexivity|auto].
  - do 2 eexists. split; reflexivity.
  - do 2 eexists. split; reflexivity.
Qed.
Lemma shape_open t c : shape t c -> c <> "]"%char.
Proof. destruct t; cbn [shape]; intros H E; subst; try discriminate; destruct H; discriminate. Qed.

Lemma print_list_inj (args : list ty) :
  Forall (fun t => forall t' r r', wf_ty t -> wf_ty t' -> stops r -> stops r' -> print_ty t ++ r = print_ty t' ++ r' -> t = t' /\ r = r') args ->
  forall args' r r', Forall wf_ty args -> Forall wf_ty args' ->
  join ", " (map print_ty args) ++ "]" ++ r = join ", " (map print_ty args') ++ "]" ++ r' -> args = args' /\ r = r'.
Proof.
  intros H. induction H as [|a args Ha _ IH]; intros args' r r' W W' E.
  - destruct args' as [|b args']; [cbn in E; now injection E|]. exfalso. inversion W'; subst. destruct (print_first b) as (c & q & Eb & Sb); auto.
    assert (exists q', join ", " (map print_ty (b :: args')) = String c q') as (q' & Ej).
    { destruct args'; [exists q; exact Eb|]. cbn [map]. rewrite join_cons by discriminate. rewrite Eb. cbn [append]. eauto. }
    rewrite Ej in E. cbn [append map join] in E. injection E as E _. apply (shape_open b c Sb). auto.
  - destruct args' as [|b args'].
    + exfalso. inversion W; subst. destruct (print_first a) as (c & q & Eb & Sb); auto.
      assert (exists q', join ", " (map print_ty (a :: args)) = String c q') as (q' & Ej).
      { destruct args; [exists q; exact Eb|]. cbn [map]. rewrite join_cons by discriminate. rewrite Eb. cbn [append]. eauto. }
      rewrite Ej in E. cbn [append map join] in E. injection E as E _. apply (shape_open a c Sb). auto.
    + inversion W; subst. inversion W'; subst.
      assert (J : forall x (l : list ty) z, exists z', stops z' /\ join ", " (map print_ty (x :: l)) ++ "]" ++ z = print_ty x ++ z' /\
                   (l = [] -> z' = "]" ++ z) /\ (l <> [] -> z' = ", " ++ join ", " (map print_ty l) ++ "]" ++ z)).
      { intros x l z. destruct l as [|y l].
        - exists ("]" ++ z). repeat split; auto; [|congruence]. right. do 2 eexists. split; [reflexivity|auto].
        - exists (", " ++ join ", " (map print_ty (y :: l)) ++ "]" ++ z). repeat split; [| |congruence].
          + right. do 2 eexists. split; [reflexivity|auto].
          + cbn [map]. rewrite join_cons by discriminate. now rewrite !app_assoc_s. }
      destruct (J a args r) as (z & Sz & Ez & Z1 & Z2). destruct (J b args' r') as (z' & Sz' & Ez' & Z1' & Z2').
      rewrite Ez, Ez' in E. destruct (Ha b z z') as [<- E']; auto.
      destruct args as [|a1 args], args' as [|b1 args'].
      * rewrite Z1, Z1' in E' by auto. cbn [append] in E'. injection E' as ->. auto.
      * rewrite Z1, Z2' in E' by (auto || discriminate). discriminate.
      * rewrite Z2, Z1' in E' by (auto || discriminate). discriminate.
      * rewrite Z2, Z2' in E' by discriminate. cbn [append] in E'. injection E' as E'. apply (IH (b1 :: args') r r') in E' as [<- <-]; auto.
Qed.

Lemma print_ty_prefix t : forall t' r r', wf_ty t -> wf_ty t' -> stops r -> stops r' -> print_ty t ++ r = print_ty t' ++ r' -> t = t' /\ r = r'.
Proof.
  induction t as [n|x|h args IH|args IH|] using ty_ind'; intros t' r r' W W' Hr Hr' E;
    destruct (print_first _ W) as (c & q & P & Sc), (print_first _ W') as (c' & q' & P' & Sc').
  all: assert (c = c') by (rewrite P, P' in E; cbn [append] in E; now injection E).
  all: subst c'; clear P P' q q'.
  all: destruct t' as [n'|x'|h' args'|args'|]; cbn [shape] in Sc, Sc'; try (exfalso; subst; destruct Sc; congruence); try (exfalso; subst; destruct Sc'; congruence); try (exfalso; subst; destruct Sc; discriminate); try (exfalso; subst; destruct Sc'; discriminate); try (exfalso; subst; discriminate); try (exfalso; destruct Sc, Sc'; subst; discriminate).
  all: cbn [print_ty] in E.
  - destruct W as [W _], W' as [W' _]. destruct (split_name name_char n n' r r') as [-> ->]; auto using stops_name.
  - exfalso. destruct W as [W _]. apply wf_app in W' as [[W' _] _]. rewrite !app_assoc_s in E. destruct (split_name name_char n h' r ("[" ++ join ", " (map print_ty args') ++ "]" ++ r')) as [_ F]; auto using stops_name.
    + right. do 2 eexists. split; reflexivity.
    + subst r. destruct Hr as [Hr|(c1 & q & Hr & [-> | ->])]; discriminate.
  - cbn [wf_ty] in W, W'. rewrite !app_assoc_s in E. unfold dq in E. cbn [append] in E. injection E as E. destruct (split_name (fun c => negb (existsb (Ascii.eqb c) [""""; ascii_of_nat 10]%char)) x x' (String """"%char r) (String """"%char r')) as [-> F]; auto.
    + right. do 2 eexists. split; reflexivity.
    + right. do 2 eexists. split; reflexivity.
    + now injection F as ->.
  - exfalso. destruct W' as [W' _]. apply wf_app in W as [[W _] _]. rewrite !app_assoc_s in E. destruct (split_name name_char h n' ("[" ++ join ", " (map print_ty args) ++ "]" ++ r) r') as [_ F]; auto using stops_name.
    + right. do 2 eexists. split; reflexivity.
    + subst r'. destruct Hr' as [Hr'|(c1 & q & Hr' & [-> | ->])]; discriminate.
  - apply wf_app in W as [[Wh _] Wa], W' as [[Wh' _] Wa']. rewrite !app_assoc_s in E.
    destruct (split_name name_char h h' ("[" ++ join ", " (map print_ty args) ++ "]" ++ r) ("[" ++ join ", " (map print_ty args') ++ "]" ++ r')) as [-> F]; auto.
    + right. do 2 eexists. split; reflexivity.
    + right. do 2 eexists. split; reflexivity.
    + cbn [append] in F. injection F as F. apply print_list_inj in F as [-> ->]; auto.
  - apply wf_args in W, W'. rewrite !app_assoc_s in E. cbn [append] in E. injection E as E. apply print_list_inj in E as [-> ->]; auto.
  - cbn [append] in E. injection E as ->. auto.
Qed.
Theorem print_ty_inj t t' : wf_ty t -> wf_ty t' -> print_ty t = print_ty t' -> t = t'.
Proof.
  intros W W' E. apply (print_ty_prefix t t' "" ""); auto; try (now left). now rewrite E.
Qed.
