(** C78 and C79: what [compare_ast] decides and what it does to its arguments. *)
From Coq Require Import Ascii String List Bool Arith Lia.
From Verif Require Import PyStr PyStrFacts Exc Ast SpecAst.
Import ListNotations.
Local Open Scope string_scope.
Local Open Scope nat_scope.

Lemma ast_nested (P : ast -> Prop) : (forall t v, P (AConst t v)) -> (forall l, Forall P l -> P (AList l)) ->
  (forall c fs, Forall (fun e => P (snd e)) fs -> P (ANode c fs)) -> forall n, P n.
Proof.
  intros Hc Hl Hn. fix IH 1. intros [c fs|l|t v].
  - apply Hn. induction fs as [|[k v] fs I]; constructor; auto.
  - apply Hl. induction l as [|x l I]; constructor; auto.
  - apply Hc.
Qed.

Definition cmp_list (f : ast -> ast -> exc (bool * ast)) := fix cmp_list (skip : bool) (l1 l2 : list ast) {struct l1} : exc (bool * list ast) :=
    match l1 with
    | [] => Val (forallb is_none l2, l2)
    | x :: r =>
        if skip && is_import x then cmp_list skip r l2
        else match l2 with
             | [] => andthen (f x none) (fun b => if fst b then cmp_list skip r [] else Val (false, []))
             | y :: s => andthen (f x y) (fun b =>
                           if fst b then andthen (cmp_list skip r s) (fun c => Val (fst c, snd b :: snd c)) else Val (false, snd b :: s))
             end
    end.
Definition field (ii : bool) (f : ast -> ast -> exc (bool * ast)) (k : string) (v x : ast) : exc (bool * ast) :=
  match v with
  | AList l1 =>
      if ii && String.eqb k "body" then
        match x with
        | AList l2 => andthen (cmp_list f true l1 (filter (fun n => negb (is_import n)) l2)) (fun b => Val (fst b, AList (snd b)))
        | _ => Raise TypeError
        end
      else f v x
  | _ => f v x
  end.
Definition loop (ia ii : bool) (f : ast -> ast -> exc (bool * ast)) := fix loop (fs : list (string * ast)) (cur : list (string * ast)) {struct fs} : exc (bool * list (string * ast)) :=
          match fs with
          | [] => Val (true, cur)
          | (k, v) :: r =>
              if mem k POSITIONS then loop r cur
              else if ia && String.eqb k "args" then loop r cur
              else match getattr k cur with
                   | None => Raise AttributeError
                   | Some x =>
                       andthen (field ii f k v x) (fun b =>
                         if fst b then loop r (setattr k (snd b) cur) else Val (false, setattr k (snd b) cur))
                   end
          end.
Lemma compare_lists ia ii l1 l2 : compare_ast ia ii (AList l1) (AList l2) =
  andthen (cmp_list (compare_ast ia ii) false l1 l2) (fun b => Val (fst b, AList (snd b))).
Proof. reflexivity. Qed.
Lemma compare_nodes ia ii c fs c' fs' : compare_ast ia ii (ANode c fs) (ANode c' fs') =
  if String.eqb c c' then andthen (loop ia ii (compare_ast ia ii) fs fs') (fun b => Val (fst b, ANode c' (snd b))) else Val (false, ANode c' fs').
Proof. reflexivity. Qed.

Lemma skipped_iff ia k : skipped ia k = mem k POSITIONS || (ia && String.eqb k "args").
Proof.
  unfold skipped. destruct (in_dec string_dec k _) as [H|H].
  - replace (mem k POSITIONS) with true; [reflexivity|]. symmetry. now apply mem_spec.
  - replace (mem k POSITIONS) with false; [|symmetry; now apply mem_false]. cbn [orb]. destruct (string_dec k "args") as [->|N].
    + now destruct ia.
    + apply String.eqb_neq in N. rewrite N. now destruct ia.
Qed.
Lemma cleaned_iff ii k : cleaned ii k = ii && String.eqb k "body".
Proof. unfold cleaned. destruct (string_dec k "body") as [->|N]; [now destruct ii|]. apply String.eqb_neq in N. rewrite N. now destruct ii. Qed.
Lemma import_iff n : import_statement n = is_import n.
Proof.
  destruct n as [c fs| |]; try reflexivity. cbn [import_statement is_import]. destruct (in_dec string_dec c _) as [H|H]; symmetry; [now apply mem_spec|now apply mem_false].
Qed.
Lemma is_none_iff n : is_none n = true <-> n = none.
Proof.
  destruct n as [c fs|l|t v]; cbn [is_none]; try (split; discriminate). rewrite andb_true_iff, !String.eqb_eq. unfold none. split; [intros [-> ->]; reflexivity|intros E; injection E; auto].
Qed.

(** ** Trimmed lists *)
Lemma trim_cons x r : trim (x :: r) = match trim r with [] => if is_none x then [] else [x] | r' => x :: r' end.
Proof.
  cbn [trim]. destruct (trim r); [|now destruct x]. destruct x as [| |t v]; try reflexivity. cbn [is_none].
  destruct (string_dec t "NoneType") as [->|N]; [|apply String.eqb_neq in N; now rewrite N]. destruct (string_dec v "None") as [->|N]; [reflexivity|]. apply String.eqb_neq in N. now rewrite N, andb_false_r.
Qed.
Lemma trim_nil_cons y s : [] = trim (y :: s) <-> y = none /\ [] = trim s.
Proof.
  rewrite trim_cons. destruct (trim s) eqn:E.
  - destruct (is_none y) eqn:Ey; [apply is_none_iff in Ey; tauto|]. split; [discriminate|]. intros [-> _]. discriminate.
  - split; [discriminate|]. intros [_ ?]; discriminate.
Qed.
Lemma trim_cons_cons x r y s : trim (x :: r) = trim (y :: s) <-> x = y /\ trim r = trim s.
Proof.
  rewrite !trim_cons. destruct (trim r) as [|a r'], (trim s) as [|b s'].
  - destruct (is_none x) eqn:Ex, (is_none y) eqn:Ey; rewrite ?is_none_iff in *; subst; split; try tauto; try discriminate.
    + intros [<- _]. discriminate.
    + intros [-> _]. discriminate.
    + intros E. injection E. auto.
    + intros [-> _]. reflexivity.
  - destruct (is_none x); split; try discriminate; intros [_ ?]; discriminate.
  - destruct (is_none y); split; try discriminate; intros [_ ?]; discriminate.
  - split; [intros E; injection E; intros; subst; auto|intros [-> E]; now rewrite E].
Qed.
Lemma trim_all_none l : [] = trim l <-> forallb is_none l = true.
Proof. induction l as [|x l IH]; [cbn; tauto|]. rewrite trim_nil_cons, IH. cbn [forallb]. now rewrite andb_true_iff, is_none_iff. Qed.

(** ** The essence of a node *)
Section Compare.
  Variables ia ii : bool.
  Variables (attributes : string -> list string) (block : string -> bool).
  Notation ess := (essence ia ii).
  Notation form := (formed ia attributes block).
  Notation cmp := (compare_ast ia ii).

  Definition ef (k : string) (v : ast) : ast :=
    match v with
    | AList l => if cleaned ii k then AList (trim (map ess (filter (fun n => negb (is_import n)) l))) else ess v
    | _ => ess v
    end.
  Definition shown (fs : list (string * ast)) : list (string * ast) := filter (fun e => negb (skipped ia (fst e))) fs.
  Lemma essence_node c fs : ess (ANode c fs) = ANode c (map (fun e => (fst e, ef (fst e) (snd e))) (shown fs)).
  Proof.
    cbn [essence]. apply f_equal. induction fs as [|[k v] fs IH]; [reflexivity|]. unfold shown. cbn [filter fst]. destruct (skipped ia k); cbn [negb]; [apply IH|].
    cbn [map fst snd]. f_equal; [|apply IH]. apply f_equal. unfold ef. destruct v as [| l|]; try reflexivity. destruct (cleaned ii k); [|reflexivity]. do 2 apply f_equal.
    induction l as [|x l I]; [reflexivity|]. cbn [filter map]. rewrite import_iff. destruct (is_import x); cbn [negb]; [exact I|]. cbn [map]. now rewrite I.
  Qed.
  Lemma ess_none n : ess n = none <-> n = none.
  Proof. destruct n; cbn [essence]; unfold none; split; try discriminate; auto. Qed.

  (** What the comparison should do. *)
  Definition good (n1 : ast) : Prop := form n1 -> forall n2, form n2 ->
    exists b n2', cmp n1 n2 = Val (b, n2') /\ (b = true <-> ess n1 = ess n2) /\ form n2' /\ ess n2' = ess n2 /\ is_import n2' = is_import n2.

  Definition keep (skip : bool) (l : list ast) : list ast := if skip then filter (fun n => negb (is_import n)) l else l.
  Lemma cmp_list_good skip l1 : Forall good l1 -> Forall form l1 -> forall l2, Forall form l2 ->
    exists b l2', cmp_list cmp skip l1 l2 = Val (b, l2') /\ (b = true <-> trim (map ess (keep skip l1)) = trim (map ess l2)) /\
      Forall form l2' /\ map ess l2' = map ess l2 /\ map is_import l2' = map is_import l2.
  Proof.
    induction l1 as [|x r IH]; intros G F l2 F2.
    - exists (forallb is_none l2), l2. split; [reflexivity|]. repeat split; auto.
      + intros H. replace (keep skip []) with (@nil ast) by now destruct skip. cbn [map trim]. apply trim_all_none. clear F2. induction l2 as [|y l2 I]; [reflexivity|].
        cbn [forallb map] in *. apply andb_true_iff in H as [H1 H2]. rewrite I by exact H2. apply is_none_iff in H1 as ->. reflexivity.
      + replace (keep skip []) with (@nil ast) by now destruct skip. cbn [map]. change (trim []) with (@nil ast). rewrite trim_all_none. clear F2. induction l2 as [|y l2 I]; [reflexivity|].
        cbn [forallb map]. rewrite !andb_true_iff, !is_none_iff, ess_none. intros [-> H]. auto.
    - inversion G as [|? ? Gx Gr]; inversion F as [|? ? Fx Fr]; subst. cbn [cmp_list]. destruct (skip && is_import x) eqn:Sk.
      + apply andb_true_iff in Sk as [-> Ix]. destruct (IH Gr Fr l2 F2) as (b & l2' & E & R). exists b, l2'. split; [exact E|]. cbn [keep filter] in *. now rewrite Ix.
      + assert (Kx : keep skip (x :: r) = x :: keep skip r).
        { destruct skip; [|reflexivity]. cbn [andb] in Sk. cbn [keep filter]. now rewrite Sk. }
        rewrite Kx. cbn [map]. destruct l2 as [|y s].
        * destruct (Gx Fx none ltac:(constructor)) as (b & n' & E & Rb & Fn & En & In'). rewrite E. cbn [andthen fst].
          change (ess none) with none in Rb. rewrite ess_none in Rb. destruct b.
          -- destruct (IH Gr Fr [] ltac:(constructor)) as (b2 & l2' & E2 & R2 & F2' & M2 & I2). exists b2, l2'. split; [exact E2|]. split; [|auto].
             rewrite R2. cbn [map]. change (trim []) with (@nil ast). split; intros H.
             ++ symmetry. apply trim_nil_cons. split; [apply ess_none; now apply Rb|now symmetry].
             ++ symmetry in H. apply trim_nil_cons in H as [_ H]. now symmetry.
          -- exists false, []. split; [reflexivity|]. split; [|auto]. split; [discriminate|]. intros H. cbn [map] in H. change (trim []) with (@nil ast) in H. symmetry in H. apply trim_nil_cons in H as [H _]; apply -> ess_none in H.
             apply Rb in H. discriminate.
        * inversion F2 as [|? ? Fy Fs]; subst. destruct (Gx Fx y Fy) as (b & n' & E & Rb & Fn & En & In'). rewrite E. cbn [andthen fst snd]. cbn [map]. destruct b.
          -- destruct (IH Gr Fr s Fs) as (b2 & l2' & E2 & R2 & F2' & M2 & I2). rewrite E2. cbn [andthen fst snd]. exists b2, (n' :: l2'). split; [reflexivity|]. rewrite trim_cons_cons, R2.
             cbn [map]. rewrite En, M2, In', I2. split; [|split; [constructor; auto|auto]]. split; [intros H; split; auto; now apply Rb|tauto].
          -- exists false, (n' :: s). split; [reflexivity|]. rewrite trim_cons_cons. cbn [map]. rewrite En, In'. split; [|split; [constructor; auto|auto]]. split; [discriminate|]. intros [H _]. apply Rb in H. discriminate.
  Qed.

  Definition lst (n : ast) : bool := match n with AList _ => true | _ => false end.
  Definition deep (n : ast) : Prop := good n /\ forall l, n = AList l -> Forall good l.
  Lemma lst_ess n : lst (ess n) = lst n.
  Proof. now destruct n. Qed.
  Lemma ef_plain k n : cleaned ii k = false \/ lst n = false -> ef k n = ess n.
  Proof. destruct n; cbn [ef lst]; intros [H|H]; try reflexivity; try discriminate; try (now rewrite H). Qed.
  Lemma filter_none l : map is_import l = map (fun _ => false) l -> filter (fun n => negb (is_import n)) l = l.
  Proof. induction l as [|x l IH]; intros H; [reflexivity|]. cbn [map] in H. injection H as H1 H2. cbn [filter]. rewrite H1. cbn [negb]. now rewrite IH. Qed.
  Lemma filter_imports l : map is_import (filter (fun n => negb (is_import n)) l) = map (fun _ => false) (filter (fun n => negb (is_import n)) l).
  Proof. induction l as [|x l IH]; [reflexivity|]. cbn [filter]. destruct (is_import x) eqn:E; cbn [negb]; [exact IH|]. cbn [map]. now rewrite E, IH. Qed.
  Lemma Forall_filter {A} (P : A -> Prop) f l : Forall P l -> Forall P (filter f l).
  Proof. rewrite !Forall_forall. intros H x Hx. apply filter_In in Hx as [Hx _]. auto. Qed.

  Lemma field_good k v x : deep v -> form v -> form x -> (cleaned ii k = true -> lst v = lst x) ->
    exists b x', field ii cmp k v x = Val (b, x') /\ (b = true <-> ef k v = ef k x) /\ form x' /\ ef k x' = ef k x /\ lst x' = lst x.
  Proof.
    intros [G D] Fv Fx L. assert (Easy : cleaned ii k = false \/ lst v = false -> exists b x', cmp v x = Val (b, x') /\ (b = true <-> ef k v = ef k x) /\ form x' /\ ef k x' = ef k x /\ lst x' = lst x).
    { intros C. destruct (G Fv x Fx) as (b & x' & E & R & F & Es & _). exists b, x'. split; [exact E|]. assert (Lx : lst x' = lst x) by (rewrite <- lst_ess, Es; apply lst_ess).
      assert (C' : forall y, lst y = lst x -> cleaned ii k = false \/ lst y = false) by (intros y Hy; destruct C as [C|C]; auto; destruct (cleaned ii k); auto; right; now rewrite Hy, <- L).
      rewrite !ef_plain; auto. }
    unfold field. destruct v as [c fs|l|t w]; try (apply Easy; now right). rewrite <- cleaned_iff. destruct (cleaned ii k) eqn:C; [|apply Easy; now left].
    specialize (L eq_refl). destruct x as [|l2|]; try discriminate. inversion Fv as [|? Fl|]; inversion Fx as [|? Fl2|]; subst.
    destruct (cmp_list_good true l (D l eq_refl) Fl (filter (fun n => negb (is_import n)) l2) (Forall_filter _ _ _ Fl2)) as (b & l2' & E & R & F' & M & I).
    rewrite E. cbn [andthen fst snd]. exists b, (AList l2'). split; [reflexivity|]. assert (N : filter (fun n => negb (is_import n)) l2' = l2').
    { apply filter_none. rewrite I, filter_imports. clear -M. assert (Le : List.length l2' = List.length (filter (fun n => negb (is_import n)) l2)) by (rewrite <- (map_length ess l2'), M; apply map_length).
      revert Le. generalize (filter (fun n => negb (is_import n)) l2). intros m. clear. revert m. induction l2' as [|a l IH]; intros [|b m] H; try discriminate; [reflexivity|]. cbn. apply f_equal. apply IH. now injection H. }
    cbn [ef lst]. rewrite C, N, M. cbn [keep] in R. split; [|split; [now constructor|auto]]. rewrite R. split; [now intros ->|now intros H; injection H].
  Qed.

  Lemma getattr_set k x k' fs : getattr k' (setattr k x fs) = if String.eqb k' k then Some x else getattr k' fs.
  Proof.
    induction fs as [|[n y] fs IH]; cbn [setattr getattr].
    - destruct (String.eqb k' k); reflexivity.
    - destruct (String.eqb k n) eqn:E; cbn [getattr].
      + apply String.eqb_eq in E as <-. destruct (String.eqb k' k); reflexivity.
      + rewrite IH. destruct (String.eqb k' n) eqn:E'; [|reflexivity]. apply String.eqb_eq in E' as ->. rewrite String.eqb_sym, E. reflexivity.
  Qed.
  Lemma setattr_names k x y fs : getattr k fs = Some y -> map fst (setattr k x fs) = map fst fs.
  Proof.
    induction fs as [|[n z] fs IH]; cbn [setattr getattr map fst]; [discriminate|]. destruct (String.eqb k n); cbn [map fst]; [reflexivity|]. intros H. now rewrite IH.
  Qed.
  Lemma setattr_Forall (P : ast -> Prop) k x fs : Forall (fun e => P (snd e)) fs -> P x -> Forall (fun e => P (snd e)) (setattr k x fs).
  Proof. intros F Px. induction F as [|[n z] fs Hz F IH]; cbn [setattr]; [repeat constructor; auto|]. destruct (String.eqb k n); constructor; auto. Qed.
  Lemma getattr_In k v fs : getattr k fs = Some v -> In (k, v) fs.
  Proof. induction fs as [|[n z] fs IH]; cbn [getattr]; [discriminate|]. destruct (String.eqb k n) eqn:E; [|right; auto]. apply String.eqb_eq in E as ->. intros H. injection H as ->. now left. Qed.
  Lemma getattr_NoDup k v fs : NoDup (map fst fs) -> In (k, v) fs -> getattr k fs = Some v.
  Proof.
    induction fs as [|[n z] fs IH]; intros N H; [contradiction|]. cbn [map fst] in N. inversion N as [|? ? N1 N2]; subst. cbn [getattr]. destruct H as [H|H].
    - injection H as -> ->. now rewrite String.eqb_refl.
    - destruct (String.eqb k n) eqn:E; auto. apply String.eqb_eq in E as <-. exfalso. apply N1. now apply (in_map fst) in H.
  Qed.
  Lemma getattr_names k fs : In k (map fst fs) -> exists v, getattr k fs = Some v.
  Proof. intros H. induction fs as [|[n z] fs IH]; [contradiction|]. cbn [getattr map fst] in *. destruct (String.eqb k n) eqn:E; [eauto|]. apply String.eqb_neq in E. destruct H as [H|H]; [congruence|auto]. Qed.

  Lemma loop_good fs : Forall (fun e => deep (snd e)) fs -> Forall (fun e => form (snd e)) fs -> NoDup (map fst fs) ->
    forall cur, Forall (fun e => form (snd e)) cur ->
    (forall k v, In (k, v) fs -> skipped ia k = false -> exists x, getattr k cur = Some x /\ (cleaned ii k = true -> lst v = lst x)) ->
    exists b cur', loop ia ii cmp fs cur = Val (b, cur') /\
      (b = true <-> forall k v x, In (k, v) fs -> skipped ia k = false -> getattr k cur = Some x -> ef k v = ef k x) /\
      map fst cur' = map fst cur /\ Forall (fun e => form (snd e)) cur' /\
      (forall k x', getattr k cur' = Some x' -> exists x, getattr k cur = Some x /\ ef k x' = ef k x /\ lst x' = lst x).
  Proof.
    induction fs as [|[k v] fs IH]; intros D F N cur Fc H.
    - exists true, cur. split; [reflexivity|]. repeat split; auto; [contradiction|eauto].
    - inversion D as [|? ? Dv Dr]; inversion F as [|? ? Fv Fr]; subst. cbn [map fst snd] in *. inversion N as [|? ? N1 N2]; subst. cbn [loop].
      pose proof (skipped_iff ia k) as Sk. destruct (skipped ia k) eqn:Ek.
      + assert (Step : exists b cur', loop ia ii cmp fs cur = Val (b, cur') /\
          (b = true <-> forall k0 v0 x, In (k0, v0) ((k, v) :: fs) -> skipped ia k0 = false -> getattr k0 cur = Some x -> ef k0 v0 = ef k0 x) /\
          map fst cur' = map fst cur /\ Forall (fun e => form (snd e)) cur' /\ (forall k x', getattr k cur' = Some x' -> exists x, getattr k cur = Some x /\ ef k x' = ef k x /\ lst x' = lst x)).
        { destruct (IH Dr Fr N2 cur Fc) as (b & cur' & E & R & M & F' & P); [intros k0 v0 H0; apply H; now right|]. exists b, cur'. split; [exact E|]. split; [|auto].
          rewrite R. split; intros Q k0 v0 x H0 S0 G0; [destruct H0 as [H0|H0]; [injection H0 as <- <-; congruence|eauto]|eapply Q; eauto; now right]. }
        destruct (mem k POSITIONS); [exact Step|]. cbn [orb] in Sk. rewrite <- Sk. exact Step.
      + symmetry in Sk. apply orb_false_iff in Sk as [S1 S2]. rewrite S1, S2. destruct (H k v (or_introl eq_refl) Ek) as (x & G & L). rewrite G.
        assert (Fx : form x) by (rewrite Forall_forall in Fc; apply getattr_In in G; apply (Fc (k, x) G)).
        destruct (field_good k v x Dv Fv Fx L) as (b & x' & E & R & F' & Ee & Le). rewrite E. cbn [andthen fst snd].
        assert (Fs : Forall (fun e => form (snd e)) (setattr k x' cur)) by now apply setattr_Forall.
        assert (P1 : forall k0 y', getattr k0 (setattr k x' cur) = Some y' -> exists y, getattr k0 cur = Some y /\ ef k0 y' = ef k0 y /\ lst y' = lst y).
        { intros k0 y' Hy. rewrite getattr_set in Hy. destruct (String.eqb k0 k) eqn:E0; [|eauto]. apply String.eqb_eq in E0 as ->. injection Hy as <-. eauto. }
        destruct b.
        * destruct (IH Dr Fr N2 (setattr k x' cur) Fs) as (b2 & cur' & E2 & R2 & M2 & F2 & P2).
          { intros k0 v0 H0 S0. rewrite getattr_set. destruct (String.eqb k0 k) eqn:E0; [|apply H; auto; now right]. apply String.eqb_eq in E0 as ->. exfalso. apply N1. now apply (in_map fst) in H0. }
          rewrite E2. exists b2, cur'. split; [reflexivity|]. split; [|split; [|split; [exact F2|]]].
          -- rewrite R2. split.
             ++ intros Q k0 v0 y [H0|H0] S0 G0; [injection H0 as <- <-; rewrite G in G0; injection G0 as <-; now apply R|].
                apply (Q k0 v0 y H0 S0). rewrite getattr_set. destruct (String.eqb k0 k) eqn:E0; auto. apply String.eqb_eq in E0 as ->. exfalso. apply N1. now apply (in_map fst) in H0.
             ++ intros Q k0 v0 y H0 S0 G0. apply (Q k0 v0 y); auto; [now right|]. rewrite getattr_set in G0. destruct (String.eqb k0 k) eqn:E0; auto. apply String.eqb_eq in E0 as ->. exfalso. apply N1. now apply (in_map fst) in H0.
          -- rewrite M2. eapply setattr_names; eauto.
          -- intros k0 z Hz. destruct (P2 k0 z Hz) as (y' & Gy & Ey & Ly). destruct (P1 k0 y' Gy) as (y & Gy0 & Ey0 & Ly0). exists y. split; auto. split; congruence.
        * exists false, (setattr k x' cur). split; [reflexivity|]. split; [|split; [eapply setattr_names; eauto|split; auto]].
          split; [discriminate|]. intros Q. assert (X : ef k v = ef k x) by (apply (Q k v x); auto; now left). apply R in X. discriminate.
  Qed.

  Lemma shown_names fs : map fst (shown fs) = filter (fun k => negb (skipped ia k)) (map fst fs).
  Proof. unfold shown. induction fs as [|[k v] fs IH]; [reflexivity|]. cbn [filter map fst]. destruct (negb (skipped ia k)); cbn [map fst]; now rewrite IH. Qed.
  Lemma shown_eq fs gs : NoDup (map fst fs) -> NoDup (map fst gs) -> map fst (shown fs) = map fst (shown gs) ->
    (map (fun e => (fst e, ef (fst e) (snd e))) (shown fs) = map (fun e => (fst e, ef (fst e) (snd e))) (shown gs) <->
     forall k v x, In (k, v) fs -> skipped ia k = false -> getattr k gs = Some x -> ef k v = ef k x).
  Proof.
    intros N1 N2 M. assert (A : (forall k v x, In (k, v) fs -> skipped ia k = false -> getattr k gs = Some x -> ef k v = ef k x) <-> (forall k v x, In (k, v) (shown fs) -> In (k, x) (shown gs) -> ef k v = ef k x)).
    { unfold shown. split; intros H k v x H1 H2.
      - apply filter_In in H1 as [H1 S1], H2 as [H2 _]. cbn [fst] in S1. apply negb_true_iff in S1. apply (H k v x); auto. now apply getattr_NoDup.
      - intros H3. apply (H k v x); apply filter_In; cbn [fst]; rewrite H2; split; auto. now apply getattr_In. }
    rewrite A. clear A. assert (P1 : NoDup (map fst (shown fs))) by (rewrite shown_names; now apply NoDup_filter). clear N1 N2. revert M P1. generalize (shown fs) (shown gs). clear fs gs. intros fs gs. revert gs.
    induction fs as [|[k v] fs IH]; intros [|[k' x] gs] M P1; try discriminate; [split; auto; contradiction|]. cbn [map fst snd] in *. injection M as -> M. inversion P1 as [|? ? P2 P3]; subst.
    split.
    - intros E. injection E as E1 E2. intros k0 v0 x0 [H1|H1] [H2|H2].
      + injection H1 as <- <-. injection H2 as <-. exact E1.
      + injection H1 as <- <-. exfalso. apply P2. rewrite M. now apply (in_map fst) in H2.
      + injection H2 as <- <-. exfalso. apply P2. now apply (in_map fst) in H1.
      + apply (IH gs M P3) with (k := k0); auto.
    - intros H. f_equal; [f_equal; apply (H k' v x); now left|]. apply IH; auto. intros k0 v0 x0 H1 H2. apply (H k0 v0 x0); now right.
  Qed.

  Lemma all_deep n : deep n.
  Proof.
    induction n as [t v|l IH|c fs IH] using ast_nested.
    - split; [|discriminate]. intros _ [c fs|l|t' v'] F2; cbn [compare_ast].
      + exists false, (ANode c fs). rewrite essence_node. repeat split; auto; discriminate.
      + exists false, (AList l). repeat split; auto; discriminate.
      + exists (String.eqb t t' && String.eqb v v'), (AConst t' v'). split; [reflexivity|]. cbn [essence]. rewrite andb_true_iff, !String.eqb_eq. repeat split; auto; [intros [-> ->]; reflexivity|congruence|congruence].
    - assert (Gl : Forall good l) by (eapply Forall_impl; [|exact IH]; now intros ? [? _]). split; [|intros l' E; now injection E as <-].
      intros F1 [c fs|l2|t v] F2.
      + exists false, (ANode c fs). split; [reflexivity|]. rewrite essence_node. repeat split; auto; discriminate.
      + inversion F1 as [|? Fl|]; inversion F2 as [|? Fl2|]; subst. destruct (cmp_list_good false l Gl Fl l2 Fl2) as (b & l2' & E & R & F' & M & I).
        rewrite compare_lists, E. cbn [andthen fst snd]. exists b, (AList l2'). split; [reflexivity|]. cbn [essence]. rewrite M, R. cbn [keep].
        split; [split; [now intros ->|now intros H; injection H]|]. split; [now constructor|auto].
      + exists false, (AConst t v). repeat split; auto; discriminate.
    - split; [|discriminate]. intros F1 [c' fs'|l2|t v] F2.
      2: { exists false, (AList l2). split; [reflexivity|]. rewrite essence_node. repeat split; auto; discriminate. }
      2: { exists false, (AConst t v). split; [reflexivity|]. rewrite essence_node. repeat split; auto; discriminate. }
      rewrite compare_nodes. destruct (String.eqb c c') eqn:Ec.
      2: { exists false, (ANode c' fs'). split; [reflexivity|]. rewrite !essence_node. apply String.eqb_neq in Ec. repeat split; auto; [discriminate|congruence]. }
      apply String.eqb_eq in Ec as <-. inversion F1 as [| |? ? N1 A1 G1 B1]; inversion F2 as [| |? ? N2 A2 G2 B2]; subst.
      destruct (loop_good fs IH G1 N1 fs' G2) as (b & cur' & E & R & M & F' & P).
      { intros k v Hk Sk. destruct (getattr_names k fs') as [x Gx].
        - assert (Q : In k (filter (fun k => negb (skipped ia k)) (map fst fs'))) by (rewrite A2, <- A1; apply filter_In; rewrite Sk; split; auto; now apply (in_map fst) in Hk). now apply filter_In in Q as [Q _].
        - exists x. split; auto. intros Ck. rewrite cleaned_iff in Ck. apply andb_true_iff in Ck as [_ Ck]. apply String.eqb_eq in Ck as ->. specialize (B1 v Hk). apply getattr_In in Gx. specialize (B2 x Gx).
          destruct (block c); [destruct B1 as [? ->], B2 as [? ->]; reflexivity|]. destruct v as [|lv|], x as [|lx|]; try reflexivity; exfalso; [now apply (B2 lx)|now apply (B1 lv)|now apply (B1 lv)|now apply (B2 lx)]. }
      rewrite E. cbn [andthen fst snd]. exists b, (ANode c cur'). split; [reflexivity|]. assert (Nc : NoDup (map fst cur')) by now rewrite M.
      assert (Q : ess (ANode c cur') = ess (ANode c fs')).
      { rewrite !essence_node. apply f_equal. apply shown_eq; auto; [now rewrite !shown_names, M|]. intros k v x H1 S1 G. apply getattr_NoDup in H1; auto. destruct (P k v H1) as (y & Gy & Ey & _). congruence. }
      split; [|split; [|split; [exact Q|reflexivity]]].
      + rewrite R, <- shown_eq; auto; [|now rewrite !shown_names, A1, A2]. rewrite !essence_node. split; [now intros ->|now intros H; injection H].
      + constructor; auto; [now rewrite M|]. intros v Hv. apply getattr_NoDup in Hv; auto. destruct (P "body" v Hv) as (y & Gy & _ & Ly). apply getattr_In in Gy. specialize (B2 y Gy).
        destruct (block c); [destruct B2 as [l ->]; destruct v; try discriminate; eauto|]. intros l ->. destruct y as [|ly|]; try discriminate. now apply (B2 ly).
  Qed.
End Compare.

(** *** C78: what is decided *)
(** Two trees as [ast.parse] makes them compare equal exactly if the same is left of them. *)
Theorem C78_decides : forall args imports attributes block n1 n2, formed args attributes block n1 -> formed args attributes block n2 ->
  exists b n2', compare_ast args imports n1 n2 = Val (b, n2') /\ (b = true <-> essence args imports n1 = essence args imports n2).
Proof. intros args imports attributes block n1 n2 F1 F2. destruct (all_deep args imports attributes block n1) as [G _]. destruct (G F1 n2 F2) as (b & n2' & E & R & _). eauto. Qed.
Print Assumptions C78_decides.

(** *** C79: what is changed *)
(** Without [ignore_imports] the trees are left alone. *)
Lemma setattr_same k x fs : getattr k fs = Some x -> setattr k x fs = fs.
Proof. induction fs as [|[n z] fs IH]; cbn [getattr setattr]; [discriminate|]. destruct (String.eqb k n); [now intros H; injection H as ->|]. intros H. now rewrite IH. Qed.
Lemma unchanged args n1 : forall n2 b n2', compare_ast args false n1 n2 = Val (b, n2') -> n2' = n2.
Proof.
  induction n1 as [t v|l IH|c fs IH] using ast_nested; intros [c' fs'|l2|t' v'] b n2' H; try (now (cbn [compare_ast] in H; injection H)).
  - rewrite compare_lists in H. destruct (cmp_list _ _ _ _) as [[b0 l']| |] eqn:E; try discriminate. cbn [andthen fst snd] in H. injection H as _ <-. apply f_equal.
    revert l2 b0 l' E. induction IH as [|x r Hx _ I]; intros l2 b0 l' E; cbn [cmp_list andb] in E; [now injection E|]. destruct l2 as [|y s].
    + destruct (compare_ast args false x none) as [[bx n]| |]; try discriminate. cbn [andthen fst] in E. destruct bx; [now apply I in E|now injection E].
    + destruct (compare_ast args false x y) as [[bx n]| |] eqn:Ex; try discriminate. cbn [andthen fst snd] in E. apply Hx in Ex as ->. destruct bx; [|now injection E].
      destruct (cmp_list (compare_ast args false) false r s) as [[br m]| |] eqn:Er; try discriminate. cbn [andthen fst snd] in E. apply I in Er as ->. now injection E.
  - rewrite compare_nodes in H. destruct (String.eqb c c'); [|now injection H]. destruct (loop _ _ _ _ _) as [[b0 cur]| |] eqn:E; try discriminate. cbn [andthen fst snd] in H. injection H as _ <-. apply f_equal.
    revert fs' b0 cur E. induction IH as [|[k v] r Hv _ I]; intros cur b0 cur' E; cbn [loop] in E; [now injection E|].
    destruct (mem k POSITIONS); [now apply I in E|]. destruct (args && String.eqb k "args"); [now apply I in E|]. destruct (getattr k cur) as [x|] eqn:G; [|discriminate].
    replace (field false (compare_ast args false) k v x) with (compare_ast args false v x) in E by now destruct v.
    destruct (compare_ast args false v x) as [[bx n]| |] eqn:Ex; try discriminate. cbn [andthen fst snd] in E. cbn [snd] in Hv. apply Hv in Ex as ->. rewrite (setattr_same k x cur G) in E. destruct bx; [now apply I in E|now injection E].
Qed.
Theorem C79_unchanged_partial : forall args n1 n2 b n2', compare_ast args false n1 n2 = Val (b, n2') -> n2' = n2.
Proof. exact unchanged. Qed.
Print Assumptions C79_unchanged_partial.
(** With [ignore_imports] what is left of the second tree stays the same. *)
Theorem C79_essence_partial : forall args attributes block n1 n2 b n2', formed args attributes block n1 -> formed args attributes block n2 ->
  compare_ast args true n1 n2 = Val (b, n2') -> essence args true n2' = essence args true n2 /\ formed args attributes block n2'.
Proof. intros args attributes block n1 n2 b n2' F1 F2 H. destruct (all_deep args true attributes block n1) as [G _]. destruct (G F1 n2 F2) as (b0 & m & E & R & F & Q & _). rewrite H in E. injection E as <- <-. auto. Qed.
Print Assumptions C79_essence_partial.

Definition import_os : ast := ANode "Import" [("names", AList [ANode "alias" [("name", AConst "str" "os"); ("asname", none); ("lineno", AConst "int" "1")]]); ("lineno", AConst "int" "1")].
Definition pass_at (n : string) : ast := ANode "Pass" [("lineno", AConst "int" n); ("col_offset", AConst "int" "0")].
Definition module (body : list ast) : ast := ANode "Module" [("body", AList body); ("type_ignores", AList [])].
Definition sample_attributes (c : string) : list string :=
  if String.eqb c "Module" then ["body"; "type_ignores"] else if String.eqb c "Import" then ["names"] else if String.eqb c "alias" then ["name"; "asname"] else [].
Definition sample_block (c : string) : bool := String.eqb c "Module".
Ltac form := repeat first [apply formed_const | apply formed_list; repeat apply Forall_cons; try apply Forall_nil
  | apply formed_node; [repeat constructor; cbn; intuition discriminate|reflexivity|repeat apply Forall_cons; try apply Forall_nil; cbn [snd]|cbn; intros v Hv; intuition (try congruence); match goal with E : _ = ("body", _) |- _ => injection E as <-; eauto | _ => idtac end]].
Example C78_example : formed false sample_attributes sample_block (module [import_os; pass_at "2"]) /\ formed false sample_attributes sample_block (module [pass_at "1"]) /\
  compare_ast false true (module [import_os; pass_at "2"]) (module [pass_at "1"]) = Val (true, module [pass_at "1"]) /\
  compare_ast false false (module [import_os; pass_at "2"]) (module [pass_at "1"]) = Val (false, module [pass_at "1"]).
Proof.
  split; [|split; [|split; reflexivity]]; unfold module, import_os, pass_at, none; form.
Qed.
(** The import statements of the second tree are deleted. *)
Theorem C79_changed_refuted : exists n1 n2 n2', formed false sample_attributes sample_block n1 /\ formed false sample_attributes sample_block n2 /\
  compare_ast false true n1 n2 = Val (true, n2') /\ n2' <> n2 /\
  (exists b, compare_ast false false n2 n2 = Val (true, b)) /\ (exists b, compare_ast false false n2 n2' = Val (false, b)).
Proof.
  exists (module [pass_at "1"]), (module [import_os; pass_at "2"]), (module [pass_at "2"]). split; [|split; [|split; [reflexivity|split; [discriminate|split; eexists; reflexivity]]]]; unfold module, import_os, pass_at, none; form.
Qed.
Print Assumptions C79_changed_refuted.
