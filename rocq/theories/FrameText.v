(** Proofs about the text generated for data frames. *)
From Coq Require Import Ascii String List Bool Arith ZArith Lia Permutation DecimalString DecimalNat.
From Verif Require Import PyStr PyStrFacts Utils Strategies Imports Dispatch Values Tree Build Emit TreeFacts SpecData BuildFacts FuelFacts TotalFacts TreeProofs NamesFacts Elab ElabFacts EmitFacts EmitTop Frame SpecFrame FrameFacts.
Import ListNotations.
Local Open Scope string_scope.
Local Open Scope nat_scope.

(** ** Literals *)
Lemma from_hex_digit n : n < 16 -> from_hex (chr (if Nat.ltb n 10 then 48 + n else 87 + n)) = Some n.
Proof. intros H. do 16 (destruct n as [|n]; [vm_compute; reflexivity|]). lia. Qed.
Lemma unquote_char (q c : ascii) r : q = chr 39 \/ q = chr 34 -> unquote q (repr_char q c ++ r) = push c (unquote q r).
Proof.
  intros Hq. assert (N : Ascii.eqb (ascii_of_nat 92) q = false) by (destruct Hq; subst; reflexivity).
  assert (E : forall e r1, unquote q (String (ascii_of_nat 92) (String e r1)) =
    if Ascii.eqb e (ascii_of_nat 92) || Ascii.eqb e (ascii_of_nat 39) || Ascii.eqb e (ascii_of_nat 34) then push e (unquote q r1)
            else if Ascii.eqb e (ascii_of_nat 110) then push (ascii_of_nat 10) (unquote q r1)
            else if Ascii.eqb e (ascii_of_nat 114) then push (ascii_of_nat 13) (unquote q r1)
            else if Ascii.eqb e (ascii_of_nat 116) then push (ascii_of_nat 9) (unquote q r1)
            else if Ascii.eqb e (ascii_of_nat 120) then
              match r1 with
              | String h1 (String h2 r2) =>
                  match from_hex h1, from_hex h2 with Some x, Some y => push (ascii_of_nat (16 * x + y)) (unquote q r2) | _, _ => None end
              | _ => None
              end
            else None) by (intros; cbn [unquote]; rewrite N; reflexivity).
  unfold repr_char. destruct (Ascii.eqb_spec c (chr 92)) as [->|N1]; [cbn [String.append]; rewrite E; reflexivity|].
  destruct (Ascii.eqb_spec c q) as [->|N2]; [cbn [String.append]; rewrite E; destruct Hq; subst; reflexivity|].
  destruct (Ascii.eqb_spec c (chr 9)) as [->|N3]; [cbn [String.append]; rewrite E; reflexivity|].
  destruct (Ascii.eqb_spec c (chr 10)) as [->|N4]; [cbn [String.append]; rewrite E; reflexivity|].
  destruct (Ascii.eqb_spec c (chr 13)) as [->|N5]; [cbn [String.append]; rewrite E; reflexivity|].
  destruct (printable c).
  - cbn [String.append unquote]. change (ascii_of_nat 10) with (chr 10). change (ascii_of_nat 13) with (chr 13). change (ascii_of_nat 92) with (chr 92).
    rewrite (proj2 (Ascii.eqb_neq c q) N2), (proj2 (Ascii.eqb_neq c (chr 10)) N4), (proj2 (Ascii.eqb_neq c (chr 13)) N5), (proj2 (Ascii.eqb_neq c (chr 92)) N1). reflexivity.
  - unfold hex. cbn [String.append]. change (chr 92) with (ascii_of_nat 92). rewrite E. pose proof (nat_ascii_bounded c) as B.
    assert (H1 : nat_of_ascii c / 16 < 16) by (apply Nat.div_lt_upper_bound; lia). assert (H2 : nat_of_ascii c mod 16 < 16) by (apply Nat.mod_upper_bound; lia).
    rewrite (from_hex_digit _ H1), (from_hex_digit _ H2), <- Nat.div_mod, ascii_nat_embedding by lia. reflexivity.
Qed.
Lemma unquote_chars q s : q = chr 39 \/ q = chr 34 -> unquote q (repr_chars q s ++ String q "") = Some s.
Proof.
  intros Hq. induction s as [|c s IH]; cbn [repr_chars].
  - cbn [String.append unquote]. now rewrite Ascii.eqb_refl.
  - rewrite app_assoc_s, unquote_char, IH; auto.
Qed.
Lemma repr_str_value s : string_value (repr_str s) = Some s.
Proof.
  unfold repr_str. set (q := if _ && _ then _ else _). assert (Hq : q = chr 39 \/ q = chr 34) by (unfold q; destruct (_ && _); auto). clearbody q.
  change (String q "" ++ repr_chars q s ++ String q "") with (String q (repr_chars q s ++ String q "")). unfold string_value.
  replace (Ascii.eqb q (ascii_of_nat 39) || Ascii.eqb q (ascii_of_nat 34)) with true by (destruct Hq; subst; reflexivity). now apply unquote_chars.
Qed.

Fixpoint uint_value (acc : Z) (d : Decimal.uint) : Z :=
  match d with
  | Decimal.Nil => acc
  | Decimal.D0 d => uint_value (10 * acc) d | Decimal.D1 d => uint_value (10 * acc + 1) d | Decimal.D2 d => uint_value (10 * acc + 2) d
  | Decimal.D3 d => uint_value (10 * acc + 3) d | Decimal.D4 d => uint_value (10 * acc + 4) d | Decimal.D5 d => uint_value (10 * acc + 5) d
  | Decimal.D6 d => uint_value (10 * acc + 6) d | Decimal.D7 d => uint_value (10 * acc + 7) d | Decimal.D8 d => uint_value (10 * acc + 8) d
  | Decimal.D9 d => uint_value (10 * acc + 9) d
  end.
Lemma digits_uint d : forall acc, digits_value acc (NilEmpty.string_of_uint d) = Some (uint_value acc d).
Proof.
  induction d; intros acc; cbn [NilEmpty.string_of_uint]; [reflexivity|..]; cbn [digits_value uint_value];
    match goal with |- context [nat_of_ascii ?c] => let n := eval vm_compute in (nat_of_ascii c) in change (nat_of_ascii c) with n end;
    cbn [Nat.leb andb Nat.sub]; rewrite IHd; do 2 f_equal; lia.
Qed.
Lemma uint_value_acc d : forall n, Z.of_nat (Nat.of_uint_acc d n) = uint_value (Z.of_nat n) d.
Proof.
  induction d; intros n; cbn [Nat.of_uint_acc uint_value]; auto; rewrite IHd; f_equal; rewrite Nat.tail_mul_spec; lia.
Qed.
Lemma str_of_nat_value n : digits_value 0 (str_of_nat n) = Some (Z.of_nat n).
Proof.
  unfold str_of_nat. rewrite digits_uint. f_equal. rewrite <- (DecimalNat.Unsigned.of_to n) at 2. unfold Nat.of_uint. now rewrite uint_value_acc.
Qed.
Lemma str_of_nat_first n : exists c r, str_of_nat n = String c r /\ Ascii.eqb c "-" = false.
Proof.
  destruct (str_of_nat n) as [|c r] eqn:E.
  - pose proof (str_of_nat_value n) as V. rewrite E in V. cbn in V. assert (n = 0) by (injection V; lia). subst. discriminate E.
  - exists c, r. split; auto. pose proof (str_of_nat_decimal n) as D. rewrite E in D. cbn [str_forall] in D. apply andb_true_iff in D as [D _].
    destruct (Ascii.eqb_spec c "-"); auto. subst. discriminate D.
Qed.
Lemma str_of_Z_value z : int_value (str_of_Z z) = Some z.
Proof.
  destruct z as [|p|p]; [reflexivity|..]; cbn [str_of_Z].
  - destruct (str_of_nat_first (Pos.to_nat p)) as (c & r & E & N). unfold int_value. rewrite E, N, <- E, str_of_nat_value. f_equal. lia.
  - destruct (str_of_nat_first (Pos.to_nat p)) as (c & r & E & N). unfold int_value. cbn [String.append]. rewrite Ascii.eqb_refl. rewrite E, <- E, str_of_nat_value. cbn [option_map]. f_equal. lia.
Qed.
Lemma repr_denotes a : simple a -> denotes (repr_atom a) a.
Proof.
  destruct a as [s|[]|z|i t]; cbn [simple denotes repr_atom str_atom]; try tauto; auto using repr_str_value, str_of_Z_value.
Qed.

(** ** Children *)
Lemma lset_new {A} k (v : A) d : (forall k', In k' (map fst d) -> label_eqb k k' = false) -> lset k v d = (d ++ [(k, v)])%list.
Proof.
  induction d as [|[k' v'] d IH]; intros H; cbn [lset app]; auto. rewrite (H k'); [|now left]. rewrite IH; auto. intros; apply H. now right.
Qed.
Lemma build_columns_keys child ls : forall cs r, ForallOrdPairs (fun a b => label_eqb b a = false) ls ->
  (forall a b, In a ls -> In b (map fst cs) -> label_eqb a b = false) -> build_columns child ls cs = FOk r ->
  exists r', r = (cs ++ r')%list /\ map fst r' = ls /\ Forall (fun c => child (fst c) = FOk (snd c)) r'.
Proof.
  induction ls as [|l ls IH]; intros cs r P N H; cbn [build_columns] in H.
  - injection H as <-. exists []. rewrite app_nil_r. auto.
  - destruct (child l) as [c|e|] eqn:E; try discriminate. cbn [fbind] in H. rewrite lset_new in H by (intros; apply N; auto; now left).
    inversion P; subst. destruct (IH (cs ++ [(l, c)])%list r H3) as (r' & -> & <- & F); auto.
    + intros a b Ha Hb. rewrite map_app in Hb. apply in_app_or in Hb as [Hb|[<-|[]]]; [apply N; auto; now right|]. rewrite Forall_forall in H2. now apply H2.
    + exists ((l, c) :: r'). rewrite <- app_assoc. cbn [app map fst]. repeat split; auto.
Qed.

Lemma pairs_map (l : list atom) : ForallOrdPairs (fun a b => ~ same a b) l -> ForallOrdPairs (fun a b => label_eqb b a = false) (map LAtom l).
Proof.
  induction 1 as [|a l F P IH]; cbn [map]; constructor; auto. rewrite Forall_map. eapply Forall_impl; [|exact F]. cbn [label_eqb]. intros b N.
  apply not_true_iff_false. rewrite atom_eqb_same. intros Q. apply N. now apply same_sym.
Qed.
Lemma pairs_of_splits {A} (P : A -> A -> Prop) l : (forall l1 l2 l3 a b, l = (l1 ++ a :: l2 ++ b :: l3)%list -> P a b) -> ForallOrdPairs P l.
Proof.
  induction l as [|x l IH]; intros H; constructor.
  - apply Forall_forall. intros y Hy. apply in_split in Hy as (l2 & l3 & ->). apply (H [] l2 l3). reflexivity.
  - apply IH. intros l1 l2 l3 a b ->. apply (H (x :: l1) l2 l3). reflexivity.
Qed.

(** The labels of the children of a well labelled frame. *)
Lemma well_columns f heads : well_labelled f heads -> columns f <> [] /\ literal_columns (columns f) = true /\ forallb one_tuple (columns f) = false /\ Forall labelled (columns f).
Proof.
  intros H. assert (L : Forall labelled (columns f)).
  { destruct H as [cols heads N E S1|cols heads N F S1]; cbn [columns].
    - rewrite E, Forall_map. exact S1.
    - rewrite Forall_map. apply Forall_forall. intros c Hc. clear N. induction F as [|c' a cols heads (b & r & Ec) F IH]; [destruct Hc|]. inversion S1; subst.
      destruct Hc as [<-|Hc]; auto. now rewrite Ec. }
  split; [|split; [|split]]; auto.
  - destruct H as [cols heads N E S1|cols heads N F S1]; cbn [columns]; destruct cols; try congruence; discriminate.
  - now apply labelled_columns.
  - destruct H as [cols heads N E S1|cols heads N F S1]; cbn [columns].
    + rewrite E. destruct heads; [|reflexivity]. destruct cols; [congruence|discriminate].
    + destruct F as [|c a cols heads (b & r & Ec) F]; [congruence|]. cbn [map forallb]. now rewrite Ec.
Qed.
Lemma subsequence_refl {A} (l : list A) : subsequence l l.
Proof. induction l; constructor; auto. Qed.
Lemma pairs_split {A} (P : A -> A -> Prop) l1 a l2 : ForallOrdPairs P (l1 ++ a :: l2) -> forall b, In b l1 -> P b a.
Proof.
  induction l1 as [|x l1 IH]; intros H b Hb; [destruct Hb|]. cbn [app] in H. inversion H; subst. destruct Hb as [<-|Hb]; auto. rewrite Forall_forall in H2. apply H2, in_elt.
Qed.
Lemma well_keys f heads : well_labelled f heads -> ~ repeats f -> exists keys, looked_up (columns f) = map LAtom keys /\ first_ones heads keys /\ Forall simple keys.
Proof.
  intros W R. destruct (well_columns f heads W) as (_ & _ & _ & L). destruct W as [cols heads N E S1|cols heads N F S1].
  - exists heads. cbn [columns] in *. assert (P : ForallOrdPairs (fun a b => ~ same a b) heads).
    { apply pairs_of_splits. intros l1 l2 l3 a b -> Q. apply R. apply rep_here with a b (map LAtom l1) (map LAtom l2) (map LAtom l3); auto.
      rewrite E, map_app. cbn [map]. now rewrite map_app. }
    split; [|split; auto].
    + rewrite E. unfold looked_up. destruct heads as [|a heads]; [reflexivity|]. reflexivity.
    + split; auto using subsequence_refl.
      * intros a Ha. exists a. auto using same_refl.
      * intros a Ha. apply in_split in Ha as (l1 & l2 & ->). exists l1, l2. split; auto. intros b Hb Q. apply (pairs_split _ _ _ _ P b Hb). now apply same_sym.
  - assert (Hs : forall l, In l (columns (Multi cols)) -> exists a r, l = LTuple (a :: r) /\ simple a).
    { intros l Hl. rewrite Forall_forall in L. pose proof (L _ Hl) as Ll. cbn [columns] in Hl. apply in_map_iff in Hl as (c & <- & _). destruct (fst c) as [|a' r']; [destruct Ll|]. eauto. }
    destruct (first_levels_spec (columns (Multi cols)) [] Hs) as (I1 & I2 & _ & I4 & I5).
    assert (Eh : flat_map (fun l => match l with LTuple (a :: _) => [a] | _ => [] end) (columns (Multi cols)) = heads).
    { clear -F. cbn [columns]. induction F as [|c a cols heads (b & r & Ec) F IH]; auto. cbn [map flat_map]. rewrite Ec. cbn [app]. now rewrite IH. }
    rewrite Eh in *. exists (first_levels (columns (Multi cols)) []). split; [|split].
    + unfold looked_up. replace (forallb is_tuple (columns (Multi cols))) with true; auto. symmetry. apply forallb_forall. intros l Hl. apply Hs in Hl as (a & r & -> & _). reflexivity.
    + split; auto. intros a Ha. destruct (I4 a Ha) as (b & [Hb|[]] & Q). eauto.
    + apply Forall_forall. intros a Ha. destruct (I5 a Ha) as (l1 & l2 & E & _). rewrite Forall_forall in S1. apply S1. rewrite E. apply in_elt.
Qed.

Definition child_of (s : strategies) (ord : set_order) (fuel : nat) (name : string) (d : nat) (f : frame) (a : atom) (c : ftree) : Prop :=
  match get f (LAtom a) with
  | Some (ASeries vs) => build_series s ord (name ++ column_suffix (LAtom a)) (S d) vs = FOk c
  | Some (AFrame g) => build_frame s ord fuel (name ++ column_suffix (LAtom a)) (S d) g = FOk c
  | None => False
  end.
Lemma Forall2_map_fst {A B} (R : A -> B -> Prop) (l : list (label * B)) ks (inj : A -> label) :
  map fst l = map inj ks -> (forall k c, In (inj k, c) l -> R k c) -> Forall2 R ks (map snd l).
Proof.
  revert ks. induction l as [|[k c] l IH]; intros [|a ks] E H; try discriminate; cbn [map fst snd] in *; constructor.
  - injection E as -> _. apply H. now left.
  - injection E as _ E. apply IH; auto. intros. apply H. now right.
Qed.
Lemma well_tree s ord fuel name d f heads t : well_labelled f heads -> build_frame s ord fuel name d f = FOk t ->
  exists n keys cs, fuel = S n /\ first_ones heads keys /\ Forall simple keys /\ t = FNode name d (columns f) cs /\ cs <> [] /\
    map fst cs = map LAtom keys /\ Forall2 (child_of s ord n name d f) keys (map snd cs).
Proof.
  intros W H. destruct (well_columns f heads W) as (Ne & Li & On & L).
  assert (R : ~ repeats f) by (intros R; exact (repeats_no_tree s ord fuel f name d t R H)).
  destruct (well_keys f heads W R) as (keys & Ek & Fk & Sk). destruct fuel as [|n]; cbn [build_frame] in H; destruct (negb (is_compatible name)); try discriminate;
    rewrite Li, On in H; cbn [negb] in H; [discriminate H|].
  match type of H with fbind ?x _ = _ => destruct x as [cs|e|] eqn:B; try discriminate end. cbn [fbind] in H. injection H as <-. rewrite Ek in B.
  apply build_columns_keys in B as (r' & Er & Em & F); [|apply pairs_map; apply Fk|intros ? ? ? []]. cbn [app] in Er. subst r'.
  exists n, keys, cs. repeat split; auto.
  - apply Fk.
  - apply Fk.
  - apply Fk.
  - apply Fk.
  - intros ->. destruct keys as [|k keys]; [|discriminate]. destruct heads as [|h heads].
    + inversion W as [cols hs N E Q Ef|cols hs N F2 Q Ef]; [destruct cols; [congruence|discriminate]|inversion F2; subst; congruence].
    + destruct (fo_all _ _ Fk h (or_introl eq_refl)) as (b & [] & _).
  - apply (Forall2_map_fst _ cs keys LAtom Em). intros k c Hc. rewrite Forall_forall in F. specialize (F _ Hc). cbn [fst snd] in F. unfold child_of.
    destruct (get f (LAtom k)) as [[vs|g]|]; auto. discriminate.
Qed.

(** ** Text of a class *)
Definition hint_of (s : strategies) (c : ftree) : string := if fperm s c then fname c else without_lvalue (fst (ftop s c)).
Lemma ftop_class s name d cols cs keys : cs <> [] -> map fst cs = map LAtom keys -> Forall simple keys ->
  fst (ftop s (FNode name d cols cs)) =
  "class " ++ name ++ "(pd.DataFrame):" ++ eol ++ eol ++ join eol (map (fun c => overload_text (fst c) (snd c)) (combine (map repr_atom keys) (map (hint_of s) (map snd cs)))) ++ eol ++
  match s_pandas s with PFull => template_no_pd_end ("Literal[" ++ join ", " (map repr_atom keys) ++ "]") | _ => template_end "str" end.
Proof.
  intros Ne E S1. destruct cs as [|c0 cs]; [congruence|]. remember (c0 :: cs) as l eqn:El.
  assert (T : ftop s (FNode name d cols l) = let parts := flat_map (fun c =>
            match fst c with
            | LAtom a => if literal a then [(overload (repr_atom a) (hint_of s (snd c)), if fperm s (snd c) then [] else snd (ftop s (snd c)))] else []
            | LTuple _ => []
            end) l in
          let literals := flat_map (fun c => match fst c with LAtom a => if literal a then [repr_atom a] else [] | _ => [] end) l in
          let extra := if forallb (fun c => match fst c with LAtom a => literal a | _ => false end) l then "" else ", Hashable" in
          ("class " ++ name ++ "(pd.DataFrame):" ++ nl ++ nl ++ join nl (map fst parts) ++ nl
           ++ match s_pandas s with
              | PFull => template_no_pd_end ("Literal[" ++ join ", " literals ++ "]" ++ extra)
              | _ => template_end "str"
              end,
           ("pandas" :: frame_imports ++ flat_map snd parts)%list)) by (subst l; reflexivity).
  rewrite T. clear T. cbv zeta. cbn [fst]. clear El Ne.
  assert (P : map fst (flat_map (fun c =>
            match fst c with
            | LAtom a => if literal a then [(overload (repr_atom a) (hint_of s (snd c)), if fperm s (snd c) then [] else snd (ftop s (snd c)))] else []
            | LTuple _ => []
            end) l) = map (fun c => overload_text (fst c) (snd c)) (combine (map repr_atom keys) (map (hint_of s) (map snd l))) /\
     flat_map (fun c => match fst c with LAtom a => if literal a then [repr_atom a] else [] | _ => [] end) l = map repr_atom keys /\
     forallb (fun c => match fst c with LAtom a => literal a | _ => false end) l = true).
  { revert keys E S1. induction l as [|[k c] l IH]; intros [|a keys] E S1; try discriminate; auto. cbn [map fst snd flat_map combine forallb] in *. injection E as -> E. inversion S1; subst.
    rewrite (proj1 (simple_literal a)) by auto. destruct (IH keys E H2) as (I1 & I2 & I3). cbn [app map fst andb]. rewrite I1, I2, I3. auto. }
  destruct P as (-> & -> & ->). change eol with nl. destruct (s_pandas s); auto.
Qed.

(** ** Order of the declarations *)
Section FtreeInd.
  Variable P : ftree -> Prop.
  Hypothesis HL : forall t, P (FLeaf t).
  Hypothesis HN : forall n d cols cs, (forall c, In c cs -> P (snd c)) -> P (FNode n d cols cs).
  Fixpoint ftree_ind' (t : ftree) : P t :=
    match t with
    | FLeaf t => HL t
    | FNode n d cols cs => HN n d cols cs ((fix go l : forall c, In c l -> P (snd c) :=
        match l with [] => fun c (H : In c []) => match H with end
        | c0 :: r => fun c H => match H with or_introl E => match E in _ = y return P (snd y) with eq_refl => ftree_ind' (snd c0) end | or_intror H => go r c H end end) cs)
    end.
End FtreeInd.

Definition fchildren (t : ftree) : list ftree := match t with FLeaf _ => [] | FNode _ _ _ cs => map snd cs end.
Definition fordered (s : strategies) (l : list ftree) : Prop :=
  forall a n b, l = (a ++ n :: b)%list -> forall c, In c (fchildren n) -> fperm s c = true -> In c a.
Lemma fordered_app s l m : fordered s l -> (forall a n b, m = (a ++ n :: b)%list -> forall c, In c (fchildren n) -> fperm s c = true -> In c (l ++ a)) -> fordered s (l ++ m).
Proof.
  intros H G a n b E c Hc Pc.
  assert (Q : (exists k, l = (a ++ n :: k)%list) \/ exists k, a = (l ++ k)%list /\ m = (k ++ n :: b)%list).
  { clear -E. revert a E. induction l as [|x l IH]; intros a E; [right; exists a; auto|]. destruct a as [|y a]; cbn [app] in E; injection E as -> E.
    - left. exists l. reflexivity.
    - destruct (IH a E) as [(k & ->)|(k & -> & ->)]; [left; now exists k|right; now exists k]. }
  destruct Q as [(k & ->)|(k & -> & ->)]; [exact (H _ _ _ eq_refl c Hc Pc)|]. now apply (G k n b).
Qed.
Lemma fordered_app' s l m : fordered s l -> fordered s m -> fordered s (l ++ m).
Proof. intros H G. apply fordered_app; auto. intros a n b E c Hc Pc. apply in_or_app. right. eapply G; eauto. Qed.
Lemma single_split {A} (x : A) a n b : [x] = (a ++ n :: b)%list -> a = [] /\ x = n /\ b = [].
Proof. destruct a as [|y [|]]; cbn; intros E; injection E as -> E; auto; try discriminate. Qed.
Lemma fcollect_node s n d cols cs : cs <> [] -> fcollect s (FNode n d cols cs) =
  (flat_map (fun c => fcollect s (snd c) ++ (if fperm s (snd c) then [snd c] else [])) cs ++ (if fperm s (FNode n d cols cs) then [FNode n d cols cs] else []))%list.
Proof. destruct cs; [congruence|reflexivity]. Qed.
(** All permitted children are collected, unless the node has none. *)
Lemma fcollect_children s t c : In c (fchildren t) -> fperm s c = true -> forall n d cols cs, t = FNode n d cols cs ->
  In c (flat_map (fun c => fcollect s (snd c) ++ (if fperm s (snd c) then [snd c] else [])) cs)%list.
Proof.
  intros Hc Pc n d cols cs ->. cbn [fchildren] in Hc. apply in_map_iff in Hc as (e & <- & He). apply in_flat_map. exists e. split; auto. apply in_or_app. right. rewrite Pc. now left.
Qed.
Lemma fcollect_ordered s t : fordered s (fcollect s t).
Proof.
  induction t as [t|n d cols cs IH] using ftree_ind'.
  - cbn [fcollect]. intros a n b E c Hc Pc. assert (In n (map FLeaf (collect s t))) by (rewrite E; apply in_elt). apply in_map_iff in H as (u & <- & _). destruct Hc.
  - destruct cs as [|c0 cs].
    + cbn [fcollect]. destruct (_ && _); intros a x b E c Hc Pc; [apply single_split in E as (-> & <- & ->)|destruct a; discriminate]. destruct Hc.
    + rewrite fcollect_node by discriminate. remember (c0 :: cs) as l. clear Heql c0 cs. apply fordered_app.
      * assert (G : forall m, incl m l -> fordered s (flat_map (fun c => fcollect s (snd c) ++ (if fperm s (snd c) then [snd c] else [])) m)%list).
        { induction m as [|e m IHm]; intros I; [intros a x b E; destruct a; discriminate|]. cbn [flat_map]. apply fordered_app'; [|apply IHm; intros y Hy; apply I; now right].
          pose proof (IH e (I e (or_introl eq_refl))) as He. apply fordered_app; auto. destruct (fperm s (snd e)) eqn:Pe; intros a x b E c Hc Pc; [|destruct a; discriminate].
          apply single_split in E as (-> & <- & ->). rewrite app_nil_r. destruct (snd e) as [u|n' d' cols' cs'] eqn:Ee; [destruct Hc|]. destruct cs' as [|c1 cs']; [destruct Hc|].
          rewrite fcollect_node by discriminate. apply in_or_app. left. eapply fcollect_children; eauto. }
        apply G. intros x Hx. exact Hx.
      * destruct (fperm s (FNode n d cols l)); intros a x b E c Hc Pc; [|destruct a; discriminate]. apply single_split in E as (-> & <- & ->). rewrite app_nil_r.
        eapply fcollect_children; eauto.
Qed.

Lemma frame_declarations_firsts s t : frame_declarations s t = map (fun n => fst (ftop s n)) (firsts (fun n => fst (ftop s n)) [] (fcollect s t)).
Proof. unfold frame_declarations, oset_as_list. rewrite oset_firsts; auto. cbn. tauto. Qed.
Lemma declared_first s t d1 x d2 : frame_declarations s t = (d1 ++ x :: d2)%list ->
  exists n, In n (fcollect s t) /\ x = fst (ftop s n) /\ forall c, In c (fchildren n) -> fperm s c = true -> In (fst (ftop s c)) d1.
Proof.
  rewrite frame_declarations_firsts. intros E. apply map_split in E as (l1 & n & l2 & E & <- & <- & <-). pose proof E as E0.
  apply firsts_split in E as (p & q & Ef & _ & Hp). exists n. split; [rewrite Ef; apply in_elt|]. split; auto. intros c Hc Pc.
  assert (In c p) by (eapply (fcollect_ordered s t); eauto). destruct (Hp c H) as [[]|]; auto.
Qed.

(** ** Imports *)
Lemma ftop_known s t x : In x (snd (ftop s t)) -> known_kw x.
Proof.
  induction t as [t|n d cols cs IH] using ftree_ind'; [apply top_known|]. destruct cs as [|c0 cs].
  - cbn [ftop snd]. intros H. kws H.
  - cbn [ftop snd]. remember (c0 :: cs) as l. intros [<-|H]; [kw|]. apply in_app_or in H as [H|H]; [unfold frame_imports in H; kws H|].
    apply in_flat_map in H as ([a b] & Hp & H). apply in_flat_map in Hp as (c & Hc & Hp). destruct (fst c) as [k|]; [|destruct Hp]. destruct (literal k); [|destruct Hp].
    destruct Hp as [E|[]]. injection E as <- <-. cbn [snd] in H. destruct (fperm s (snd c)); [destruct H|]. apply (IH c); auto.
Qed.
Lemma frame_recorded_known s t x : In x (frame_recorded s t) -> known_kw x.
Proof. unfold frame_recorded. intros H. apply EmitFacts.imp_adds_In in H as [H|[]]. apply in_flat_map in H as (n & _ & H). eapply ftop_known; eauto. Qed.
Lemma frame_text_some s t : exists text, frame_text s t = Some text.
Proof.
  unfold frame_text. destruct (format_imports 90 (frame_recorded s t)) eqn:E; cbn [option_map]; eauto. exfalso.
  destruct (BaseProofs.import_block_content 90 (flat_map (fun n => snd (ftop s n)) (fcollect s t)) (frame_recorded s t)) as [[H _] _]; [lia|apply Permutation_refl|].
  destruct (H E) as (k & Hk & N). apply N. apply in_flat_map in Hk as (n & _ & Hk). eapply ftop_known; eauto.
Qed.
(** The names that the class of a frame uses. *)
Lemma frame_class_imports s t name d cols cs : In (FNode name d cols cs) (fcollect s t) -> cs <> [] -> incl ("pandas" :: frame_imports) (frame_recorded s t).
Proof.
  intros H N x Hx. unfold frame_recorded. apply EmitFacts.imp_adds_In. left. apply in_flat_map. exists (FNode name d cols cs). split; auto.
  destruct cs as [|c cs]; [congruence|]. cbn [ftop snd]. destruct Hx as [<-|Hx]; [now left|]. right. apply in_or_app. now left.
Qed.

(** ** Totality *)
Definition ordinary_frame (f : frame) : Prop :=
  match f with
  | Flat cols => (forall c, In c cols -> exists a, fst c = LAtom a) /\ forall c, In c cols -> ordinary_types (VSeq KSeries ty_series (snd c))
  | Multi cols => forall c, In c cols -> ordinary_types (VSeq KSeries ty_series (snd c))
  end.
Lemma ordinary_lower cols : (forall c, In c cols -> ordinary_types (VSeq KSeries ty_series (snd c))) -> ordinary_frame (lower cols).
Proof.
  intros H. unfold lower. destruct (forallb _ cols); cbn [ordinary_frame]; auto. split; intros c Hc; apply in_flat_map in Hc as (c' & Hc' & Hc); destruct (fst c') as [|a [|]]; try destruct Hc as [<-|[]]; try destruct Hc; cbn [fst snd]; eauto.
Qed.
Lemma ordinary_get f l : ordinary_frame f -> match get f l with Some (ASeries vs) => ordinary_types (VSeq KSeries ty_series vs) | Some (AFrame g) => ordinary_frame g | None => True end.
Proof.
  intros H. destruct f as [cols|cols]; cbn [get].
  - destruct H as [H1 H2]. assert (F : forall c, In c (filter (fun c => label_eqb l (fst c)) cols) -> In c cols) by (intros c Hc; apply filter_In in Hc; apply Hc).
    destruct (filter _ cols) as [|c [|c2 cs]]; auto; [apply H2, F; now left|]. split; intros x Hx; [apply H1|apply H2]; now apply F.
  - destruct l as [a|]; auto. cbn [ordinary_frame] in H. set (cs := filter _ cols). assert (F : forall c, In c cs -> ordinary_types (VSeq KSeries ty_series (snd c))) by (intros c Hc; apply filter_In in Hc; apply H, Hc).
    clearbody cs. destruct cs as [|c cs]; auto. destruct (forallb _ _); [exact F|].
    assert (Lo : ordinary_frame (lower (map (fun c => (tl (fst c), snd c)) (c :: cs)))).
    { apply ordinary_lower. intros x Hx. apply in_map_iff in Hx as (y & <- & Hy). cbn [snd]. auto. }
    destruct c as [[|x rest] vs]; [exact Lo|]. destruct cs; [|exact Lo]. clear Lo. specialize (F _ (or_introl eq_refl)). cbn [snd] in F. clear -F.
    induction rest as [|y rest IH]; cbn [peel]; auto. assert (Q : ordinary_frame (lower [(y :: rest, vs)])) by (apply ordinary_lower; intros c [<-|[]]; auto).
    destruct y as [[|]| | |]; auto.
Qed.
Lemma suffix_word l : str_forall word_char (column_suffix l) = true.
Proof. unfold column_suffix. pose proof (camel_word (str_label l)) as H. destruct (to_camel_case (str_label l)); auto. Qed.
Lemma build_series_ok s ord name d vs : valid s -> set_like ord -> ordinary_types (VSeq KSeries ty_series vs) -> is_compatible name = true -> exists t, build_series s ord name d vs = FOk (FLeaf t).
Proof.
  intros Hs Ho Hv Hn. unfold build_series.
  destruct (build_total s ord Ho (valid_merge s Hs) W_all W_all_closed (W_all_str _) (S (vdepth (VSeq KSeries ty_series vs))) name d false (VSeq KSeries ty_series vs)) as (t & E & _); auto using named_all, W_all_str.
  rewrite E. eauto.
Qed.
Lemma build_columns_no_error child ls : (forall l, In l ls -> forall e, child l <> FErr e) -> forall cs e, build_columns child ls cs <> FErr e.
Proof.
  induction ls as [|l ls IH]; intros H cs e; cbn [build_columns]; [discriminate|]. pose proof (H l (or_introl eq_refl)) as Hl. destruct (child l); cbn [fbind]; try discriminate; [|exfalso; now apply (Hl e0)].
  apply IH. intros; apply H. now right.
Qed.
Lemma frame_no_error s ord : valid s -> set_like ord -> forall fuel f name d e, ordinary_frame f -> is_compatible name = true -> build_frame s ord fuel name d f <> FErr e.
Proof.
  intros Hs Ho. induction fuel as [|fuel IH]; intros f name d e Hf Hn; cbn [build_frame]; rewrite Hn; cbn [negb];
    destruct (negb (literal_columns (columns f))), (forallb one_tuple (columns f)); try discriminate.
  match goal with |- fbind ?x _ <> _ => assert (Hx : forall e, x <> FErr e); [|destruct x as [| e0 |]; cbn; try discriminate; intros _; now apply (Hx e0)] end.
  apply build_columns_no_error. intros l Hl e'. pose proof (ordinary_get f l Hf) as G.
  assert (N : get f l <> None).
  { clear IH G. destruct f as [cols|cols].
    - cbn [ordinary_frame columns] in *. destruct Hf as [Hf _]. assert (Hl' : In l (map fst cols)).
      { unfold looked_up in Hl. destruct (forallb is_tuple (map fst cols)) eqn:E; auto. destruct cols as [|c cols]; [cbn in Hl; destruct Hl|]. destruct (Hf c (or_introl eq_refl)) as (a & Ea). cbn [map forallb] in E. rewrite Ea in E. discriminate. }
      apply in_map_iff in Hl' as (c & <- & Hc). destruct (Hf c Hc) as (a & Ea). cbn [get].
      assert (I : In c (filter (fun c0 => label_eqb (fst c) (fst c0)) cols)) by (apply filter_In; split; auto; rewrite Ea; apply atom_eqb_refl).
      destruct (filter _ cols) as [|? [|]]; [destruct I|discriminate|discriminate].
    - destruct (looked_up_multi _ _ Hl) as (a & r & -> & Ha). cbn [columns] in Ha. apply in_map_iff in Ha as (c & Ec & Hc). injection Ec as Ec. cbn [get].
      assert (I : In c (filter (fun c : list atom * list pyval => match fst c with b :: _ => atom_eqb a b | [] => false end) cols)) by (apply filter_In; split; auto; rewrite Ec; apply atom_eqb_refl).
      destruct (filter _ cols) as [|? ?]; [destruct I|]. destruct (forallb _ _); [discriminate|]. destruct p as [[|] ?]; [discriminate|]. destruct l; discriminate. }
  assert (Hn' : is_compatible (name ++ column_suffix l) = true) by (apply is_compatible_app; auto using suffix_word).
  destruct (get f l) as [[vs|g]|]; [|now apply IH|congruence]. destruct (build_series_ok s ord (name ++ column_suffix l) (S d) vs Hs Ho G Hn') as (t & ->). discriminate.
Qed.

(** ** Leaves *)
Definition is_series (u : tree) : Prop := match u with Node i _ => i_kind i = NSeq KSeries end.
Fixpoint leaves (t : ftree) : Prop :=
  match t with FLeaf u => is_series u | FNode _ _ _ cs => (fix go l := match l with [] => True | c :: r => leaves (snd c) /\ go r end) cs end.
Lemma leaves_node n d cols cs : leaves (FNode n d cols cs) <-> forall c, In c cs -> leaves (snd c).
Proof.
  cbn [leaves]. induction cs as [|c cs IH]; [split; [intros _ c []|auto]|]. rewrite IH. split.
  - intros [H1 H2] x [<-|Hx]; auto.
  - intros H. split; [apply H; now left|]. intros x Hx. apply H. now right.
Qed.
Lemma leaves_child n c : leaves n -> In c (fchildren n) -> leaves c.
Proof. destruct n as [u|m d cols cs]; cbn [fchildren]; [intros _ []|]. intros H Hc. apply in_map_iff in Hc as (e & <- & He). apply (proj1 (leaves_node _ _ _ _) H e He). Qed.
Lemma lset_values {A} k (v : A) cs c : In c (lset k v cs) -> snd c = v \/ In (snd c) (map snd cs).
Proof.
  induction cs as [|[k' v'] cs IH]; cbn [lset]; [intros [<-|[]]; auto|]. destruct (label_eqb k k').
  - intros [<-|H]; [now left|]. right. right. apply in_map. exact H.
  - intros [<-|H]; [right; now left|]. destruct (IH H); [now left|right; now right].
Qed.
Lemma build_columns_values (P : ftree -> Prop) child ls : (forall l c, In l ls -> child l = FOk c -> P c) ->
  forall cs r, (forall c, In c cs -> P (snd c)) -> build_columns child ls cs = FOk r -> forall c, In c r -> P (snd c).
Proof.
  induction ls as [|l ls IH]; intros H cs r G E c Hc; cbn [build_columns] in E; [injection E as <-; auto|].
  destruct (child l) as [x|e|] eqn:Ex; try discriminate. cbn [fbind] in E. eapply IH; [|clear Hc|exact E|exact Hc].
  - intros l' c' Hl'. apply H. now right.
  - intros c' Hc'. apply lset_values in Hc' as [->|Hc']; [apply (H l); auto; now left|]. apply in_map_iff in Hc' as (y & <- & Hy). auto.
Qed.
Lemma series_kind s ord fuel name d r k ty vs u : build s ord (S fuel) name d r (VSeq k ty vs) = Ok u -> match u with Node i _ => i_kind i = NSeq k end.
Proof.
  cbn [build]. destruct (negb (is_compatible name)); [discriminate|]. intros H. match type of H with bind ?x _ = _ => destruct x; try discriminate end.
  cbn [bind] in H. injection H as <-. reflexivity.
Qed.
Lemma build_leaves s ord : forall fuel name d f t, build_frame s ord fuel name d f = FOk t -> leaves t.
Proof.
  induction fuel as [|fuel IH]; intros name d f t H; cbn [build_frame] in H; destruct (negb (is_compatible name)); try discriminate;
    (destruct (negb (literal_columns (columns f))); [injection H as <-; exact I|]); (destruct (forallb one_tuple (columns f)); [injection H as <-; exact I|]); [discriminate|].
  match type of H with fbind ?x _ = _ => destruct x as [cs|e|] eqn:E; try discriminate end. injection H as <-. apply leaves_node.
  apply (build_columns_values leaves _ _) with (2 := fun c (H : In c []) => match H with end) (3 := E). intros l c _ Hc. cbv beta in Hc. destruct (get f l) as [[vs|g]|]; [|eapply IH; eauto|discriminate].
  unfold build_series in Hc. destruct (build _ _ _ _ _ _ _) as [u|[]|] eqn:B; try discriminate. injection Hc as <-. apply series_kind in B. exact B.
Qed.
Lemma leaves_collect s t n : leaves t -> In n (fcollect s t) -> match n with FLeaf _ => True | FNode _ _ _ _ => leaves n end.
Proof.
  induction t as [t|m d cols cs IH] using ftree_ind'; intros L H.
  - cbn [fcollect] in H. apply in_map_iff in H as (u & <- & _). exact I.
  - destruct cs as [|c0 cs].
    + cbn [fcollect] in H. destruct (_ && _); [|destruct H]. destruct H as [<-|[]]. exact L.
    + rewrite fcollect_node in H by discriminate. apply in_app_or in H as [H|H].
      * apply in_flat_map in H as (c & Hc & H). pose proof (proj1 (leaves_node _ _ _ _) L c Hc) as Lc. apply in_app_or in H as [H|H]; [now apply (IH c Hc Lc)|].
        destruct (fperm s (snd c)); [|destruct H]. destruct H as [<-|[]]. destruct (snd c); auto.
      * destruct (fperm s _); [|destruct H]. destruct H as [<-|[]]. exact L.
Qed.
Lemma series_top s u : is_series u -> exists r, fst (top s u) = tname u ++ ": TypeAlias = " ++ r.
Proof.
  destruct u as [i cs]. cbn [is_series]. intros E. cbn [top]. rewrite E. cbv zeta. destruct (seq_container s KSeries (i_type i)) as [c ci].
  destruct (types_of _) as [a b]. cbn [fst]. eexists. reflexivity.
Qed.
