(** The strategy for data frames is read for the last part of a class only. *)
From Coq Require Import Ascii String List Bool Arith.
From Verif Require Import PyStr Utils Strategies Dispatch Values Tree Build Emit TreeFacts BuildFacts AlikeFacts Frame.
Import ListNotations.
Local Open Scope string_scope.
Local Open Scope nat_scope.

Definition with_pandas (p : pandas_strategy) (s : strategies) : strategies :=
  Strategies (s_list s) (s_tuple s) (s_dict s) p (s_min_height s) (s_key_doc s) (s_merge s) (s_read_only s) (s_max_n s).

Section Pandas.
  Variables (p : pandas_strategy) (s : strategies).
  Let s' := with_pandas p s.
  Lemma pandas_alike : alike s' s. Proof. repeat split. Qed.
  Lemma pandas_perm t : perm s' t = perm s t. Proof. reflexivity. Qed.
  Lemma pandas_top t : top s' t = top s t.
  Proof.
    induction t as [i cs IH] using tree_ind'. rewrite Forall_forall in IH. cbn [top].
    assert (E : map (fun e : key * nat * tree => (fst (fst e), (snd e, top s' (snd e)))) cs = map (fun e => (fst (fst e), (snd e, top s (snd e)))) cs).
    { apply map_ext_in. intros e He. now rewrite (IH e He). }
    rewrite E. reflexivity.
  Qed.
  Lemma pandas_collect t : collect s' t = collect s t.
  Proof.
    induction t as [i cs IH] using tree_ind'. rewrite Forall_forall in IH. cbn [collect]. destruct cs as [|e cs]; [reflexivity|].
    set (l := e :: cs) in *. f_equal. f_equal. f_equal. apply map_ext_in. intros x Hx. now rewrite (IH x Hx).
  Qed.
  Lemma pandas_build_frame ord : forall fuel name d f, build_frame s' ord fuel name d f = build_frame s ord fuel name d f.
  Proof.
    induction fuel as [|n IH]; intros name d f; cbn [build_frame]; auto. destruct (negb (is_compatible name)); auto. destruct (negb _); auto. destruct (forallb _ _); auto. f_equal.
    generalize (@nil (label * ftree)). generalize (looked_up (columns f)). induction l as [|a l IHl]; intros cs; cbn [build_columns]; auto.
    assert (Q : match get f a with None => FErr (FKey a) | Some (ASeries vs) => build_series s' ord (name ++ column_suffix a) (S d) vs
                | Some (AFrame g) => build_frame s' ord n (name ++ column_suffix a) (S d) g end =
                match get f a with None => FErr (FKey a) | Some (ASeries vs) => build_series s ord (name ++ column_suffix a) (S d) vs
                | Some (AFrame g) => build_frame s ord n (name ++ column_suffix a) (S d) g end).
    { destruct (get f a) as [[vs|g]|]; auto. unfold build_series. now rewrite (alike_build s' s pandas_alike). }
    rewrite Q. clear Q. match goal with |- fbind ?x _ = _ => destruct x end; cbn [fbind]; auto.
  Qed.
  Lemma pandas_fperm t : fperm s' t = fperm s t. Proof. destruct t; reflexivity. Qed.
End Pandas.

Lemma pandas_fcollect p s : forall t, fcollect (with_pandas p s) t = fcollect s t.
Proof.
  fix F 1. intros [t|name d cols cs]; cbn [fcollect]; [now rewrite pandas_collect|]. destruct cs as [|c cs]; [now rewrite pandas_fperm|].
  rewrite pandas_fperm. f_equal. set (l := c :: cs). clearbody l. clear c cs.
  induction l as [|[k c] l IH]; cbn [flat_map snd]; auto. rewrite (F c), pandas_fperm, IH. reflexivity.
Qed.
Lemma pandas_ftop p q s : (p = PFull <-> q = PFull) -> forall t, ftop (with_pandas p s) t = ftop (with_pandas q s) t.
Proof.
  intros E. fix F 1. intros [t|name d cols cs]; cbn [ftop]; [now rewrite !pandas_top|].
  assert (Q : map (fun c => (fst c, (fperm (with_pandas p s) (snd c), fname (snd c), ftop (with_pandas p s) (snd c)))) cs =
              map (fun c => (fst c, (fperm (with_pandas q s) (snd c), fname (snd c), ftop (with_pandas q s) (snd c)))) cs).
  { induction cs as [|[k c] l IH]; cbn [map fst snd]; auto. rewrite (F c), !pandas_fperm, IH. reflexivity. }
  clear F. destruct cs as [|c0 cs0] eqn:C; auto. rewrite <- C in *. clear C c0 cs0. cbv zeta. apply f_equal2; [|apply f_equal, f_equal].
  - do 5 apply f_equal. apply f_equal2.
    + apply f_equal. induction cs as [|[k c] l IH]; auto. cbn [map fst snd flat_map] in *. injection Q as Q1 Q2. rewrite !map_app, IH by auto. apply (f_equal2 (@app string)); auto.
      rewrite !pandas_fperm, Q1. destruct k as [a|]; auto.
    + cbn [s_pandas with_pandas]. destruct E as [E1 E2]. destruct p, q; try reflexivity; (specialize (E1 eq_refl); discriminate) || (specialize (E2 eq_refl); discriminate).
  - induction cs as [|[k c] l IH]; auto. cbn [map fst snd flat_map] in *. injection Q as Q1 Q2. rewrite !flat_map_app, IH by auto. apply (f_equal2 (@app string)); auto.
    rewrite !pandas_fperm, Q1. destruct k as [a|]; auto.
Qed.
Lemma pandas_declarations p q s t : (p = PFull <-> q = PFull) -> frame_declarations (with_pandas p s) t = frame_declarations (with_pandas q s) t.
Proof.
  intros E. unfold frame_declarations. rewrite !pandas_fcollect. f_equal. f_equal. apply map_ext. intros n. now rewrite (pandas_ftop p q s E).
Qed.
Lemma pandas_text p q s t : (p = PFull <-> q = PFull) -> frame_text (with_pandas p s) t = frame_text (with_pandas q s) t.
Proof.
  intros E. unfold frame_text. rewrite (pandas_declarations p q s t E). unfold frame_recorded. rewrite !pandas_fcollect. f_equal. f_equal. f_equal.
  apply flat_map_ext. intros n. now rewrite (pandas_ftop p q s E).
Qed.
