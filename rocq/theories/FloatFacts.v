(** The similarity percentage: what the two roundings of binary64 do to [100 * (common / total)]. *)
From Coq Require Import ZArith Bool Lia.
From Coq Require Import Floats.SpecFloat.
From Verif Require Import Build.
Local Open Scope Z_scope.

Lemma digits_bounds p : 2 ^ (Zpos (digits2_pos p) - 1) <= Zpos p < 2 ^ Zpos (digits2_pos p).
Proof.
  induction p as [p IH|p IH|]; cbn [digits2_pos].
  - rewrite Pos2Z.inj_succ. change (Zpos p~1) with (2 * Zpos p + 1). remember (Zpos (digits2_pos p)) as d eqn:E. assert (1 <= d) by lia.
    replace (Z.succ d - 1) with (Z.succ (d - 1)) by lia. pose proof (Z.pow_succ_r 2 d ltac:(lia)) as E1. pose proof (Z.pow_succ_r 2 (d - 1) ltac:(lia)) as E2. rewrite E1, E2. lia.
  - rewrite Pos2Z.inj_succ. change (Zpos p~0) with (2 * Zpos p). remember (Zpos (digits2_pos p)) as d eqn:E. assert (1 <= d) by lia.
    replace (Z.succ d - 1) with (Z.succ (d - 1)) by lia. pose proof (Z.pow_succ_r 2 d ltac:(lia)) as E1. pose proof (Z.pow_succ_r 2 (d - 1) ltac:(lia)) as E2. rewrite E1, E2. lia.
  - split; reflexivity || (intro; discriminate).
Qed.
Lemma digits_range m a b : 0 <= a -> 2 ^ a <= m < 2 ^ b -> a < Zdigits2 m <= b.
Proof.
  intros Ha [H1 H2]. assert (0 < 2 ^ a) by lia. destruct m as [|p|p]; try lia. cbn [Zdigits2].
  pose proof (digits_bounds p) as [D1 D2]. set (d := Zpos (digits2_pos p)) in *. assert (1 <= d) by (unfold d; lia). split.
  - assert (2 ^ a < 2 ^ d) by lia. now apply Z.pow_lt_mono_r_iff in H3; try lia.
  - assert (2 ^ (d - 1) < 2 ^ b) by lia. apply Z.pow_lt_mono_r_iff in H3; try lia.
    destruct (Z.neg_nonneg_cases b); [|lia]. rewrite (Z.pow_neg_r 2 b) in H2 by lia. lia.
Qed.
Lemma digits_exact m a : 0 <= a -> 2 ^ a <= m < 2 ^ (a + 1) -> Zdigits2 m = a + 1.
Proof. intros Ha H. apply digits_range in H; lia. Qed.

Lemma shr_1_m r : 0 <= shr_m r -> shr_m (shr_1 r) = shr_m r / 2.
Proof.
  destruct r as [m r s]. cbn [shr_m]. intros H. destruct m as [|[p|p|]|p]; cbn [shr_1 shr_m]; try lia; try reflexivity.
  - change (Zpos p~1) with (2 * Zpos p + 1). rewrite Z.mul_comm, Z.div_add_l by lia. change (1 / 2) with 0. lia.
  - change (Zpos p~0) with (2 * Zpos p). rewrite Z.mul_comm, Z.div_mul by lia. reflexivity.
Qed.
Lemma iter_shr p : forall r, 0 <= shr_m r -> shr_m (iter_pos shr_1 p r) = shr_m r / 2 ^ Zpos p.
Proof.
  induction p as [p IH|p IH|]; intros r H; cbn [iter_pos].
  - rewrite IH, IH, shr_1_m; [|assumption|rewrite shr_1_m by assumption; now apply Z.div_pos|
      rewrite IH by (rewrite shr_1_m by assumption; apply Z.div_pos; lia); apply Z.div_pos; [|apply Z.pow_pos_nonneg; lia]; rewrite shr_1_m by assumption; apply Z.div_pos; lia].
    rewrite !Z.div_div by (try lia; apply Z.pow_pos_nonneg; lia). f_equal.
    replace (Zpos p~1) with (1 + Zpos p + Zpos p) by lia. rewrite (Z.pow_add_r 2 (1 + Zpos p)), (Z.pow_add_r 2 1), Z.pow_1_r by lia. ring.
  - rewrite IH, IH; [|assumption|rewrite IH by assumption; apply Z.div_pos; [assumption|apply Z.pow_pos_nonneg; lia]].
    rewrite !Z.div_div by (try lia; apply Z.pow_pos_nonneg; lia). f_equal.
    replace (Zpos p~0) with (Zpos p + Zpos p) by lia. rewrite Z.pow_add_r by lia. reflexivity.
  - apply shr_1_m; assumption.
Qed.
Lemma shr_spec r e n : 0 <= n -> 0 <= shr_m r -> shr_m (fst (shr r e n)) = shr_m r / 2 ^ n /\ snd (shr r e n) = e + n.
Proof.
  intros Hn Hr. destruct n as [|p|p]; try lia; cbn [shr fst snd].
  - rewrite Z.pow_0_r, Z.div_1_r. lia.
  - rewrite iter_shr by assumption. auto.
Qed.
Lemma rne_cases m l : round_nearest_even m l = m \/ round_nearest_even m l = m + 1.
Proof. destruct l as [|[]]; cbn; auto. destruct (Z.even m); auto. Qed.

(** Rounding a number of at least 53 binary digits: the result is one of the two neighbours. *)
Lemma round_aux m e l : 2 ^ 52 <= m -> -1000 <= e <= 500 -> Zdigits2 m <= 200 ->
  let sh := Zdigits2 m - 53 in
  exists m' e' R, binary_round_aux 53 1024 false m e l = S754_finite false m' e' /\
    2 ^ 52 <= Zpos m' < 2 ^ 53 /\ 0 <= e' - (e + sh) <= 1 /\ Zpos m' * 2 ^ (e' - (e + sh)) = R /\
    (R = m / 2 ^ sh \/ R = m / 2 ^ sh + 1).
Proof.
  intros Hm He Hd sh. destruct m as [|p|p]; try lia. pose proof (digits_bounds p) as D.
  change (Zdigits2 (Zpos p)) with (Zpos (digits2_pos p)) in *. set (d := Zpos (digits2_pos p)) in *.
  assert (Hd' : 53 <= d).
  { assert (52 < Zdigits2 (Zpos p) <= d); [|cbn [Zdigits2] in *; unfold d; lia]. apply digits_range; [lia|]. split; [assumption|apply D]. }
  assert (Hs : 0 <= sh) by (unfold sh; lia).
  assert (Esh : fexp 53 1024 (d + e) - e = sh). { unfold fexp, emin. unfold sh. lia. }
  unfold binary_round_aux, shr_fexp at 1. change (Zdigits2 (Zpos p)) with d. rewrite Esh.
  destruct (shr_spec (shr_record_of_loc (Zpos p) l) e sh) as [S1 S2]; [assumption|destruct l as [|[]]; cbn; lia|].
  destruct (shr (shr_record_of_loc (Zpos p) l) e sh) as [mrs e1]. cbn [fst snd] in S1, S2. subst e1.
  replace (shr_m (shr_record_of_loc (Zpos p) l)) with (Zpos p) in S1 by (now destruct l as [|[]]).
  set (M := Zpos p / 2 ^ sh) in *.
  assert (HM : 2 ^ 52 <= M < 2 ^ 53).
  { assert (0 < 2 ^ sh) by (apply Z.pow_pos_nonneg; lia).
    replace (d - 1) with (52 + sh) in D by (unfold sh; lia). replace d with (53 + sh) in D by (unfold sh; lia).
    rewrite !Z.pow_add_r in D by lia. unfold M. split.
    - apply Z.div_le_lower_bound; lia.
    - apply Z.div_lt_upper_bound; lia. }
  destruct (rne_cases (shr_m mrs) (loc_of_shr_record mrs)) as [E|E]; rewrite E, S1.
  - unfold shr_fexp. assert (ED : Zdigits2 M = 53) by (apply (digits_exact M 52); lia). rewrite ED.
    replace (fexp 53 1024 (53 + (e + sh)) - (e + sh)) with 0 by (unfold fexp, emin; lia). cbn [shr shr_record_of_loc shr_m].
    destruct M as [|q|q]; try lia. replace (e + sh <=? 1024 - 53) with true by (symmetry; apply Z.leb_le; lia).
    exists q, (e + sh), (Zpos q). split; [reflexivity|]. split; [lia|]. split; [lia|]. rewrite Z.sub_diag, Z.pow_0_r. split; [lia|]. auto.
  - destruct (Z.eq_dec (M + 1) (2 ^ 53)) as [EM|NM].
    + unfold shr_fexp. rewrite EM. change (Zdigits2 (2 ^ 53)) with 54.
      replace (fexp 53 1024 (54 + (e + sh)) - (e + sh)) with 1 by (unfold fexp, emin; lia).
      cbn [shr shr_record_of_loc iter_pos]. change (shr_m (shr_1 {| shr_m := 2 ^ 53; shr_r := false; shr_s := false |})) with (2 ^ 52).
      change (2 ^ 52) with 4503599627370496 at 1. cbv iota.
      replace (e + sh + 1 <=? 1024 - 53) with true by (symmetry; apply Z.leb_le; lia).
      exists 4503599627370496%positive, (e + sh + 1), (2 ^ 53). split; [reflexivity|]. split; [lia|]. split; [lia|].
      replace (e + sh + 1 - (e + sh)) with 1 by lia. split; [reflexivity|]. right. lia.
    + unfold shr_fexp. assert (ED : Zdigits2 (M + 1) = 53) by (apply (digits_exact (M + 1) 52); lia). rewrite ED.
      replace (fexp 53 1024 (53 + (e + sh)) - (e + sh)) with 0 by (unfold fexp, emin; lia). cbn [shr shr_record_of_loc shr_m].
      destruct (M + 1) as [|q|q] eqn:EM; try lia. replace (e + sh <=? 1024 - 53) with true by (symmetry; apply Z.leb_le; lia).
      exists q, (e + sh), (Zpos q). split; [reflexivity|]. split; [lia|]. split; [lia|]. rewrite Z.sub_diag, Z.pow_0_r. split; [lia|]. right. lia.
Qed.

(** Small naturals are represented exactly, with 53 digits. *)
Lemma float_of_nat_spec n : (0 < n)%nat -> Z.of_nat n < 2 ^ 53 ->
  exists m a, float_of_nat n = S754_finite false m (a - 53) /\ 1 <= a <= 53 /\
    2 ^ (a - 1) <= Z.of_nat n < 2 ^ a /\ Zpos m = Z.of_nat n * 2 ^ (53 - a) /\ 2 ^ 52 <= Zpos m < 2 ^ 53.
Proof.
  intros Hn Hb. unfold float_of_nat, binary_normalize. destruct (Z.of_nat n) as [|p|p] eqn:E; try lia.
  pose proof (digits_bounds p) as D. set (a := Zpos (digits2_pos p)) in *.
  assert (Ha : 1 <= a <= 53).
  { split; [unfold a; lia|]. assert (0 < Zdigits2 (Zpos p) <= 53); [|cbn [Zdigits2] in *; unfold a; lia]. apply digits_range; [lia|]. rewrite Z.pow_0_r. lia. }
  unfold binary_round. fold a. replace (a + 0) with a by lia.
  replace (fexp 53 1024 a) with (a - 53) by (unfold fexp, emin; lia). unfold shl_align.
  assert (G : exists mz, (match a - 53 - 0 with Zneg d => (shift_pos d p, a - 53) | _ => (p, 0) end) = (mz, a - 53) /\ Zpos mz = Zpos p * 2 ^ (53 - a)).
  { destruct (Z.eq_dec a 53) as [E53|N53].
    - exists p. rewrite E53. split; [reflexivity|]. rewrite Z.sub_diag, Z.pow_0_r. lia.
    - destruct (a - 53 - 0) as [|q|q] eqn:Eq; try lia. exists (shift_pos q p). split; [reflexivity|].
      rewrite shift_pos_correct, Z.pow_pos_fold. replace (53 - a) with (Zpos q) by lia. ring. }
  destruct G as (mz & -> & Emz).
  assert (P : 0 < 2 ^ (53 - a)) by (apply Z.pow_pos_nonneg; lia).
  assert (Bm : 2 ^ 52 <= Zpos mz < 2 ^ 53).
  { rewrite Emz. assert (X1 : 2 ^ 52 = 2 ^ (a - 1) * 2 ^ (53 - a)) by (rewrite <- Z.pow_add_r by lia; f_equal; lia).
    assert (X2 : 2 ^ 53 = 2 ^ a * 2 ^ (53 - a)) by (rewrite <- Z.pow_add_r by lia; f_equal; lia).
    rewrite X1, X2. split; [apply Z.mul_le_mono_pos_r | apply Z.mul_lt_mono_pos_r]; tauto. }
  assert (Dm : Zdigits2 (Zpos mz) = 53) by (apply (digits_exact _ 52); lia).
  unfold binary_round_aux, shr_fexp at 1. rewrite Dm. replace (fexp 53 1024 (53 + (a - 53)) - (a - 53)) with 0 by (unfold fexp, emin; lia).
  cbn [shr shr_record_of_loc shr_m loc_of_shr_record round_nearest_even]. unfold shr_fexp. rewrite Dm.
  replace (fexp 53 1024 (53 + (a - 53)) - (a - 53)) with 0 by (unfold fexp, emin; lia). cbn [shr shr_record_of_loc shr_m].
  replace (a - 53 <=? 1024 - 53) with true by (symmetry; apply Z.leb_le; lia).
  exists mz, a. repeat split; auto; try lia.
Qed.

Lemma hundred : float_of_nat 100 = S754_finite false 7036874417766400 (-46).
Proof. reflexivity. Qed.

(** The quotient is represented with an error of at most two units of [2 ^ -(53 + b - a)]. *)
Lemma div_spec c t : (0 < c <= t)%nat -> Z.of_nat t < 2 ^ 40 ->
  exists mx h u P N, SFdiv 53 1024 (float_of_nat c) (float_of_nat t) = S754_finite false mx (- h) /\
    2 ^ 52 <= Zpos mx < 2 ^ 53 /\ 0 <= u <= 2 /\ 51 <= h <= 100 /\ P = 2 ^ (u + h) /\ 2 ^ 53 <= P /\ N = Zpos mx * 2 ^ u /\
    Z.of_nat c * P - 2 * Z.of_nat t < N * Z.of_nat t <= Z.of_nat c * P + 2 * Z.of_nat t.
Proof.
  intros Hc Ht.
  destruct (float_of_nat_spec c) as (m1 & a & -> & Ha & Bc & E1 & B1); [lia|lia|].
  destruct (float_of_nat_spec t) as (m2 & b & -> & Hb & Bt & E2 & B2); [lia|lia|].
  set (C := Z.of_nat c) in *. set (T := Z.of_nat t) in *.
  assert (Hab : a <= b). { assert (2 ^ (a - 1) < 2 ^ b) by lia. apply Z.pow_lt_mono_r_iff in H; lia. }
  assert (Hb40 : b <= 40). { assert (2 ^ (b - 1) < 2 ^ 40) by lia. apply Z.pow_lt_mono_r_iff in H; lia. }
  unfold SFdiv, SFdiv_core_binary.
  rewrite (digits_exact (Zpos m1) 52), (digits_exact (Zpos m2) 52) by lia.
  replace (Z.min (fexp 53 1024 (52 + 1 + (a - 53) - (52 + 1 + (b - 53)))) (a - 53 - (b - 53))) with (a - b - 53) by (unfold fexp, emin; lia).
  replace (a - 53 - (b - 53) - (a - b - 53)) with 53 by lia. cbv iota. rewrite Z.shiftl_mul_pow2 by lia.
  pose proof (Z.div_mod (Zpos m1 * 2 ^ 53) (Zpos m2)) as DM. pose proof (Z.mod_pos_bound (Zpos m1 * 2 ^ 53) (Zpos m2)) as MB.
  unfold Z.div, Z.modulo in DM, MB. destruct (Z.div_eucl (Zpos m1 * 2 ^ 53) (Zpos m2)) as [q r].
  specialize (DM ltac:(lia)). specialize (MB ltac:(lia)). cbn [xorb].
  assert (Bq : 2 ^ 52 <= q < 2 ^ 55) by (split; nia).
  assert (Dq : 52 < Zdigits2 q <= 55) by (apply digits_range; lia).
  assert (Dq' : Zdigits2 q <= 54).
  { assert (52 < Zdigits2 q <= 54); [|lia]. apply digits_range; [lia|]. split; [lia|]. nia. }
  destruct (round_aux q (a - b - 53) (new_location (Zpos m2) r)) as (mx & ex & R & -> & Bx & He & ER & RR); [lia|lia|lia|].
  set (sh := Zdigits2 q - 53) in *. assert (Hsh : sh = 0 \/ sh = 1) by (unfold sh; lia).
  set (u := ex + 53 + b - a).
  exists mx, (- ex), u, (2 ^ (u + - ex)), (Zpos mx * 2 ^ u). split; [f_equal; lia|]. split; [assumption|].
  assert (Hu : u = (ex - (a - b - 53 + sh)) + sh) by (unfold u; lia).
  split; [lia|]. split; [unfold u in *; lia|]. split; [reflexivity|].
  replace (u + - ex) with (53 + (b - a)) by (unfold u; lia).
  assert (HP : 0 < 2 ^ (b - a)) by (apply Z.pow_pos_nonneg; lia).
  split. { rewrite Z.pow_add_r by lia. nia. } split; [reflexivity|].
  replace (Zpos mx * 2 ^ u) with (R * 2 ^ sh) by (rewrite Hu, Z.pow_add_r by lia; rewrite <- ER; ring).
  assert (Q : q * T <= C * 2 ^ (53 + (b - a)) < (q + 1) * T).
  { set (k := 2 ^ (53 - b)) in *. assert (0 < k) by (apply Z.pow_pos_nonneg; lia).
    assert (EE : C * 2 ^ (53 + (b - a)) * k = Zpos m1 * 2 ^ 53).
    { rewrite E1. unfold k. rewrite <- !Z.mul_assoc, <- !Z.pow_add_r by lia. do 2 f_equal. lia. }
    split; apply (Z.mul_le_mono_pos_r _ _ k) || apply (Z.mul_lt_mono_pos_r k); auto; rewrite EE, DM, E2; nia. }
  assert (Rb : q - 1 <= R * 2 ^ sh <= q + 2).
  { destruct Hsh as [-> | ->].
    - rewrite Z.pow_0_r, Z.div_1_r in *. lia.
    - rewrite Z.pow_1_r in *. pose proof (Z.div_mod q 2). pose proof (Z.mod_pos_bound q 2). lia. }
  clear - Q Rb Hc. assert (0 < T) by (unfold T; lia). generalize dependent (R * 2 ^ sh). intros N Rb.
  assert ((q - 1) * T <= N * T) by (apply Z.mul_le_mono_pos_r; lia). assert (N * T <= (q + 2) * T) by (apply Z.mul_le_mono_pos_r; lia). lia.
Qed.

Lemma percentage_spec c t K : (0 < c <= t)%nat -> Z.of_nat t < 2 ^ 40 -> (K <= 100)%nat ->
  (K * t < 100 * c -> K <= percentage c t)%nat /\ (100 * c < K * t -> percentage c t < K)%nat.
Proof.
  intros Hc Ht HK. unfold percentage. destruct (Nat.eqb_spec t 0) as [->|_]; [lia|].
  destruct (div_spec c t Hc Ht) as (mx & h & u & P & N & -> & Bx & Hu & Hh & EP & BP & EN & BN). rewrite hundred. cbn [SFmul xorb].
  rewrite Pos2Z.inj_mul. change 7036874417766400%positive with (Z.to_pos (100 * 2 ^ 46)). rewrite Z2Pos.id by lia.
  set (m := 100 * 2 ^ 46 * Zpos mx).
  assert (Dm : 104 < Zdigits2 m <= 106). { apply digits_range; [lia|]. change (2 ^ 104) with (2 ^ 52 * 2 ^ 52). change (2 ^ 106) with (2 ^ 53 * 2 ^ 53). unfold m. nia. }
  destruct (round_aux m (-46 + - h) loc_Exact) as (my & ey & R & -> & By & He & ER & RR); [unfold m; nia|lia|lia|].
  set (sh := Zdigits2 m - 53) in *. set (w := ey - (-46 + - h + sh)) in *.
  assert (Hsh : 52 <= sh <= 53) by (unfold sh; lia).
  set (G := h + 46 - sh). assert (EG : ey = w - G) by (unfold w, G; lia). assert (HG : 40 <= G) by (unfold G; lia).
  unfold int_of_float. replace (ey <? 0) with true by (symmetry; apply Z.ltb_lt; lia). rewrite Z.shiftr_div_pow2 by lia.
  assert (P2 : forall x, 0 <= x -> 0 < 2 ^ x) by (intros; apply Z.pow_pos_nonneg; lia).
  (* K <= floor y  <->  K * 2^G <= R *)
  assert (Key : forall k, k * 2 ^ G <= R <-> k <= Zpos my / 2 ^ (- ey)).
  { intros k. replace G with (- ey + w) by lia. rewrite Z.pow_add_r by lia. rewrite <- ER. rewrite Z.mul_assoc.
    rewrite <- Z.mul_le_mono_pos_r by (apply P2; lia). split; intros Hk.
    - apply Z.div_le_lower_bound; [apply P2; lia|lia].
    - pose proof (Z.mul_div_le (Zpos my) (2 ^ (- ey)) ltac:(apply P2; lia)). pose proof (P2 (- ey) ltac:(lia)). nia. }
  set (k := Z.of_nat K) in *. specialize (Key k). set (C := Z.of_nat c) in *. set (T := Z.of_nat t) in *.
  assert (HT : 0 < T) by (unfold T; lia).
  assert (Hs0 : 0 < 2 ^ sh) by (apply P2; lia).
  assert (EGs : 2 ^ G * 2 ^ sh = 2 ^ h * 2 ^ 46). { rewrite <- !Z.pow_add_r by lia. f_equal. unfold G. lia. }
  assert (Hu4 : 1 <= 2 ^ u <= 4). { assert (u = 0 \/ u = 1 \/ u = 2) as [-> |[-> | ->]] by lia; lia. }
  rewrite Z.pow_add_r in EP by lia.
  assert (HP0 : 0 < P) by lia. assert (HT40 : T < 2 ^ 40) by assumption.
  assert (Hu0 : 0 < 2 ^ u) by lia.
  split; intros H.
  - assert (HZ : k * T + 1 <= 100 * C) by (unfold k, T, C; lia).
    assert (A : k * P <= 100 * N).
    { apply (Z.mul_le_mono_pos_r _ _ T HT). assert (X : (k * T + 1) * P <= 100 * C * P) by (apply Z.mul_le_mono_nonneg_r; lia).
      assert (200 * T <= P) by lia. clear - X BN H0. lia. }
    assert (B : k * 2 ^ h <= 100 * Zpos mx).
    { apply (Z.mul_le_mono_pos_r _ _ (2 ^ u) Hu0). rewrite EP, EN in A. clear - A. lia. }
    assert (D : k * 2 ^ G <= m / 2 ^ sh).
    { apply Z.div_le_lower_bound; [lia|]. replace (2 ^ sh * (k * 2 ^ G)) with (k * (2 ^ G * 2 ^ sh)) by ring. rewrite EGs. unfold m.
      rewrite Z.mul_assoc. replace (100 * 2 ^ 46 * Zpos mx) with (100 * Zpos mx * 2 ^ 46) by ring. apply Z.mul_le_mono_nonneg_r; [discriminate | exact B]. }
    assert (k <= Zpos my / 2 ^ (- ey)) by (apply Key; lia). unfold k in *. lia.
  - assert (HZ : 100 * C + 1 <= k * T) by (unfold k, T, C; lia).
    assert (A : 100 * N + 512 < k * P).
    { apply (Z.mul_lt_mono_pos_r T _ _ HT). assert (X : (100 * C + 1) * P <= k * T * P) by (apply Z.mul_le_mono_nonneg_r; lia).
      assert (712 * T < P) by lia. clear - X BN H0. lia. }
    assert (B : 100 * Zpos mx + 128 < k * 2 ^ h).
    { apply (Z.mul_lt_mono_pos_r (2 ^ u) _ _ Hu0). rewrite EP, EN in A. clear - A Hu4. lia. }
    assert (D : m / 2 ^ sh + 1 < k * 2 ^ G).
    { apply (Z.mul_lt_mono_pos_l (2 ^ sh) _ _ Hs0). pose proof (Z.mul_div_le m (2 ^ sh) Hs0) as X.
      replace (2 ^ sh * (k * 2 ^ G)) with (k * (2 ^ G * 2 ^ sh)) by ring. rewrite EGs.
      assert (Y : 2 ^ sh <= 2 ^ 53) by (apply Z.pow_le_mono_r; lia). unfold m in *.
      assert (Z : (100 * Zpos mx + 128) * 2 ^ 46 < k * 2 ^ h * 2 ^ 46) by (apply Z.mul_lt_mono_pos_r; [reflexivity | exact B]).
      rewrite Z.mul_assoc. clear - X Y Z. lia. }
    assert (~ k <= Zpos my / 2 ^ (- ey)) by (rewrite <- Key; lia). unfold k in *.
    pose proof (Z.div_pos (Zpos my) (2 ^ (- ey)) ltac:(lia) ltac:(apply P2; lia)). lia.
Qed.

Lemma percentage_zero t : percentage 0 t = 0%nat.
Proof.
  unfold percentage. destruct (Nat.eqb_spec t 0) as [|H]; auto. change (float_of_nat 0) with (S754_zero false).
  destruct (float_of_nat t); rewrite ?hundred; reflexivity.
Qed.

Lemma percentage_same t : (0 < t)%nat -> Z.of_nat t < 2 ^ 53 -> percentage t t = 100%nat.
Proof.
  intros H0 Ht. unfold percentage. destruct (Nat.eqb_spec t 0) as [->|_]; [lia|].
  destruct (float_of_nat_spec t) as (m & a & -> & Ha & _ & _ & B); [lia|lia|].
  unfold SFdiv, SFdiv_core_binary. rewrite (digits_exact (Zpos m) 52) by lia.
  replace (Z.min (fexp 53 1024 (52 + 1 + (a - 53) - (52 + 1 + (a - 53)))) (a - 53 - (a - 53))) with (-53) by (unfold fexp, emin; lia).
  replace (a - 53 - (a - 53) - -53) with 53 by lia. cbv iota. rewrite Z.shiftl_mul_pow2 by lia.
  assert (D : Z.div_eucl (Zpos m * 2 ^ 53) (Zpos m) = (2 ^ 53, 0)).
  { pose proof (Z_div_mod (Zpos m * 2 ^ 53) (Zpos m) ltac:(lia)) as D. destruct (Z.div_eucl (Zpos m * 2 ^ 53) (Zpos m)) as [q r]. destruct D as [D1 D2].
    assert (q = 2 ^ 53). { apply (Z.mul_reg_l _ _ (Zpos m)); [lia|]. assert (Zpos m * (q - 2 ^ 53) = - r) by lia.
      assert (q - 2 ^ 53 = 0); [|lia]. destruct (Z.lt_trichotomy (q - 2 ^ 53) 0) as [N|[E|P]]; auto; exfalso; nia. }
    subst q. f_equal. lia. }
  rewrite D. replace (new_location (Zpos m) 0) with loc_Exact by (unfold new_location, new_location_even, new_location_odd; now destruct (Z.even (Zpos m))).
  reflexivity.
Qed.

(** ** The exact result: it depends on the ratio only *)

(** The quotient of two integers, rounded to the nearest integer, ties to even. *)
Definition rounded_div (A D : Z) : Z :=
  let q := A / D in let r := A mod D in
  if 2 * r <? D then q else if D <? 2 * r then q + 1 else if Z.even q then q else q + 1.
Lemma rounded_scale k A D : 0 < k -> 0 < D -> rounded_div (k * A) (k * D) = rounded_div A D.
Proof.
  intros Hk HD. unfold rounded_div. rewrite Z.div_mul_cancel_l, Z.mul_mod_distr_l by lia. cbv zeta.
  assert (E1 : (2 * (k * (A mod D)) <? k * D) = (2 * (A mod D) <? D)) by (apply Bool.eq_iff_eq_true; rewrite !Z.ltb_lt; split; nia).
  assert (E2 : (k * D <? 2 * (k * (A mod D))) = (D <? 2 * (A mod D))) by (apply Bool.eq_iff_eq_true; rewrite !Z.ltb_lt; split; nia).
  now rewrite E1, E2.
Qed.
Definition finished (R E : Z) : spec_float := if R =? 2 ^ 53 then S754_finite false 4503599627370496 (E + 1) else S754_finite false (Z.to_pos R) E.

Lemma rne_location D q r : 0 < D -> 0 <= r < D -> round_nearest_even q (new_location D r) = (if 2 * r <? D then q else if D <? 2 * r then q + 1 else if Z.even q then q else q + 1).
Proof.
  intros HD Hr. unfold new_location, new_location_even, new_location_odd. assert (ZE : Zeq_bool r 0 = (r =? 0)) by now destruct r.
  destruct (Z.even D) eqn:Ev; rewrite ZE; clear ZE.
  - destruct (Z.eqb_spec r 0) as [->|N]; [replace (2 * 0 <? D) with true by (symmetry; apply Z.ltb_lt; lia); reflexivity|].
    destruct (Z.compare_spec (2 * r) D) as [C|C|C]; cbn [round_nearest_even].
    + replace (2 * r <? D) with false by (symmetry; apply Z.ltb_ge; lia). replace (D <? 2 * r) with false by (symmetry; apply Z.ltb_ge; lia). reflexivity.
    + now replace (2 * r <? D) with true by (symmetry; apply Z.ltb_lt; lia).
    + replace (2 * r <? D) with false by (symmetry; apply Z.ltb_ge; lia). now replace (D <? 2 * r) with true by (symmetry; apply Z.ltb_lt; lia).
  - assert (Od : exists k, D = 2 * k + 1) by (apply Z.odd_spec; rewrite <- Z.negb_even, Ev; reflexivity). destruct Od as (k & Ek).
    destruct (Z.eqb_spec r 0) as [->|N]; [replace (2 * 0 <? D) with true by (symmetry; apply Z.ltb_lt; lia); reflexivity|].
    destruct (Z.compare_spec (2 * r + 1) D) as [C|C|C]; cbn [round_nearest_even].
    + now replace (2 * r <? D) with true by (symmetry; apply Z.ltb_lt; lia).
    + now replace (2 * r <? D) with true by (symmetry; apply Z.ltb_lt; lia).
    + replace (2 * r <? D) with false by (symmetry; apply Z.ltb_ge; lia). now replace (D <? 2 * r) with true by (symmetry; apply Z.ltb_lt; lia).
Qed.
Lemma loc_inexact D r : 0 < D -> 0 <= r < D -> new_location D r = loc_Exact <-> r = 0.
Proof.
  intros HD Hr. unfold new_location, new_location_even, new_location_odd. assert (ZE : Zeq_bool r 0 = (r =? 0)) by now destruct r.
  destruct (Z.even D); rewrite ZE; destruct (Z.eqb_spec r 0); split; intros; auto; try discriminate; contradiction.
Qed.
(** Rounding a quotient of 53 or 54 digits. *)
Lemma round_quotient A D e : 0 < D -> -1000 <= e <= 500 -> 2 ^ 52 <= A / D < 2 ^ 54 ->
  let sh := if A / D <? 2 ^ 53 then 0 else 1 in
  binary_round_aux 53 1024 false (A / D) e (new_location D (A mod D)) = finished (rounded_div A (D * 2 ^ sh)) (e + sh).
Proof.
  intros HD He Hq sh. pose proof (Z.mod_pos_bound A D HD) as MB. pose proof (Z.div_mod A D ltac:(lia)) as DM.
  set (q := A / D) in *. set (r := A mod D) in *.
  assert (F : exists M loc, (let '(mrs, e') := shr_fexp 53 1024 q e (new_location D r) in (round_nearest_even (shr_m mrs) (loc_of_shr_record mrs), e')) = (round_nearest_even M loc, e + sh)
              /\ round_nearest_even M loc = rounded_div A (D * 2 ^ sh) /\ 2 ^ 52 <= M < 2 ^ 53).
  { unfold shr_fexp. unfold sh. destruct (Z.ltb_spec q (2 ^ 53)) as [L|L].
    - rewrite (digits_exact q 52) by lia. replace (fexp 53 1024 (52 + 1 + e) - e) with 0 by (unfold fexp, emin; lia). cbn [shr].
      exists q, (new_location D r). split; [|split; [|lia]].
      + rewrite Z.add_0_r. destruct (new_location D r) as [|[]]; reflexivity.
      + rewrite rne_location by lia. unfold rounded_div. rewrite Z.pow_0_r, Z.mul_1_r. reflexivity.
    - rewrite (digits_exact q 53) by lia. replace (fexp 53 1024 (53 + 1 + e) - e) with 1 by (unfold fexp, emin; lia). cbn [shr iter_pos].
      pose proof (loc_inexact D r HD MB) as LI. rewrite Z.pow_1_r. clearbody q r.
      assert (X : A / (D * 2) = q / 2 /\ A mod (D * 2) = D * (q mod 2) + r).
      { pose proof (Z.div_mod q 2 ltac:(lia)) as Q. pose proof (Z.mod_pos_bound q 2 ltac:(lia)) as QB. assert (E : A = (D * 2) * (q / 2) + (D * (q mod 2) + r)) by (rewrite DM, Q at 1; ring).
        assert (B : 0 <= D * (q mod 2) + r < D * 2) by nia. split; [symmetry; apply (Z.div_unique_pos _ _ _ _ B E)|symmetry; apply (Z.mod_unique_pos _ _ _ _ B E)]. }
      destruct X as [X1 X2]. unfold rounded_div. rewrite X1, X2. cbv zeta.
      assert (HM : 2 ^ 52 <= q / 2 < 2 ^ 53) by (split; [apply Z.div_le_lower_bound|apply Z.div_lt_upper_bound]; lia).
      destruct q as [|[p|p|]|p]; try lia.
      + change (Zpos p~1) with (2 * Zpos p + 1) in *. replace ((2 * Zpos p + 1) / 2) with (Zpos p) in * by (apply (Z.div_unique_pos _ _ _ 1); lia).
        replace ((2 * Zpos p + 1) mod 2) with 1 by (apply (Z.mod_unique_pos _ _ (Zpos p)); lia). rewrite Z.mul_1_r.
        replace (2 * (D + r) <? D * 2) with false by (symmetry; apply Z.ltb_ge; lia). change (2 * Zpos p + 1) with (Zpos p~1).
        exists (Zpos p), (if r =? 0 then loc_Inexact Eq else loc_Inexact Gt). split; [|split; [|exact HM]].
        * destruct (Z.eqb_spec r 0) as [E|E].
          { apply LI in E. rewrite E. reflexivity. }
          { destruct (new_location D r) as [|[]] eqn:El; [exfalso; now apply E, LI|..]; reflexivity. }
        * destruct (Z.eqb_spec r 0) as [->|E]; cbn [round_nearest_even].
          { replace (D * 2 <? 2 * (D + 0)) with false by (symmetry; apply Z.ltb_ge; lia). reflexivity. }
          { replace (D * 2 <? 2 * (D + r)) with true by (symmetry; apply Z.ltb_lt; lia). reflexivity. }
      + change (Zpos p~0) with (2 * Zpos p) in *. replace (2 * Zpos p / 2) with (Zpos p) in * by (apply (Z.div_unique_pos _ _ _ 0); lia).
        replace (2 * Zpos p mod 2) with 0 by (apply (Z.mod_unique_pos _ _ (Zpos p)); lia). rewrite Z.mul_0_r, Z.add_0_l.
        replace (2 * r <? D * 2) with true by (symmetry; apply Z.ltb_lt; lia). change (2 * Zpos p) with (Zpos p~0).
        exists (Zpos p), (if r =? 0 then loc_Exact else loc_Inexact Lt). split; [|split; [|exact HM]].
        * destruct (Z.eqb_spec r 0) as [E|E].
          { apply LI in E. rewrite E. reflexivity. }
          { destruct (new_location D r) as [|[]] eqn:El; [exfalso; now apply E, LI|..]; reflexivity. }
        * destruct (Z.eqb_spec r 0) as [E|E]; reflexivity. }
  destruct F as (M & loc & F1 & F2 & F3). unfold binary_round_aux.
  destruct (shr_fexp 53 1024 q e (new_location D r)) as [mrs e']. injection F1 as F1 ->. rewrite F1, F2 in *.
  assert (Hsh : 0 <= sh <= 1) by (unfold sh; destruct (q <? 2 ^ 53); lia).
  set (R := rounded_div A (D * 2 ^ sh)) in *. assert (HR : 2 ^ 52 <= R <= 2 ^ 53) by (destruct (rne_cases M loc); lia).
  unfold finished. destruct (Z.eqb_spec R (2 ^ 53)) as [->|N].
  - unfold shr_fexp. change (Zdigits2 (2 ^ 53)) with 54. replace (fexp 53 1024 (54 + (e + sh)) - (e + sh)) with 1 by (unfold fexp, emin; lia).
    cbn [shr shr_record_of_loc iter_pos]. change (shr_m (shr_1 {| shr_m := 2 ^ 53; shr_r := false; shr_s := false |})) with 4503599627370496.
    now replace (e + sh + 1 <=? 1024 - 53) with true by (symmetry; apply Z.leb_le; lia).
  - unfold shr_fexp. rewrite (digits_exact R 52) by lia. replace (fexp 53 1024 (52 + 1 + (e + sh)) - (e + sh)) with 0 by (unfold fexp, emin; lia). cbn [shr shr_record_of_loc shr_m].
    destruct R as [|p|p]; try lia. now replace (e + sh <=? 1024 - 53) with true by (symmetry; apply Z.leb_le; lia).
Qed.
(** The quotient of two small numbers: the exponent and the rounded digits are those of the ratio. *)
Lemma div_exact c t : (0 < c <= t)%nat -> Z.of_nat t < 2 ^ 50 ->
  exists h, 0 <= h /\ 2 ^ 52 * Z.of_nat t <= Z.of_nat c * 2 ^ h < 2 ^ 53 * Z.of_nat t /\
    SFdiv 53 1024 (float_of_nat c) (float_of_nat t) = finished (rounded_div (Z.of_nat c * 2 ^ h) (Z.of_nat t)) (- h).
Proof.
  intros Hc Ht.
  destruct (float_of_nat_spec c) as (m1 & a & -> & Ha & Bc & E1 & B1); [lia|lia|].
  destruct (float_of_nat_spec t) as (m2 & b & -> & Hb & Bt & E2 & B2); [lia|lia|].
  set (C := Z.of_nat c) in *. set (T := Z.of_nat t) in *.
  assert (Hab : a <= b). { assert (2 ^ (a - 1) < 2 ^ b) by lia. apply Z.pow_lt_mono_r_iff in H; lia. }
  assert (Hb50 : b <= 50). { assert (2 ^ (b - 1) < 2 ^ 50) by lia. apply Z.pow_lt_mono_r_iff in H; lia. }
  unfold SFdiv, SFdiv_core_binary.
  rewrite (digits_exact (Zpos m1) 52), (digits_exact (Zpos m2) 52) by lia.
  replace (Z.min (fexp 53 1024 (52 + 1 + (a - 53) - (52 + 1 + (b - 53)))) (a - 53 - (b - 53))) with (a - b - 53) by (unfold fexp, emin; lia).
  replace (a - 53 - (b - 53) - (a - b - 53)) with 53 by lia. cbv iota. rewrite Z.shiftl_mul_pow2 by lia.
  assert (Ed : Z.div_eucl (Zpos m1 * 2 ^ 53) (Zpos m2) = (Zpos m1 * 2 ^ 53 / Zpos m2, (Zpos m1 * 2 ^ 53) mod Zpos m2)) by (unfold Z.div, Z.modulo; now destruct (Z.div_eucl _ _)).
  rewrite Ed. cbn [xorb].
  assert (Bq : 2 ^ 52 <= Zpos m1 * 2 ^ 53 / Zpos m2 < 2 ^ 54) by (split; [apply Z.div_le_lower_bound|apply Z.div_lt_upper_bound]; lia).
  rewrite round_quotient by (try exact Bq; lia).
  set (sh := if Zpos m1 * 2 ^ 53 / Zpos m2 <? 2 ^ 53 then 0 else 1).
  assert (Hsh : 0 <= sh <= 1) by (unfold sh; destruct (_ <? _); lia).
  exists (53 - a + b - sh). split; [lia|].
  assert (P2 : forall x, 0 <= x -> 0 < 2 ^ x) by (intros; apply Z.pow_pos_nonneg; lia).
  set (k := 2 ^ (53 - b + sh)). assert (Hk : 0 < k) by (apply P2; lia).
  assert (EA : Zpos m1 * 2 ^ 53 = k * (C * 2 ^ (53 - a + b - sh))).
  { rewrite E1. unfold k. replace (2 ^ (53 - b + sh) * (C * 2 ^ (53 - a + b - sh))) with (C * (2 ^ (53 - b + sh) * 2 ^ (53 - a + b - sh))) by ring.
    rewrite <- Z.mul_assoc, <- !Z.pow_add_r by lia. do 2 f_equal. lia. }
  assert (EDm : Zpos m2 * 2 ^ sh = k * T) by (rewrite E2; unfold k; rewrite Z.pow_add_r by lia; ring).
  split.
  - assert (Q : 2 ^ 52 * (Zpos m2 * 2 ^ sh) <= Zpos m1 * 2 ^ 53 < 2 ^ 53 * (Zpos m2 * 2 ^ sh)).
    { pose proof (Z.div_mod (Zpos m1 * 2 ^ 53) (Zpos m2) ltac:(lia)) as DM. pose proof (Z.mod_pos_bound (Zpos m1 * 2 ^ 53) (Zpos m2) ltac:(lia)) as MB.
      unfold sh. destruct (Z.ltb_spec (Zpos m1 * 2 ^ 53 / Zpos m2) (2 ^ 53)) as [L|L]; [rewrite Z.pow_0_r|rewrite Z.pow_1_r]; clear Ed; set (q := Zpos m1 * 2 ^ 53 / Zpos m2) in *; set (r := (Zpos m1 * 2 ^ 53) mod Zpos m2) in *; clearbody q r; nia. }
    rewrite EA, EDm in Q. clear - Q Hk. nia.
  - rewrite EA, EDm, rounded_scale by lia. f_equal. lia.
Qed.
Lemma exponent_one x h h' : 0 <= h -> 0 <= h' -> 0 < x -> forall T, 2 ^ 52 * T <= x * 2 ^ h < 2 ^ 53 * T -> 2 ^ 52 * T <= x * 2 ^ h' < 2 ^ 53 * T -> h = h'.
Proof.
  intros H0 H0' Hx T A B. assert (P2 : forall x, 0 <= x -> 0 < 2 ^ x) by (intros; apply Z.pow_pos_nonneg; lia).
  destruct (Z.lt_trichotomy h h') as [L|[E|L]]; auto; exfalso.
  - replace h' with (h + 1 + (h' - h - 1)) in B by lia. rewrite !Z.pow_add_r, Z.pow_1_r in B by lia. pose proof (P2 (h' - h - 1) ltac:(lia)). pose proof (P2 h ltac:(lia)). nia.
  - replace h with (h' + 1 + (h - h' - 1)) in A by lia. rewrite !Z.pow_add_r, Z.pow_1_r in A by lia. pose proof (P2 (h - h' - 1) ltac:(lia)). pose proof (P2 h' ltac:(lia)). nia.
Qed.
Lemma percentage_ratio k c t : (0 < k)%nat -> (0 < c <= t)%nat -> Z.of_nat k * Z.of_nat t < 2 ^ 50 -> percentage (k * c) (k * t) = percentage c t.
Proof.
  intros Hk Hc Hb. unfold percentage. destruct (Nat.eqb_spec (k * t) 0) as [E|_]; [nia|]. destruct (Nat.eqb_spec t 0) as [E|_]; [lia|].
  destruct (div_exact c t Hc ltac:(nia)) as (h & H0 & B & ->). destruct (div_exact (k * c) (k * t)) as (h' & H0' & B' & ->); [nia|rewrite Nat2Z.inj_mul; lia|].
  rewrite !Nat2Z.inj_mul in *. assert (E : h = h').
  { apply (exponent_one (Z.of_nat c) h h' H0 H0' ltac:(lia) (Z.of_nat t) B). pose proof (Z.pow_pos_nonneg 2 h' ltac:(lia) H0'). nia. }
  subst h'. rewrite <- Z.mul_assoc, rounded_scale by lia. reflexivity.
Qed.
(** An exact percentage: one too small for three values. *)
Lemma percentage_hundredths p : (p <= 100)%nat -> percentage p 100 = if (Nat.eqb p 29 || Nat.eqb p 57 || Nat.eqb p 58)%bool then (p - 1)%nat else p.
Proof.
  intros H. assert (F : List.forallb (fun p => Nat.eqb (percentage p 100) (if (Nat.eqb p 29 || Nat.eqb p 57 || Nat.eqb p 58)%bool then (p - 1)%nat else p)) (List.seq 0 101) = true) by (vm_compute; reflexivity).
  rewrite List.forallb_forall in F. apply Nat.eqb_eq, F, List.in_seq. lia.
Qed.
Lemma percentage_whole c t p : (0 < t)%nat -> (c <= t)%nat -> Z.of_nat t < 2 ^ 43 -> (100 * c = p * t)%nat ->
  percentage c t = if (Nat.eqb p 29 || Nat.eqb p 57 || Nat.eqb p 58)%bool then (p - 1)%nat else p.
Proof.
  intros Ht Hc Hb E. assert (Hp : (p <= 100)%nat) by nia. rewrite <- (percentage_hundredths p Hp).
  destruct (Nat.eq_dec c 0) as [->|Nc]; [assert (p = 0)%nat as -> by nia; now rewrite !percentage_zero|].
  assert (p <> 0)%nat by nia. rewrite <- (percentage_ratio 100 c t) by lia. rewrite E, (Nat.mul_comm p t), (Nat.mul_comm 100 t). apply percentage_ratio; lia.
Qed.
