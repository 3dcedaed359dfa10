(** * binary64 arithmetic (Flocq's IEEE 754 formalization) and a calculus of its rounding errors.

    The operations are those of Rust's f64 (round to nearest, ties to even). *)
From Coq Require Import Reals ZArith Lia Lra Bool.
From Flocq Require Import Core BinarySingleNaN Relative.
Local Open Scope R_scope.

#[global] Instance prec53 : Prec_gt_0 53 := eq_refl.
#[global] Instance emax1024 : Prec_lt_emax 53 1024 := eq_refl.
Definition f64 : Type := binary_float 53 1024.
Definition fadd : f64 -> f64 -> f64 := Bplus mode_NE.
Definition fsub : f64 -> f64 -> f64 := Bminus mode_NE.
Definition fmul : f64 -> f64 -> f64 := Bmult mode_NE.
Definition fdiv : f64 -> f64 -> f64 := Bdiv mode_NE.
(** [z as f64] *)
Definition fint (z : Z) : f64 := binary_normalize 53 1024 _ _ mode_NE z 0 false.
(** The literal with the decimal value a / b: the quotient of two exactly representable integers,
    correctly rounded. *)
Definition flit (a b : Z) : f64 := fdiv (fint a) (fint b).
Definition val (x : f64) : R := B2R x.
Definition fin (x : f64) : Prop := is_finite x = true.

Definition u53 : R := / 9007199254740992.
Lemma u53_pos : 0 < u53.
Proof. unfold u53. lra. Qed.
Lemma u53_bpow : / 2 * bpow radix2 (-53 + 1) = u53.
Proof. unfold u53. change (bpow radix2 (-53 + 1)) with (/ 4503599627370496). lra. Qed.

Notation rnd := (round radix2 (SpecFloat.fexp 53 1024) (round_mode mode_NE)).
(** every result is off by at most one part in 2^53 (or less than that much, near zero) *)
Lemma rnd_err : forall r, Rabs (rnd r - r) <= (Rabs r + 1) * u53.
Proof.
  intros r. pose proof (Rabs_pos r) as Hr. pose proof u53_pos as Hu.
  destruct (Rle_or_lt (bpow radix2 (-1074 + 53 - 1)) (Rabs r)) as [H|H].
  - pose proof (relative_error_N_FLT radix2 (-1074) 53 ltac:(lia) (fun x => negb (Z.even x)) r H) as E.
    replace (/ 2 * bpow radix2 (- (53) + 1)) with u53 in E by (unfold u53; cbn; lra). apply Rle_trans with (u53 * Rabs r); [exact E|]. nra.
  - assert (G : Rabs (rnd r) <= bpow radix2 (-1022)).
    { apply abs_round_le_generic; [apply fexp_correct; exact eq_refl | apply valid_rnd_round_mode | | apply Rlt_le, H].
      apply generic_format_bpow. unfold SpecFloat.fexp, SpecFloat.emin. lia. }
    change (-1074 + 53 - 1)%Z with (-1022)%Z in H.
    assert (B : bpow radix2 (-1022) <= u53 / 2).
    { apply Rle_trans with (bpow radix2 (-54)); [apply bpow_le; lia|]. unfold u53. change (bpow radix2 (-54)) with (/ 18014398509481984). lra. }
    apply Rle_trans with (Rabs (rnd r) + Rabs r); [pose proof (Rabs_triang (rnd r) (- r)) as T; rewrite Rabs_Ropp in T; exact T|]. nra.
Qed.
Definition big : R := 1606938044258990275541962092341162602522202993782792835301376. (* 2^200 *)
Lemma rnd_bound : forall r, Rabs r <= big -> Rlt_bool (Rabs (rnd r)) (bpow radix2 1024) = true.
Proof.
  intros r H. apply Rlt_bool_true. apply Rle_lt_trans with (bpow radix2 200); [|apply bpow_lt; lia].
  apply abs_round_le_generic; [apply fexp_correct; exact eq_refl | apply valid_rnd_round_mode | | change (bpow radix2 200) with big; exact H].
  apply generic_format_bpow. unfold SpecFloat.fexp, SpecFloat.emin. lia.
Qed.

Lemma fadd_spec : forall x y, fin x -> fin y -> Rabs (val x + val y) <= big ->
  fin (fadd x y) /\ Rabs (val (fadd x y) - (val x + val y)) <= (Rabs (val x + val y) + 1) * u53.
Proof.
  unfold val. intros x y Hx Hy Hb. pose proof (Bplus_correct _ _ _ _ mode_NE x y Hx Hy) as C. rewrite (rnd_bound _ Hb) in C. destruct C as [C1 [C2 _]].
  split; [exact C2|]. unfold fadd. rewrite C1. apply rnd_err.
Qed.
Lemma fsub_spec : forall x y, fin x -> fin y -> Rabs (val x - val y) <= big ->
  fin (fsub x y) /\ Rabs (val (fsub x y) - (val x - val y)) <= (Rabs (val x - val y) + 1) * u53.
Proof.
  unfold val. intros x y Hx Hy Hb. pose proof (Bminus_correct _ _ _ _ mode_NE x y Hx Hy) as C. rewrite (rnd_bound _ Hb) in C. destruct C as [C1 [C2 _]].
  split; [exact C2|]. unfold fsub. rewrite C1. apply rnd_err.
Qed.
Lemma fmul_spec : forall x y, fin x -> fin y -> Rabs (val x * val y) <= big ->
  fin (fmul x y) /\ Rabs (val (fmul x y) - (val x * val y)) <= (Rabs (val x * val y) + 1) * u53.
Proof.
  unfold val. intros x y Hx Hy Hb. pose proof (Bmult_correct _ _ _ _ mode_NE x y) as C. rewrite (rnd_bound _ Hb) in C. destruct C as [C1 [C2 _]].
  split; [unfold fin, fmul; rewrite C2, Hx, Hy; reflexivity|]. unfold fmul. rewrite C1. apply rnd_err.
Qed.
Lemma fdiv_spec : forall x y, fin x -> val y <> 0 -> Rabs (val x / val y) <= big ->
  fin (fdiv x y) /\ Rabs (val (fdiv x y) - (val x / val y)) <= (Rabs (val x / val y) + 1) * u53.
Proof.
  unfold val. intros x y Hx Hy Hb. pose proof (Bdiv_correct _ _ _ _ mode_NE x y Hy) as C. rewrite (rnd_bound _ Hb) in C. destruct C as [C1 [C2 _]].
  split; [unfold fin, fdiv; rewrite C2; exact Hx|]. unfold fdiv. rewrite C1. apply rnd_err.
Qed.
Lemma fint_err : forall z, (Z.abs z <= 2 ^ 200)%Z ->
  fin (fint z) /\ Rabs (val (fint z) - IZR z) <= (Rabs (IZR z) + 1) * u53.
Proof.
  intros z Hz. pose proof (binary_normalize_correct 53 1024 _ _ mode_NE z 0 false) as C. cbv zeta in C.
  replace (F2R (Float radix2 z 0)) with (IZR z) in C by (unfold F2R; cbn; ring).
  assert (Hb : Rabs (IZR z) <= big) by (rewrite <- abs_IZR; unfold big; apply IZR_le; exact Hz).
  rewrite (rnd_bound _ Hb) in C. destruct C as [C1 [C2 _]]. split; [exact C2|]. unfold val, fint. rewrite C1. apply rnd_err.
Qed.
Lemma fint_exact : forall z, (Z.abs z <= 2 ^ 53)%Z -> fin (fint z) /\ val (fint z) = IZR z.
Proof.
  intros z Hz. pose proof (binary_normalize_correct 53 1024 _ _ mode_NE z 0 false) as C. cbv zeta in C.
  assert (E : F2R (Float radix2 z 0) = IZR z) by (unfold F2R; cbn; ring). rewrite E in C.
  assert (Hb : Rabs (IZR z) <= big) by (rewrite <- abs_IZR; unfold big; apply IZR_le; lia).
  rewrite (rnd_bound _ Hb) in C. destruct C as [C1 [C2 _]]. split; [exact C2|]. unfold val, fint. rewrite C1.
  apply round_generic; [apply valid_rnd_round_mode|]. rewrite <- E. apply generic_format_FLT.
  destruct (Z.eq_dec (Z.abs z) (2 ^ 53)) as [Hm|Hm].
  - exists (Float radix2 (Z.sgn z * 2 ^ 52) 1); cbn [Fnum Fexp].
    + unfold F2R; cbn [Fnum Fexp]. rewrite mult_IZR. replace (bpow radix2 1) with 2 by reflexivity. replace (bpow radix2 0) with 1 by reflexivity.
      assert (H : (z = Z.sgn z * 2 ^ 53)%Z) by (rewrite <- Hm; lia). rewrite H at 1. rewrite mult_IZR. replace (IZR (2 ^ 53)) with (IZR (2 ^ 52) * 2) by (rewrite <- mult_IZR; reflexivity). ring.
    + rewrite Z.abs_mul. assert (Z.abs (Z.sgn z) <= 1)%Z by lia. change (radix2 ^ 53)%Z with (2 ^ 53)%Z. change (Z.abs (2 ^ 52)) with (2 ^ 52)%Z. lia.
    + unfold SpecFloat.emin. lia.
  - exists (Float radix2 z 0); cbn [Fnum Fexp]; [reflexivity | change (radix2 ^ 53)%Z with (2 ^ 53)%Z; lia | unfold SpecFloat.emin; lia].
Qed.

(** ** Errors. [ap s x B e f]: f approximates s * x with |x| <= B and an error of at most s * e. *)
Definition ap (s x B e : R) (f : f64) : Prop := fin f /\ Rabs x <= B /\ Rabs (val f - s * x) <= s * e.

Lemma ap_weaken : forall s x B e B' e' f, 0 <= s -> ap s x B e f -> B <= B' -> e <= e' -> ap s x B' e' f.
Proof. intros s x B e B' e' f Hs [H1 [H2 H3]] HB He. split; [exact H1|]. split; [lra|]. apply Rle_trans with (s * e); [exact H3|]. apply Rmult_le_compat_l; lra. Qed.
Lemma ap_int : forall z, (Z.abs z <= 2 ^ 53)%Z -> ap 1 (IZR z) (Rabs (IZR z)) 0 (fint z).
Proof. intros z H. destruct (fint_exact z H) as [A B]. split; [exact A|]. split; [lra|]. rewrite B. replace (IZR z - 1 * IZR z) with 0 by ring. rewrite Rabs_R0. lra. Qed.
(** the scale itself: [n as f64] approximates n * 1 *)
Lemma ap_scale : forall n, (1 <= n <= 2 ^ 128)%Z -> ap (IZR n) 1 1 (2 * u53) (fint n).
Proof.
  intros n H. destruct (fint_err n ltac:(lia)) as [A B]. split; [exact A|]. split; [rewrite Rabs_R1; lra|].
  assert (1 <= IZR n) by (apply IZR_le; lia). rewrite (Rabs_pos_eq (IZR n)) in B by lra. rewrite Rmult_1_r. pose proof u53_pos. nra.
Qed.

Lemma Rabs_bd : forall a b, Rabs a <= b -> - b <= a <= b.
Proof. intros a b H. apply Rabs_le_inv. exact H. Qed.
Lemma Rabs_sub_le : forall a b c d e, Rabs (a - b) <= d -> Rabs (b - c) <= e -> Rabs (a - c) <= d + e.
Proof. intros a b c d e H1 H2. replace (a - c) with ((a - b) + (b - c)) by ring. eapply Rle_trans; [apply Rabs_triang|]. lra. Qed.

(** the last rounding of an operation whose exact result r is within s * E of s * z *)
Lemma ap_round : forall s z B E (r : R) (g : f64), 1 <= s -> Rabs z <= B -> Rabs (r - s * z) <= s * E -> s * (B + E) <= big ->
  (Rabs r <= big -> fin g /\ Rabs (val g - r) <= (Rabs r + 1) * u53) -> ap s z B (E + (B + E + 1) * u53) g.
Proof.
  intros s z B E r g Hs HB HE Hb Hr. pose proof u53_pos as Hu.
  assert (Ar : Rabs r <= s * (B + E)).
  { replace r with ((r - s * z) + s * z) by ring. eapply Rle_trans; [apply Rabs_triang|]. rewrite (Rabs_mult s z), (Rabs_pos_eq s) by lra.
    assert (s * Rabs z <= s * B) by (apply Rmult_le_compat_l; lra). lra. }
  destruct Hr as [Hf He]; [lra|]. split; [exact Hf|]. split; [exact HB|].
  replace (s * (E + (B + E + 1) * u53)) with ((s * (B + E) + s) * u53 + s * E) by ring.
  eapply Rabs_sub_le; [|exact HE]. eapply Rle_trans; [exact He|]. apply Rmult_le_compat_r; lra.
Qed.

Lemma ap_add : forall s x y B1 B2 e1 e2 f g, 1 <= s -> ap s x B1 e1 f -> ap s y B2 e2 g -> s * (B1 + B2 + (e1 + e2)) <= big ->
  ap s (x + y) (B1 + B2) (e1 + e2 + (B1 + B2 + (e1 + e2) + 1) * u53) (fadd f g).
Proof.
  intros s x y B1 B2 e1 e2 f g Hs [F1 [X1 E1]] [F2 [X2 E2]] Hb. apply (ap_round s (x + y) _ _ (val f + val g)); auto.
  - eapply Rle_trans; [apply Rabs_triang|]. lra.
  - replace (val f + val g - s * (x + y)) with ((val f - s * x) + (val g - s * y)) by ring. eapply Rle_trans; [apply Rabs_triang|]. lra.
  - intros H. apply fadd_spec; assumption.
Qed.
Lemma ap_sub : forall s x y B1 B2 e1 e2 f g, 1 <= s -> ap s x B1 e1 f -> ap s y B2 e2 g -> s * (B1 + B2 + (e1 + e2)) <= big ->
  ap s (x - y) (B1 + B2) (e1 + e2 + (B1 + B2 + (e1 + e2) + 1) * u53) (fsub f g).
Proof.
  intros s x y B1 B2 e1 e2 f g Hs [F1 [X1 E1]] [F2 [X2 E2]] Hb. apply (ap_round s (x - y) _ _ (val f - val g)); auto.
  - unfold Rminus. eapply Rle_trans; [apply Rabs_triang|]. rewrite Rabs_Ropp. lra.
  - replace (val f - val g - s * (x - y)) with ((val f - s * x) - (val g - s * y)) by ring. unfold Rminus at 1. eapply Rle_trans; [apply Rabs_triang|]. rewrite Rabs_Ropp. lra.
  - intros H. apply fsub_spec; assumption.
Qed.
Lemma ap_mul : forall s x y B1 B2 e1 e2 f g, 1 <= s -> ap s x B1 e1 f -> ap 1 y B2 e2 g -> 0 <= e1 ->
  s * (B1 * B2 + (B1 * e2 + e1 * B2 + e1 * e2)) <= big ->
  ap s (x * y) (B1 * B2) (B1 * e2 + e1 * B2 + e1 * e2 + (B1 * B2 + (B1 * e2 + e1 * B2 + e1 * e2) + 1) * u53) (fmul f g).
Proof.
  intros s x y B1 B2 e1 e2 f g Hs [F1 [X1 E1]] [F2 [X2 E2]] He1 Hb. rewrite !Rmult_1_l in E2. pose proof (Rabs_pos x) as Px. pose proof (Rabs_pos y) as Py.
  pose proof (Rabs_pos (val f - s * x)) as P1. pose proof (Rabs_pos (val g - y)) as P2.
  apply (ap_round s (x * y) _ _ (val f * val g)); auto.
  - rewrite Rabs_mult. apply Rmult_le_compat; lra.
  - replace (val f * val g - s * (x * y)) with (s * x * (val g - y) + (val f - s * x) * y + (val f - s * x) * (val g - y)) by ring.
    eapply Rle_trans; [apply Rabs_triang|]. eapply Rle_trans; [apply Rplus_le_compat_r, Rabs_triang|]. rewrite !Rabs_mult, (Rabs_pos_eq s) by lra.
    assert (A1 : s * Rabs x * Rabs (val g - y) <= s * B1 * e2) by (apply Rmult_le_compat; try lra; [apply Rmult_le_pos; lra | apply Rmult_le_compat_l; lra]).
    assert (A2 : Rabs (val f - s * x) * Rabs y <= s * e1 * B2) by (apply Rmult_le_compat; lra).
    assert (A3 : Rabs (val f - s * x) * Rabs (val g - y) <= s * e1 * e2) by (apply Rmult_le_compat; lra).
    lra.
  - intros H. apply fmul_spec; assumption.
Qed.
Lemma ap_div : forall s x y B1 B2 e1 e2 L f g, 1 <= s -> ap s x B1 e1 f -> ap 1 y B2 e2 g -> 0 < L -> L <= y -> e2 < L -> 0 <= e1 ->
  s * (B1 / L + (e1 + B1 / L * e2) / (L - e2)) <= big ->
  ap s (x / y) (B1 / L) ((e1 + B1 / L * e2) / (L - e2) + (B1 / L + (e1 + B1 / L * e2) / (L - e2) + 1) * u53) (fdiv f g).
Proof.
  intros s x y B1 B2 e1 e2 L f g Hs [F1 [X1 E1]] [F2 [X2 E2]] HL Hy He Hp Hb. rewrite !Rmult_1_l in E2. apply Rabs_bd in E2. pose proof (Rabs_pos x) as Px.
  assert (Hg : L - e2 <= val g) by lra. assert (Hg0 : 0 < L - e2) by lra.
  assert (Hxy : Rabs (x / y) <= B1 / L).
  { unfold Rdiv. rewrite Rabs_mult, (Rabs_pos_eq (/ y)) by (apply Rlt_le, Rinv_0_lt_compat; lra). apply Rmult_le_compat; [lra | apply Rlt_le, Rinv_0_lt_compat; lra | lra | apply Rinv_le; lra]. }
  apply (ap_round s (x / y) _ _ (val f / val g)); auto.
  - replace (val f / val g - s * (x / y)) with (((val f - s * x) - s * (x / y) * (val g - y)) / val g) by (field; split; lra).
    unfold Rdiv at 1. rewrite Rabs_mult, (Rabs_pos_eq (/ val g)) by (apply Rlt_le, Rinv_0_lt_compat; lra).
    replace (s * ((e1 + B1 / L * e2) / (L - e2))) with ((s * (e1 + B1 / L * e2)) * / (L - e2)) by (unfold Rdiv; ring).
    apply Rmult_le_compat; [apply Rabs_pos | apply Rlt_le, Rinv_0_lt_compat; lra | | apply Rinv_le; lra].
    unfold Rminus at 1. eapply Rle_trans; [apply Rabs_triang|]. rewrite Rabs_Ropp, !Rabs_mult, (Rabs_pos_eq s) by lra.
    assert (A : s * Rabs (x / y) * Rabs (val g - y) <= s * (B1 / L) * e2).
    { apply Rmult_le_compat; [apply Rmult_le_pos; [lra | apply Rabs_pos] | apply Rabs_pos | apply Rmult_le_compat_l; lra | apply Rabs_le; lra]. }
    lra.
  - intros H. apply fdiv_spec; [exact F1 | lra | exact H].
Qed.
