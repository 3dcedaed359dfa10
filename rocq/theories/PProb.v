(** * Facts about the binary32 probabilities of [MProb]. *)
From Coq Require Import Reals ZArith Lia Lra Bool List.
From Flocq Require Import Core BinarySingleNaN.
From Verif Require Import Base MTraits MProb.
Local Open Scope R_scope.

Definition pval (x : f32) : R := B2R x.
(** a finite number in [0, 1] *)
Definition unit32 (x : f32) : Prop := is_finite x = true /\ 0 <= pval x <= 1.

Notation rnd32 := (round radix2 (SpecFloat.fexp 24 128) (round_mode mode_NE)).
Lemma gen32_one : generic_format radix2 (SpecFloat.fexp 24 128) 1.
Proof. change 1 with (bpow radix2 0). apply generic_format_bpow. unfold SpecFloat.fexp, SpecFloat.emin. lia. Qed.
Lemma rnd32_unit : forall r, 0 <= r <= 1 -> 0 <= rnd32 r <= 1.
Proof.
  intros r [H0 H1]. split.
  - apply round_ge_generic; [apply fexp_correct; exact eq_refl | apply valid_rnd_round_mode | apply generic_format_0 | exact H0].
  - apply round_le_generic; [apply fexp_correct; exact eq_refl | apply valid_rnd_round_mode | apply gen32_one | exact H1].
Qed.
Lemma rnd32_small : forall r, 0 <= r <= 1 -> Rlt_bool (Rabs (rnd32 r)) (bpow radix2 128) = true.
Proof.
  intros r H. apply Rlt_bool_true. apply rnd32_unit in H. rewrite Rabs_pos_eq by apply H.
  apply Rle_lt_trans with (bpow radix2 0); [apply H | apply bpow_lt; lia].
Qed.
Lemma rnd32_format : forall x : f32, rnd32 (B2R x) = B2R x.
Proof. intros x. apply round_generic; [apply valid_rnd_round_mode | apply generic_format_B2R]. Qed.

Lemma pmul_unit : forall x y, unit32 x -> unit32 y ->
  unit32 (pmul x y) /\ pval (pmul x y) = rnd32 (pval x * pval y) /\ pval (pmul x y) <= pval x /\ pval (pmul x y) <= pval y.
Proof.
  unfold unit32, pval. intros x y [Fx Hx] [Fy Hy].
  assert (H : 0 <= B2R x * B2R y <= 1) by nra.
  pose proof (Bmult_correct _ _ _ _ mode_NE x y) as C. rewrite (rnd32_small _ H) in C. destruct C as [C1 [C2 _]].
  unfold pmul. rewrite C1, C2, Fx, Fy. split; [split; [reflexivity | apply rnd32_unit, H]|]. split; [reflexivity|].
  split; [rewrite <- (rnd32_format x) at 2 | rewrite <- (rnd32_format y) at 2]; (apply round_le; [apply fexp_correct; exact eq_refl | apply valid_rnd_round_mode | nra]).
Qed.
Lemma p_one_val : is_finite p_one = true /\ pval p_one = 1.
Proof. split; [reflexivity|]. unfold pval, p_one, plit. vm_compute. lra. Qed.
Lemma psub_unit : forall x, unit32 x -> unit32 (psub p_one x) /\ pval (psub p_one x) = rnd32 (1 - pval x).
Proof.
  unfold unit32. intros x [Fx Hx]. destruct p_one_val as [F1 V1]. unfold pval in *.
  assert (H : 0 <= B2R p_one - B2R x <= 1) by (rewrite V1; lra).
  pose proof (Bminus_correct _ _ _ _ mode_NE p_one x F1 Fx) as C. rewrite (rnd32_small _ H) in C. destruct C as [C1 [C2 _]].
  unfold psub. rewrite C1, C2. split; [split; [reflexivity | apply rnd32_unit, H]|]. rewrite V1. reflexivity.
Qed.
Lemma p_one_unit : unit32 p_one.
Proof. destruct p_one_val as [F V]. split; [exact F | rewrite V; lra]. Qed.
Lemma p_or_unit : forall x y, unit32 x -> unit32 y -> unit32 (p_or x y).
Proof.
  intros x y Hx Hy. unfold p_or. destruct (psub_unit _ Hx) as [Ux _]. destruct (psub_unit _ Hy) as [Uy _].
  destruct (pmul_unit _ _ Ux Uy) as [Um _]. apply (psub_unit _ Um).
Qed.

(** ** powi on 0.25 *)
Local Open Scope Z_scope.
Definition quarter_pow (k : Z) : f32 := if k <=? 74 then plit 1 (-2 * k) else B754_zero false.
Definition f32_eqb (x y : f32) : bool :=
  match x, y with
  | B754_zero a, B754_zero b => Bool.eqb a b
  | B754_infinity a, B754_infinity b => Bool.eqb a b
  | B754_nan, B754_nan => true
  | B754_finite a m e _, B754_finite b m' e' _ => Bool.eqb a b && Pos.eqb m m' && Z.eqb e e'
  | _, _ => false
  end.
Lemma f32_eqb_eq : forall x y, f32_eqb x y = true -> x = y.
Proof.
  intros [a|a| |a m e H] [b|b| |b m' e' H']; cbn; try discriminate; intros E.
  - apply eqb_prop in E. congruence.
  - apply eqb_prop in E. congruence.
  - reflexivity.
  - apply andb_prop in E. destruct E as [E E3]. apply andb_prop in E. destruct E as [E1 E2].
    apply eqb_prop in E1. apply Pos.eqb_eq in E2. apply Z.eqb_eq in E3. subst. f_equal. apply Eqdep_dec.UIP_dec, bool_dec.
Qed.
(** zero stays zero *)
Definition pos_fin (x : f32) : bool := match x with B754_zero false => true | B754_finite false _ _ _ => true | _ => false end.
Lemma pmul_zero_r : forall x, pos_fin x = true -> pmul x (B754_zero false) = B754_zero false.
Proof. intros [[|]|[|]| |[|] m e H]; cbn; try discriminate; reflexivity. Qed.
Lemma powi_loop_zero : forall s b r, pos_fin r = true -> 0 < b < 2 ^ Z.of_nat s -> powi_loop s (B754_zero false) b r = B754_zero false.
Proof.
  induction s as [|s IH]; intros b r Hr Hb; [cbn in Hb; lia|].
  cbn [powi_loop]. rewrite Z.quot_div_nonneg by lia.
  replace (pmul (B754_zero false) (B754_zero false)) with (B754_zero false : f32) by reflexivity.
  pose proof (Z.div_mod b 2 ltac:(lia)) as D. rewrite Zmod_odd in D.
  destruct (Z.eqb_spec (b / 2) 0) as [E|E].
  - destruct (Z.odd b); [apply pmul_zero_r, Hr | lia].
  - apply IH.
    + destruct (Z.odd b); [rewrite pmul_zero_r by exact Hr; reflexivity | exact Hr].
    + rewrite Nat2Z.inj_succ, Z.pow_succ_r in Hb by lia. split; [|apply Z.div_lt_upper_bound; lia].
      assert (0 <= b / 2) by (apply Z.div_pos; lia). lia.
Qed.
Lemma quarter_small_all : forallb (fun k => f32_eqb (powi_loop 32 p_quarter (Z.of_nat k) p_one) (quarter_pow (Z.of_nat k))) (seq 0 256) = true.
Proof. vm_compute. reflexivity. Qed.
(** eight steps for the low eight bits *)
Fixpoint low_steps (s : nat) (a : f32) (b : Z) (r : f32) : f32 * f32 :=
  match s with
  | O => (a, r)
  | S s => low_steps s (pmul a a) (b / 2) (if Z.odd b then pmul r a else r)
  end.
Lemma low_steps_mod : forall s a b r, 0 <= b -> low_steps s a (b mod 2 ^ Z.of_nat s) r = low_steps s a b r.
Proof.
  induction s as [|s IH]; intros a b r Hb; [reflexivity|].
  cbn [low_steps]. rewrite Nat2Z.inj_succ, Z.pow_succ_r by lia.
  assert (P : 0 < 2 ^ Z.of_nat s) by (apply Z.pow_pos_nonneg; lia).
  assert (O : Z.odd (b mod (2 * 2 ^ Z.of_nat s)) = Z.odd b).
  { rewrite (Z.div_mod b (2 * 2 ^ Z.of_nat s)) at 2 by lia. rewrite <- Z.mul_assoc, Z.add_comm, Z.odd_add_mul_2. reflexivity. }
  rewrite O. rewrite <- (IH _ (b / 2)) by (apply Z.div_pos; lia). f_equal.
  rewrite Z.rem_mul_r by lia. rewrite (Z.mul_comm 2 ((b / 2) mod _)), Z.div_add by lia. rewrite (Z.div_small (b mod 2)) by (apply Z.mod_pos_bound; lia). lia.
Qed.
Lemma powi_loop_low : forall s s' a b r, 2 ^ Z.of_nat s <= b -> let '(a', r') := low_steps s a b r in
  powi_loop (s + s') a b r = powi_loop s' a' (b / 2 ^ Z.of_nat s) r'.
Proof.
  induction s as [|s IH]; intros s' a b r Hb.
  - cbn [low_steps Nat.add]. change (2 ^ Z.of_nat 0) with 1. rewrite Z.div_1_r. reflexivity.
  - rewrite Nat2Z.inj_succ, Z.pow_succ_r in * by lia. assert (P : 0 < 2 ^ Z.of_nat s) by (apply Z.pow_pos_nonneg; lia).
    assert (Hq : 2 ^ Z.of_nat s <= b / 2) by (apply Z.div_le_lower_bound; lia).
    cbn [low_steps Nat.add powi_loop]. rewrite Z.quot_div_nonneg by lia.
    specialize (IH s' (pmul a a) (b / 2) (if Z.odd b then pmul r a else r) Hq).
    destruct (low_steps s (pmul a a) (b / 2) (if Z.odd b then pmul r a else r)) as [a' r'].
    destruct (Z.eqb_spec (b / 2) 0); [lia|]. rewrite IH. rewrite Z.div_div by lia. reflexivity.
Qed.
Lemma low_all : forallb (fun k => let '(a, r) := low_steps 8 p_quarter (Z.of_nat k) p_one in f32_eqb a (B754_zero false) && pos_fin r) (seq 0 256) = true.
Proof. vm_compute. reflexivity. Qed.
Lemma powi_quarter : forall k, 0 <= k < 2 ^ 31 -> powi p_quarter k = quarter_pow k.
Proof.
  intros k Hk. unfold powi. destruct (Z.ltb_spec k 0); [lia|].
  destruct (Z.lt_ge_cases k 256) as [H1|H1].
  - pose proof (proj1 (forallb_forall _ _) quarter_small_all (Z.to_nat k)) as Q. cbv beta in Q. rewrite Z2Nat.id in Q by lia.
    apply f32_eqb_eq, Q. apply in_seq. lia.
  - change 32%nat with (8 + 24)%nat. pose proof (powi_loop_low 8 24 p_quarter k p_one H1) as Q.
    rewrite <- low_steps_mod in Q by lia. change (2 ^ Z.of_nat 8) with 256 in Q.
    pose proof (proj1 (forallb_forall _ _) low_all (Z.to_nat (k mod 256))) as R. cbv beta in R.
    pose proof (Z.mod_pos_bound k 256 ltac:(lia)) as M. rewrite Z2Nat.id in R by lia. specialize (R ltac:(apply in_seq; lia)).
    destruct (low_steps 8 p_quarter (k mod 256) p_one) as [a r]. apply andb_prop in R. destruct R as [R1 R2]. apply f32_eqb_eq in R1. subst a.
    rewrite Q. rewrite powi_loop_zero; [|exact R2|].
    + unfold quarter_pow. destruct (Z.leb_spec k 74); [lia | reflexivity].
    + split; [apply Z.div_str_pos; lia|]. apply Z.div_lt_upper_bound; [lia|]. change (256 * 2 ^ Z.of_nat 24) with (2 ^ 32). lia.
Qed.
Lemma as_i32_small : forall k, 0 <= k < 2 ^ 31 -> as_i32 k = k.
Proof. intros k Hk. unfold as_i32. rewrite Z.mod_small by lia. destruct (Z.ltb_spec k (2 ^ 31)); [reflexivity | lia]. Qed.
