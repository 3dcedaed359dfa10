(** * Rounding errors of the formulas in prime_pi_bounds and nth_prime_bounds *)
From Coq Require Import Reals ZArith Lia Lra Bool.
From Flocq Require Import Core BinarySingleNaN.
From Interval Require Import Tactic.
From Verif Require Import Base PBase FArith MFloat.
Local Open Scope R_scope.

(** What is asked of the platform's logarithm: on numbers from 1 on the result is off by at most one
    part in 2^50 (a few units in the last place). *)
Definition ln_ok (L : f64 -> f64) : Prop :=
  forall x, fin x -> 1 <= val x -> fin (L x) /\ Rabs (val (L x) - ln (val x)) <= ln (val x) / 2 ^ 50.

Lemma ln_le_sub1 : forall z, 0 < z -> ln z <= z - 1.
Proof. intros z Hz. pose proof (exp_ineq1_le (ln z)) as H. rewrite (exp_ln z Hz) in H. lra. Qed.
Lemma ln_lip : forall x y d, 0 < x -> 0 <= d <= / 2 -> Rabs (y - x) <= x * d -> Rabs (ln y - ln x) <= 2 * d.
Proof.
  intros x y d Hx Hd H. apply Rabs_bd in H. assert (Hy : 0 < y) by nra.
  assert (A : ln y - ln x <= d).
  { replace (ln y - ln x) with (ln (y / x)) by (unfold Rdiv; rewrite ln_mult, ln_Rinv by (try apply Rinv_0_lt_compat; lra); ring).
    eapply Rle_trans; [apply ln_le_sub1; apply Rdiv_lt_0_compat; lra|]. replace (y / x - 1) with ((y - x) / x) by (field; lra).
    apply Rle_trans with (x * d / x); [apply Rmult_le_compat_r; [apply Rlt_le, Rinv_0_lt_compat; lra | lra] | right; field; lra]. }
  assert (B : ln x - ln y <= 2 * d).
  { replace (ln x - ln y) with (ln (x / y)) by (unfold Rdiv; rewrite ln_mult, ln_Rinv by (try apply Rinv_0_lt_compat; lra); ring).
    eapply Rle_trans; [apply ln_le_sub1; apply Rdiv_lt_0_compat; lra|]. replace (x / y - 1) with ((x - y) / y) by (field; lra).
    assert (x / 2 <= y) by nra. apply Rmult_le_reg_r with y; [lra|]. unfold Rdiv. rewrite Rmult_assoc, Rinv_l, Rmult_1_r by lra. nra. }
  apply Rabs_le. lra.
Qed.

(** ln of something known up to the relative error d *)
Lemma ap_ln : forall L s x M d f, ln_ok L -> 0 < x -> 0 < s -> 2 <= s * x / 2 -> fin f -> Rabs (val f - s * x) <= s * x * d -> 0 <= d <= / 8 ->
  0 <= ln (s * x) <= M -> ap 1 (ln (s * x)) M ((M + 2 * d) / 2 ^ 50 + 2 * d) (L f).
Proof.
  intros L s x M d f HL Hx Hs H2 Hf Hd Hd8 HM. assert (Hp : 0 < s * x) by lra.
  pose proof (ln_lip (s * x) (val f) d Hp ltac:(lra) Hd) as Hl. apply Rabs_bd in Hd.
  assert (Hv : 1 <= val f) by nra. destruct (HL f Hf Hv) as [A B]. split; [exact A|]. split; [rewrite Rabs_pos_eq; lra|].
  rewrite !Rmult_1_l. pose proof (Rabs_bd _ _ Hl) as Hl'.
  eapply Rabs_sub_le; [|exact Hl]. eapply Rle_trans; [exact B|]. apply Rmult_le_compat_r; [apply Rlt_le, Rinv_0_lt_compat; lra | lra].
Qed.
Lemma ap_lit : forall a b, (0 <= a <= 2 ^ 53)%Z -> (0 < b <= 2 ^ 53)%Z -> ap 1 (IZR a / IZR b) (IZR a / IZR b) ((IZR a / IZR b + 1) * u53) (flit a b).
Proof.
  intros a b Ha Hb. destruct (fint_exact a ltac:(lia)) as [A1 A2]. destruct (fint_exact b ltac:(lia)) as [B1 B2].
  assert (P1 : 0 <= IZR a <= 9007199254740992) by (split; apply IZR_le; lia). assert (P2 : 1 <= IZR b) by (apply IZR_le; lia).
  assert (Q : 0 <= IZR a / IZR b <= IZR a).
  { split; [apply Rmult_le_pos; [lra | apply Rlt_le, Rinv_0_lt_compat; lra]|]. apply Rmult_le_reg_r with (IZR b); [lra|]. unfold Rdiv. rewrite Rmult_assoc, Rinv_l, Rmult_1_r by lra. nra. }
  destruct (fdiv_spec (fint a) (fint b)) as [C1 C2]; [exact A1 | rewrite B2; lra | rewrite A2, B2, Rabs_pos_eq by lra; unfold big; lra|].
  rewrite A2, B2 in C2. rewrite (Rabs_pos_eq (IZR a / IZR b)) in C2 by lra. split; [exact C1|]. split; [rewrite Rabs_pos_eq; lra|]. rewrite !Rmult_1_l. exact C2.
Qed.

(** ln n and ln (ln n), for 55 <= n < 2^128 *)
Definition in128 (n : Z) : Prop := (55 <= n < 2 ^ 128)%Z.
Lemma ln_range : forall n, in128 n -> 4 <= ln (IZR n) <= 90.
Proof.
  intros n [H1 H2]. assert (A : 55 <= IZR n <= 340282366920938463463374607431768211456) by (split; apply IZR_le; lia). split; interval with (i_prec 40).
Qed.
Lemma lnln_range : forall n, in128 n -> 13 / 10 <= ln (ln (IZR n)) <= 45 / 10.
Proof. intros n H. pose proof (ln_range n H) as R. revert R. generalize (ln (IZR n)). intros l R. split; interval with (i_prec 40). Qed.
Lemma ap_lnn : forall L n, ln_ok L -> in128 n -> ap 1 (ln (IZR n)) 90 (730 * u53) (L (fint n)).
Proof.
  intros L n HL Hn. pose proof (ln_range n Hn) as Hr. unfold in128 in Hn. assert (A : 55 <= IZR n) by (apply IZR_le; lia).
  destruct (ap_scale n ltac:(lia)) as [S1 [_ S3]]. rewrite Rmult_1_r in S3.
  pose proof (ap_ln L 1 (IZR n) 90 (2 * u53) (fint n) HL ltac:(lra) ltac:(lra) ltac:(lra) S1) as H. rewrite !Rmult_1_l in H.
  eapply ap_weaken; [lra | apply H; [exact S3 | unfold u53; lra | lra] | lra | unfold u53; lra].
Qed.
Lemma ap_lnln : forall L n, ln_ok L -> in128 n -> ap 1 (ln (ln (IZR n))) (45 / 10) (410 * u53) (L (L (fint n))).
Proof.
  intros L n HL Hn. pose proof (ln_range n Hn) as Hr. pose proof (lnln_range n Hn) as Hrr. destruct (ap_lnn L n HL Hn) as [S1 [S2 S3]]. rewrite !Rmult_1_l in S3.
  pose proof (ap_ln L 1 (ln (IZR n)) (45 / 10) (183 * u53) (L (fint n)) HL ltac:(lra) ltac:(lra) ltac:(lra) S1) as H. rewrite !Rmult_1_l in H.
  eapply ap_weaken; [lra | apply H; [pose proof u53_pos; nra | unfold u53; lra | lra] | lra | unfold u53; lra].
Qed.

(** ** The formulas over the reals *)
Definition r_f1 (c n : R) : R := ln n + ln (ln n) - c.
Definition r_f2 (c n : R) : R := ln n + ln (ln n) - 1 + (ln (ln n) - c) / ln n.
Definition r_f3 (c n : R) : R :=
  ln n + ln (ln n) - 1 + (ln (ln n) - 2) / ln n - (ln (ln n) * ln (ln n) - 6 * ln (ln n) + c) / (2 * ln n * ln n).

Ltac num := unfold u53, big; lra.
Ltac stepA H H1 H2 B E :=
  pose proof (ap_add 1 _ _ _ _ _ _ _ _ (Rle_refl 1) H1 H2 ltac:(num)) as H; apply (ap_weaken 1 _ _ _ B E) in H; [| lra | num | num].
Ltac stepS H H1 H2 B E :=
  pose proof (ap_sub 1 _ _ _ _ _ _ _ _ (Rle_refl 1) H1 H2 ltac:(num)) as H; apply (ap_weaken 1 _ _ _ B E) in H; [| lra | num | num].
Ltac stepM H H1 H2 B E :=
  pose proof (ap_mul 1 _ _ _ _ _ _ _ _ (Rle_refl 1) H1 H2 ltac:(num) ltac:(num)) as H; apply (ap_weaken 1 _ _ _ B E) in H; [| lra | num | num].
Ltac stepD H H1 H2 L HL B E :=
  pose proof (ap_div 1 _ _ _ _ _ _ L _ _ (Rle_refl 1) H1 H2 ltac:(lra) HL ltac:(num) ltac:(num) ltac:(num)) as H; apply (ap_weaken 1 _ _ _ B E) in H; [| lra | num | num].

Lemma scale_big : forall n k, in128 n -> 0 <= k <= 1000 -> IZR n * k <= big.
Proof.
  intros n k [H1 H2] Hk. assert (A : 55 <= IZR n <= 340282366920938463463374607431768211456) by (split; apply IZR_le; lia).
  apply Rle_trans with (340282366920938463463374607431768211456 * 1000); [apply Rmult_le_compat; lra | unfold big; lra].
Qed.
Lemma ge1 : forall n, in128 n -> 1 <= IZR n.
Proof. intros n [H1 H2]. apply IZR_le. lia. Qed.
(** the last multiplication, by [n as f64] *)
Lemma ap_final : forall n y B e g, in128 n -> ap 1 y B e g -> 0 <= B <= 100 -> 0 <= e <= 1 ->
  ap (IZR n) y B (e + 2 * u53 * B + 2 * u53 * e + (B + (e + 2 * u53 * B + 2 * u53 * e) + 1) * u53) (fmul (fint n) g).
Proof.
  intros n y B e g Hn Hg HB He. pose proof (ge1 n Hn) as H1. unfold in128 in Hn. pose proof (ap_scale n ltac:(lia)) as Hs. pose proof u53_pos as Hu.
  assert (Hu1 : u53 <= / 1000) by num.
  assert (P : 0 <= 2 * u53 * B <= 1) by (split; [apply Rmult_le_pos; lra | nra]). assert (P' : 0 <= 2 * u53 * e <= 1) by (split; [apply Rmult_le_pos; lra | nra]).
  pose proof (ap_mul (IZR n) 1 y 1 B (2 * u53) e _ _ H1 Hs Hg ltac:(lra)) as H. rewrite !Rmult_1_l in H. apply H. apply scale_big; [exact Hn | lra].
Qed.

Definition tol : R := / 274877906944. (* 2^-38 *)
Section Nth.
Context (L : f64 -> f64) (HL : ln_ok L) (n : Z) (Hn : in128 n).
Let A1 : ap 1 (ln (IZR n)) 90 (730 * u53) (L (fint n)) := ap_lnn L n HL Hn.
Let A2 : ap 1 (ln (ln (IZR n))) (45 / 10) (410 * u53) (L (L (fint n))) := ap_lnln L n HL Hn.
Lemma ap_one : ap 1 1 1 0 (fint 1).
Proof. pose proof (ap_int 1 ltac:(lia)) as H. rewrite Rabs_R1 in H. exact H. Qed.
Lemma ap_two : ap 1 2 2 0 (fint 2).
Proof. pose proof (ap_int 2 ltac:(lia)) as H. rewrite Rabs_pos_eq in H by lra. exact H. Qed.
Lemma ap_six : ap 1 6 6 0 (fint 6).
Proof. pose proof (ap_int 6 ltac:(lia)) as H. rewrite Rabs_pos_eq in H by lra. exact H. Qed.

Lemma nth_f1_ap : forall c cf, ap 1 c 1 (2 * u53) cf -> ap (IZR n) (r_f1 c (IZR n)) 100 tol (nth_f1 L cf n).
Proof.
  intros c cf Hc. stepA S1 A1 A2 95 (1240 * u53). stepS S2 S1 Hc 96 (1345 * u53).
  pose proof (ap_final n _ _ _ _ Hn S2 ltac:(lra) ltac:(num)) as H. eapply ap_weaken; [pose proof (ge1 n Hn); lra | exact H | lra | unfold tol; num].
Qed.
Lemma nth_f2_ap : forall c cf, ap 1 c (21 / 10) (4 * u53) cf -> ap (IZR n) (r_f2 c (IZR n)) 100 tol (nth_f2 L cf n).
Proof.
  intros c cf Hc. pose proof (ln_range n Hn) as Hr. stepA S1 A1 A2 95 (1240 * u53). stepS S2 S1 ap_one 96 (1345 * u53). stepS S3 A2 Hc 7 (425 * u53).
  stepD S4 S3 A1 4 (proj1 Hr) 2 (440 * u53). stepA S5 S2 S4 98 (1900 * u53).
  pose proof (ap_final n _ _ _ _ Hn S5 ltac:(lra) ltac:(num)) as H. eapply ap_weaken; [pose proof (ge1 n Hn); lra | exact H | lra | unfold tol; num].
Qed.
Lemma nth_f3_ap : forall c cf, ap 1 c 12 (13 * u53) cf -> ap (IZR n) (r_f3 c (IZR n)) 100 tol (nth_f3 L cf n).
Proof.
  intros c cf Hc. pose proof (ln_range n Hn) as Hr. stepA S1 A1 A2 95 (1240 * u53). stepS S2 S1 ap_one 96 (1345 * u53). stepS S3 A2 ap_two 7 (425 * u53).
  stepD S4 S3 A1 4 (proj1 Hr) 2 (440 * u53). stepA S5 S2 S4 98 (1900 * u53).
  stepM T1 A2 A2 21 (3720 * u53). stepM T2 ap_six A2 27 (2500 * u53). stepS T3 T1 T2 48 (6280 * u53). stepA T4 T3 Hc 60 (6370 * u53).
  stepM T5 ap_two A1 180 (1650 * u53). stepM T6 T5 A1 16200 (296200 * u53).
  assert (Hd : 32 <= 2 * ln (IZR n) * ln (IZR n)) by nra. stepD T7 T4 T6 32 Hd 2 (17700 * u53). stepS V S5 T7 100 (19800 * u53).
  pose proof (ap_final n _ _ _ _ Hn V ltac:(lra) ltac:(num)) as H. eapply ap_weaken; [pose proof (ge1 n Hn); lra | exact H | lra | unfold tol; num].
Qed.
End Nth.

(** ** The real bounds that the code approximates *)
Local Open Scope Z_scope.
Definition r_nth_lo (x : Z) : R :=
  (if 317200 <=? x then r_f3 (11321 / 1000) (IZR x)
   else if 3520 <=? x then r_f2 (21 / 10) (IZR x)
   else r_f1 1 (IZR x))%R.
Definition r_nth_hi (x : Z) : R :=
  (if (46254381 <=? x)%Z then r_f3 (10667 / 1000) (IZR x)
   else if (8009824 <=? x)%Z then r_f3 (10273 / 1000) (IZR x)
   else if (688383 <=? x)%Z then r_f2 2 (IZR x)
   else if (178974 <=? x)%Z then r_f2 (195 / 100) (IZR x)
   else if (39017 <=? x)%Z then r_f1 (9484 / 10000) (IZR x)
   else if (27076 <=? x)%Z then r_f2 (18 / 10) (IZR x)
   else r_f1 (5 / 10) (IZR x))%R.
Local Open Scope R_scope.

Ltac lit a b B E := let H := fresh in pose proof (ap_lit a b ltac:(lia) ltac:(lia)) as H; apply (ap_weaken 1 _ _ _ B E) in H; [exact H | lra | lra | num].
Lemma nth_lo_ap : forall L n, ln_ok L -> in128 n -> ap (IZR n) (r_nth_lo n) 100 tol (nth_lo L n).
Proof.
  intros L n HL Hn. unfold nth_lo, r_nth_lo. pose proof (ge1 n Hn). destruct (317200 <=? n)%Z; [|destruct (3520 <=? n)%Z].
  - apply nth_f3_ap; auto. lit 11321%Z 1000%Z 12 (13 * u53).
  - eapply ap_weaken; [lra | apply nth_f2_ap; auto; lit 21%Z 10%Z (21 / 10) (4 * u53) | lra | lra].
  - eapply ap_weaken; [lra | apply nth_f1_ap; auto; apply (ap_weaken 1 _ 1 0); [lra | apply ap_one | lra | num] | lra | lra].
Qed.
Lemma nth_hi_ap : forall L n, ln_ok L -> in128 n -> ap (IZR n) (r_nth_hi n) 100 tol (nth_hi L n).
Proof.
  intros L n HL Hn. unfold nth_hi, r_nth_hi. pose proof (ge1 n Hn).
  destruct (46254381 <=? n)%Z; [|destruct (8009824 <=? n)%Z; [|destruct (688383 <=? n)%Z; [|destruct (178974 <=? n)%Z; [|destruct (39017 <=? n)%Z; [|destruct (27076 <=? n)%Z]]]]].
  - apply nth_f3_ap; auto. lit 10667%Z 1000%Z 12 (13 * u53).
  - apply nth_f3_ap; auto. lit 10273%Z 1000%Z 12 (13 * u53).
  - eapply ap_weaken; [lra | apply nth_f2_ap; auto; apply (ap_weaken 1 _ 2 0); [lra | apply ap_two | lra | num] | lra | lra].
  - eapply ap_weaken; [lra | apply nth_f2_ap; auto; lit 195%Z 100%Z (21 / 10) (4 * u53) | lra | lra].
  - eapply ap_weaken; [lra | apply nth_f1_ap; auto; lit 9484%Z 10000%Z 1 (2 * u53) | lra | lra].
  - eapply ap_weaken; [lra | apply nth_f2_ap; auto; lit 18%Z 10%Z (21 / 10) (4 * u53) | lra | lra].
  - eapply ap_weaken; [lra | apply nth_f1_ap; auto; lit 5%Z 10%Z 1 (2 * u53) | lra | lra].
Qed.

(** ** prime_pi_bounds: everything as a multiple of n; 1 / ln n is called i *)
Definition in128pi (n : Z) : Prop := (252 <= n < 2 ^ 128)%Z.
Definition r_q (c n : R) : R := 1 / (ln n - 1 - c * (1 / ln n)).
Definition r_r (c n : R) : R := 1 / (ln n - c).
Definition r_s0 (n : R) : R := 1 / ln n.
Definition r_s1 (c n : R) : R := 1 / ln n * (1 + 1 / ln n * c).
Definition r_s2 (c n : R) : R := 1 / ln n * (1 + 1 / ln n * (1 + 1 / ln n * c)).
Definition r_s3 (c n : R) : R := 1 / ln n * (1 + 1 / ln n * (1 + 1 / ln n * (2 + 1 / ln n * c))).
Lemma in128pi_in128 : forall n, in128pi n -> in128 n.
Proof. unfold in128pi, in128. intros. lia. Qed.
Lemma ln_range_pi : forall n, in128pi n -> 11 / 2 <= ln (IZR n) <= 90.
Proof.
  intros n Hn. split; [|apply (ln_range n (in128pi_in128 n Hn))]. destruct Hn as [H1 H2]. assert (A : 252 <= IZR n <= 340282366920938463463374607431768211456) by (split; apply IZR_le; lia). interval with (i_prec 40).
Qed.
Lemma ap_scale' : forall n, in128pi n -> ap (IZR n) 1 1 (2 * u53) (fint n).
Proof. intros n [H1 H2]. apply ap_scale. lia. Qed.
(** division of [n as f64] *)
Lemma ap_finald : forall n y B e l g, in128pi n -> ap 1 y B e g -> 4 <= l -> l <= y -> 0 <= e <= 1 -> 
  ap (IZR n) (1 / y) (1 / l) ((2 * u53 + 1 / l * e) / (l - e) + (1 / l + (2 * u53 + 1 / l * e) / (l - e) + 1) * u53) (fdiv (fint n) g).
Proof.
  intros n y B e l g Hn Hg Hl Hy He. pose proof (ge1 n (in128pi_in128 n Hn)) as H1.
  apply (ap_div (IZR n) 1 y 1 B (2 * u53) e l); auto; try lra; [apply ap_scale', Hn | num|].
  assert (A : 0 <= 1 / l <= 1). { split; [apply Rmult_le_pos; [lra | apply Rlt_le, Rinv_0_lt_compat; lra]|]. apply Rmult_le_reg_r with l; [lra|]. unfold Rdiv. rewrite Rmult_assoc, Rinv_l by lra. lra. }
  assert (C : 0 <= (2 * u53 + 1 / l * e) / (l - e) <= 1).
  { assert (N0 : 0 <= 2 * u53 + 1 / l * e <= 3) by (assert (0 <= 1 / l * e <= 1) by (split; [apply Rmult_le_pos; lra | nra]); split; num).
    split; [apply Rmult_le_pos; [lra | apply Rlt_le, Rinv_0_lt_compat; lra]|]. apply Rmult_le_reg_r with (l - e); [lra|]. unfold Rdiv at 1. rewrite Rmult_assoc, Rinv_l by lra. lra. }
  apply scale_big; [apply in128pi_in128, Hn | lra].
Qed.
Lemma ap_mulS : forall n x y B1 B2 e1 e2 f g, in128pi n -> ap (IZR n) x B1 e1 f -> ap 1 y B2 e2 g -> 0 <= B1 <= 10 -> 0 <= B2 <= 10 -> 0 <= e1 <= 1 -> 0 <= e2 <= 1 ->
  ap (IZR n) (x * y) (B1 * B2) (B1 * e2 + e1 * B2 + e1 * e2 + (B1 * B2 + (B1 * e2 + e1 * B2 + e1 * e2) + 1) * u53) (fmul f g).
Proof.
  intros n x y B1 B2 e1 e2 f g Hn Hf Hg K1 K2 K3 K4. apply ap_mul; auto; [apply ge1, in128pi_in128, Hn | lra|]. apply scale_big; [apply in128pi_in128, Hn|].
  assert (0 <= B1 * B2 <= 100) by (split; [apply Rmult_le_pos; lra | nra]). assert (0 <= B1 * e2 <= 10) by (split; [apply Rmult_le_pos; lra | nra]).
  assert (0 <= e1 * B2 <= 10) by (split; [apply Rmult_le_pos; lra | nra]). assert (0 <= e1 * e2 <= 1) by (split; [apply Rmult_le_pos; lra | nra]). lra.
Qed.
Ltac fin H := eapply ap_weaken; [lra | exact H | lra | unfold tol; num].

Section Pi.
Context (L : f64 -> f64) (HL : ln_ok L) (n : Z) (Hn : in128pi n).
Let A1 : ap 1 (ln (IZR n)) 90 (730 * u53) (L (fint n)) := ap_lnn L n HL (in128pi_in128 n Hn).
Let Hr : 11 / 2 <= ln (IZR n) <= 90 := ln_range_pi n Hn.
Let G1 : 1 <= IZR n := ge1 n (in128pi_in128 n Hn).
Lemma i_pos : 0 <= 1 / ln (IZR n) <= 2 / 11.
Proof.
  split; [apply Rmult_le_pos; [lra | apply Rlt_le, Rinv_0_lt_compat; lra]|]. apply Rmult_le_reg_r with (ln (IZR n)); [lra|]. unfold Rdiv at 1. rewrite Rmult_assoc, Rinv_l by lra. lra.
Qed.
Lemma ap_inv : ap 1 (1 / ln (IZR n)) (2 / 11) (26 * u53) (frecip (L (fint n))).
Proof. unfold frecip. stepD S1 ap_one A1 (11 / 2) (proj1 Hr) (2 / 11) (26 * u53). exact S1. Qed.
Lemma ap_ninv : ap (IZR n) (1 / ln (IZR n)) (2 / 11) (29 * u53) (fmul (fint n) (frecip (L (fint n)))).
Proof. pose proof (ap_mulS n _ _ _ _ _ _ _ _ Hn (ap_scale' n Hn) ap_inv ltac:(lra) ltac:(lra) ltac:(num) ltac:(num)) as H. rewrite Rmult_1_l in H. eapply ap_weaken; [lra | exact H | lra | num]. Qed.
Lemma pi_q_ap : ap (IZR n) (r_q 1 (IZR n)) 1 tol (pi_q L n).
Proof.
  pose proof i_pos as Hi. stepS S1 A1 ap_one 91 (830 * u53). stepS S2 S1 ap_inv 92 (960 * u53).
  assert (Hy : 43 / 10 <= ln (IZR n) - 1 - 1 / ln (IZR n)) by lra.
  pose proof (ap_finald n _ _ _ (43 / 10) _ Hn S2 ltac:(lra) Hy ltac:(num)) as H. unfold r_q. rewrite Rmult_1_l. fin H.
Qed.
Lemma pi_qc_ap : forall c cf, 0 <= c -> ap 1 c (13 / 10) (3 * u53) cf -> ap (IZR n) (r_q c (IZR n)) 1 tol (pi_qc L cf n).
Proof.
  intros c cf C0 Hc. pose proof i_pos as Hi. stepS S1 A1 ap_one 91 (830 * u53). stepM S2 Hc ap_inv (26 / 110) (38 * u53). stepS S3 S1 S2 92 (970 * u53).
  assert (Hy : 42 / 10 <= ln (IZR n) - 1 - c * (1 / ln (IZR n))).
  { assert (c * (1 / ln (IZR n)) <= 13 / 10 * (2 / 11)) by (apply Rmult_le_compat; try lra; apply (Rle_trans _ (Rabs c)); [apply Rle_abs | apply Hc]). lra. }
  pose proof (ap_finald n _ _ _ (42 / 10) _ Hn S3 ltac:(lra) Hy ltac:(num)) as H. fin H.
Qed.
Lemma pi_r_ap : forall c cf, ap 1 c (112 / 100) (3 * u53) cf -> ap (IZR n) (r_r c (IZR n)) 1 tol (pi_r L cf n).
Proof.
  intros c cf Hc. stepS S1 A1 Hc 92 (840 * u53).
  assert (Hy : 43 / 10 <= ln (IZR n) - c) by (assert (c <= 112 / 100) by (apply (Rle_trans _ (Rabs c)); [apply Rle_abs | apply Hc]); lra).
  pose proof (ap_finald n _ _ _ (43 / 10) _ Hn S1 ltac:(lra) Hy ltac:(num)) as H. fin H.
Qed.
Lemma pi_s0_ap : ap (IZR n) (r_s0 (IZR n)) 1 tol (pi_s0 L n).
Proof. pose proof ap_ninv as H. fin H. Qed.
Lemma pi_s1_ap : ap (IZR n) (r_s1 1 (IZR n)) 1 tol (pi_s1 L n).
Proof.
  stepA S1 ap_one ap_inv (13 / 11) (30 * u53). pose proof (ap_mulS n _ _ _ _ _ _ _ _ Hn ap_ninv S1 ltac:(lra) ltac:(lra) ltac:(num) ltac:(num)) as H. unfold r_s1. rewrite Rmult_1_r. fin H.
Qed.
Lemma pi_s1c_ap : forall c cf, ap 1 c (13 / 10) (3 * u53) cf -> ap (IZR n) (r_s1 c (IZR n)) 1 tol (pi_s1c L cf n).
Proof.
  intros c cf Hc. stepM S1 ap_inv Hc (1 / 4) (38 * u53). stepA S2 ap_one S1 (5 / 4) (42 * u53).
  pose proof (ap_mulS n _ _ _ _ _ _ _ _ Hn ap_ninv S2 ltac:(lra) ltac:(lra) ltac:(num) ltac:(num)) as H. fin H.
Qed.
Lemma pi_s2_ap : ap (IZR n) (r_s2 2 (IZR n)) 1 tol (pi_s2 L n).
Proof.
  stepM S1 ap_two ap_inv (4 / 11) (55 * u53). stepA S2 ap_one S1 (15 / 11) (60 * u53). stepM S3 ap_inv S2 (1 / 2) (55 * u53). stepA S4 ap_one S3 (3 / 2) (60 * u53).
  pose proof (ap_mulS n _ _ _ _ _ _ _ _ Hn ap_ninv S4 ltac:(lra) ltac:(lra) ltac:(num) ltac:(num)) as H. unfold r_s2. rewrite (Rmult_comm (1 / ln (IZR n)) 2). fin H.
Qed.
Lemma pi_s2c_ap : forall c cf, ap 1 c 3 (4 * u53) cf -> ap (IZR n) (r_s2 c (IZR n)) 1 tol (pi_s2c L cf n).
Proof.
  intros c cf Hc. stepM S1 ap_inv Hc (6 / 11) (84 * u53). stepA S2 ap_one S1 (17 / 11) (90 * u53). stepM S3 ap_inv S2 (1 / 2) (64 * u53). stepA S4 ap_one S3 (3 / 2) (70 * u53).
  pose proof (ap_mulS n _ _ _ _ _ _ _ _ Hn ap_ninv S4 ltac:(lra) ltac:(lra) ltac:(num) ltac:(num)) as H. fin H.
Qed.
Lemma pi_s3_ap : forall c cf, ap 1 c 8 (9 * u53) cf -> ap (IZR n) (r_s3 c (IZR n)) 1 tol (pi_s3 L cf n).
Proof.
  intros c cf Hc. stepM S1 ap_inv Hc (16 / 11) (220 * u53). stepA S2 ap_two S1 (38 / 11) (230 * u53). stepM S3 ap_inv S2 (7 / 11) (145 * u53). stepA S4 ap_one S3 (18 / 11) (150 * u53).
  stepM S5 ap_inv S4 (1 / 2) (80 * u53). stepA S6 ap_one S5 (3 / 2) (90 * u53).
  pose proof (ap_mulS n _ _ _ _ _ _ _ _ Hn ap_ninv S6 ltac:(lra) ltac:(lra) ltac:(num) ltac:(num)) as H. fin H.
Qed.
End Pi.

Definition r_pi_lo (x : Z) : R :=
  if (468049 <=? x)%Z then r_q 1 (IZR x)
  else if (88789 <=? x)%Z then r_s2 2 (IZR x)
  else if (5393 <=? x)%Z then r_r 1 (IZR x)
  else if (599 <=? x)%Z then r_s1 1 (IZR x)
  else r_s0 (IZR x).
Definition r_pi_hi (x : Z) : R :=
  if (7398600000 <=? x)%Z then r_s3 (759 / 100) (IZR x)
  else if (2953652287 <=? x)%Z then r_s2 (2334 / 1000) (IZR x)
  else if (467345 <=? x)%Z then r_q (12311 / 10000) (IZR x)
  else if (29927 <=? x)%Z then r_s2 (253816 / 100000) (IZR x)
  else if (5668 <=? x)%Z then r_r (1112 / 1000) (IZR x)
  else r_s1 (12762 / 10000) (IZR x).
Lemma pi_lo_ap : forall L n, ln_ok L -> in128pi n -> ap (IZR n) (r_pi_lo n) 1 tol (pi_lo L n).
Proof.
  intros L n HL Hn. unfold pi_lo, r_pi_lo. destruct (468049 <=? n)%Z; [|destruct (88789 <=? n)%Z; [|destruct (5393 <=? n)%Z; [|destruct (599 <=? n)%Z]]].
  - apply pi_q_ap; assumption.
  - apply pi_s2_ap; assumption.
  - apply pi_r_ap; try assumption. apply (ap_weaken 1 _ 1 0); [lra | apply ap_one | lra | num].
  - apply pi_s1_ap; assumption.
  - apply pi_s0_ap; assumption.
Qed.
Lemma pi_hi_ap : forall L n, ln_ok L -> in128pi n -> ap (IZR n) (r_pi_hi n) 1 tol (pi_hi L n).
Proof.
  intros L n HL Hn. unfold pi_hi, r_pi_hi.
  destruct (7398600000 <=? n)%Z; [|destruct (2953652287 <=? n)%Z; [|destruct (467345 <=? n)%Z; [|destruct (29927 <=? n)%Z; [|destruct (5668 <=? n)%Z]]]].
  - apply pi_s3_ap; try assumption. lit 759%Z 100%Z 8 (9 * u53).
  - apply pi_s2c_ap; try assumption. lit 2334%Z 1000%Z 3 (4 * u53).
  - apply pi_qc_ap; try assumption; [lra|]. lit 12311%Z 10000%Z (13 / 10) (3 * u53).
  - apply pi_s2c_ap; try assumption. lit 253816%Z 100000%Z 3 (4 * u53).
  - apply pi_r_ap; try assumption. lit 1112%Z 1000%Z (112 / 100) (3 * u53).
  - replace (148 <=? n)%Z with true by (unfold in128pi in Hn; symmetry; apply Z.leb_le; lia).
    apply pi_s1c_ap; try assumption. lit 12762%Z 10000%Z (13 / 10) (3 * u53).
Qed.

(** ** Truncation *)
Lemma trunc_val : forall f : f64, Btrunc f = Ztrunc (val f).
Proof.
  intros f. apply eq_IZR. unfold val. rewrite (Btrunc_correct 53 1024 emax1024). unfold round, scaled_mantissa, F2R, cexp, FIX_exp; cbn [Fnum Fexp].
  change (bpow radix2 (- 0)) with 1. change (bpow radix2 0) with 1. rewrite !Rmult_1_r. reflexivity.
Qed.
Lemma from_f64_u64 : forall (f : f64) w, fin f -> 0 <= val f < 2 ^ (Z.to_nat w) -> (0 <= w)%Z -> from_f64 (U w) f = Some (Zfloor (val f)).
Proof.
  intros f w Hf Hv Hw. unfold from_f64. rewrite Hf, trunc_val, Ztrunc_floor by lra. unfold from_prim.
  assert (A : (0 <= Zfloor (val f))%Z) by (apply Zfloor_lub; lra).
  assert (B : (Zfloor (val f) < 2 ^ w)%Z).
  { apply lt_IZR. apply Rle_lt_trans with (val f); [apply Zfloor_lb|]. replace (IZR (2 ^ w)) with (2 ^ (Z.to_nat w)); [lra|]. rewrite <- (Z2Nat.id w Hw) at 2. rewrite <- pow_IZR. reflexivity. }
  replace (in_rangeb (U w) (Zfloor (val f))) with true; [reflexivity|]. symmetry. apply (in_rangeb_spec (U w)). cbn. lia.
Qed.
