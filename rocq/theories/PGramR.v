(** * Gram's series over the reals: size of the terms, where they grow and where they shrink *)
From Coq Require Import Reals ZArith Lia Lra List.
From Interval Require Import Tactic.
From Verif Require Import SpecGram PFloat PGram PZeta.
Local Open Scope R_scope.

Section Series.
Context (y : R) (Hy : 11 / 2 <= y <= 90) (Z : nat -> R) (HZ : forall k, (1 <= k)%nat -> zeta_is (S k) (Z k)).
Definition T (k : nat) : R := y ^ k / (INR k * INR (fact k) * Z k).
Fixpoint Sm (k : nat) : R := match k with O => 0 | S k' => Sm k' + T (S k') end.

Lemma Z_ge1 : forall k, (1 <= k)%nat -> 1 <= Z k.
Proof. intros [|k] Hk; [lia|]. apply (zeta_ge1 k), HZ, Hk. Qed.
Lemma Z_small : forall k, (1 <= k)%nat -> Z k <= 1 + / INR k.
Proof. intros [|k] Hk; [lia|]. apply (zeta_small k), HZ, Hk. Qed.
Lemma Z_decr : forall k, (1 <= k)%nat -> Z (S k) <= Z k.
Proof. intros [|k] Hk; [lia|]. apply (zeta_decreasing k); apply HZ; lia. Qed.
Lemma fact_pos : forall k, 0 < INR (fact k).
Proof. intros k. apply lt_0_INR, lt_O_fact. Qed.
Lemma k_pos : forall k, (1 <= k)%nat -> 1 <= INR k.
Proof. intros k Hk. apply (le_INR 1), Hk. Qed.
Lemma T_pos : forall k, (1 <= k)%nat -> 0 < T k.
Proof.
  intros k Hk. pose proof (Z_ge1 k Hk). pose proof (fact_pos k). pose proof (k_pos k Hk). apply Rdiv_lt_0_compat; [apply pow_lt; lra|].
  apply Rmult_lt_0_compat; [apply Rmult_lt_0_compat|]; lra.
Qed.
Lemma T_succ : forall k, (1 <= k)%nat -> T (S k) = T k * (y / INR (S k)) * (INR k * Z k / (INR (S k) * Z (S k))).
Proof.
  intros k Hk. pose proof (Z_ge1 k Hk). pose proof (Z_ge1 (S k) ltac:(lia)). pose proof (fact_pos k). pose proof (k_pos k Hk). pose proof (k_pos (S k) ltac:(lia)).
  unfold T. change (fact (S k)) with (S k * fact k)%nat. rewrite mult_INR. cbn [pow]. field. repeat split; lra.
Qed.
Lemma T_step : forall k, (1 <= k)%nat -> T (S k) <= T k * (y / INR (S k)).
Proof.
  intros k Hk. rewrite (T_succ k Hk). pose proof (T_pos k Hk). pose proof (Z_ge1 (S k) ltac:(lia)). pose proof (Z_small k Hk) as A. pose proof (k_pos k Hk) as K. pose proof (S_INR k) as E.
  assert (P : 0 < y / INR (S k)) by (apply Rdiv_lt_0_compat; lra). rewrite <- (Rmult_1_r (T k * (y / INR (S k)))) at 2. apply Rmult_le_compat_l; [apply Rmult_le_pos; lra|].
  apply Rmult_le_reg_r with (INR (S k) * Z (S k)); [apply Rmult_lt_0_compat; lra|]. unfold Rdiv. rewrite Rmult_assoc, Rinv_l by (apply Rgt_not_eq, Rmult_lt_0_compat; lra). rewrite Rmult_1_r, Rmult_1_l.
  apply Rle_trans with (INR k * (1 + / INR k)); [apply Rmult_le_compat_l; lra|]. rewrite Rmult_plus_distr_l, Rinv_r by lra. replace (INR k * 1 + 1) with (INR (S k) * 1) by lra. apply Rmult_le_compat_l; lra.
Qed.
Lemma kT_mono : forall k, (1 <= k)%nat -> INR (S k) <= y -> INR k * T k <= INR (S k) * T (S k).
Proof.
  intros k Hk Hle. rewrite (T_succ k Hk). pose proof (T_pos k Hk) as P. pose proof (Z_ge1 (S k) ltac:(lia)) as Z1. pose proof (Z_decr k Hk) as D. pose proof (k_pos k Hk) as K. pose proof (k_pos (S k) ltac:(lia)) as K1.
  replace (INR (S k) * (T k * (y / INR (S k)) * (INR k * Z k / (INR (S k) * Z (S k))))) with (INR k * T k * (y / INR (S k) * (Z k / Z (S k)))) by (field; split; lra).
  assert (A : 1 <= y / INR (S k)) by (apply Rmult_le_reg_r with (INR (S k)); [lra|]; unfold Rdiv; rewrite Rmult_assoc, Rinv_l by lra; lra).
  assert (B : 1 <= Z k / Z (S k)) by (apply Rmult_le_reg_r with (Z (S k)); [lra|]; unfold Rdiv; rewrite Rmult_assoc, Rinv_l by lra; lra).
  rewrite <- (Rmult_1_r (INR k * T k)) at 1. apply Rmult_le_compat_l; [apply Rmult_le_pos; lra|]. rewrite <- (Rmult_1_r 1). apply Rmult_le_compat; lra.
Qed.
Lemma T_one : y / 2 <= T 1.
Proof.
  pose proof (Z_ge1 1 ltac:(lia)). pose proof (Z_small 1 ltac:(lia)) as A. change (INR 1) with 1 in A. rewrite Rinv_1 in A. unfold T. change (fact 1) with 1%nat. change (INR 1) with 1. rewrite pow_1, !Rmult_1_l.
  unfold Rdiv. apply Rmult_le_compat_l; [lra|]. apply Rinv_le_contravar; lra.
Qed.
(** a term below 1/2 lies beyond y *)
Lemma T_before : forall k, (1 <= k)%nat -> INR k <= y -> / 2 <= T k.
Proof.
  assert (G : forall k, INR (S k) <= y -> y / 2 <= INR (S k) * T (S k)).
  { induction k as [|k IH]; intros H; [change (INR 1) with 1; rewrite Rmult_1_l; apply T_one|]. pose proof (S_INR (S k)). eapply Rle_trans; [apply IH; lra|]. apply kT_mono; [lia | exact H]. }
  intros [|k] Hk Hle; [lia|]. pose proof (G k Hle) as A. pose proof (k_pos (S k) Hk) as K. pose proof (T_pos (S k) Hk) as P.
  destruct (Rle_or_lt (/ 2) (T (S k))) as [B|B]; [exact B|]. exfalso. assert (INR (S k) * T (S k) < INR (S k) * / 2) by (apply Rmult_lt_compat_l; lra). lra.
Qed.
Lemma T_after1 : forall k, (1 <= k)%nat -> y <= INR (S k) -> T (S k) <= T k.
Proof.
  intros k Hk Hle. pose proof (T_step k Hk) as A. pose proof (T_pos k Hk) as P. pose proof (k_pos (S k) ltac:(lia)) as K. eapply Rle_trans; [exact A|]. rewrite <- (Rmult_1_r (T k)) at 2. apply Rmult_le_compat_l; [lra|].
  apply Rmult_le_reg_r with (INR (S k)); [lra|]. unfold Rdiv. rewrite Rmult_assoc, Rinv_l by lra. lra.
Qed.
Lemma T_after : forall k j, (1 <= k)%nat -> y <= INR (S k) -> T (k + j) <= T k.
Proof.
  intros k j Hk Hle. induction j as [|j IH]; [rewrite Nat.add_0_r; lra|]. rewrite <- plus_n_Sm. eapply Rle_trans; [apply T_after1; [lia|] | exact IH]. eapply Rle_trans; [exact Hle|]. apply le_INR. lia.
Qed.
Lemma Sm_after : forall m j c, y <= INR (S (S m)) -> T (S m) <= c -> Sm (m + j) <= Sm m + INR j * c.
Proof.
  intros m j c Hle Hc. induction j as [|j IH]; [rewrite Nat.add_0_r; change (INR 0) with 0; lra|]. rewrite <- plus_n_Sm. cbn [Sm]. rewrite S_INR. pose proof (T_after (S m) j ltac:(lia) Hle) as A. change (S m + j)%nat with (S (m + j)) in A. lra.
Qed.
Lemma Sm_mono : forall m j, Sm m <= Sm (m + j).
Proof.
  intros m j. induction j as [|j IH]; [rewrite Nat.add_0_r; lra|]. rewrite <- plus_n_Sm. cbn [Sm]. pose proof (T_pos (S (m + j)) ltac:(lia)). lra.
Qed.
Lemma Sm_ge_T : forall k, (1 <= k)%nat -> T k <= Sm k.
Proof. intros [|k] Hk; [lia|]. cbn [Sm]. pose proof (Sm_mono 0 k) as A. cbn [Sm Nat.add] in A. lra. Qed.
Lemma lf_fact : forall k, lf k = ln (INR (fact k)).
Proof.
  induction k as [|k IH]; [change (INR (fact 0)) with 1; rewrite ln_1; reflexivity|]. cbn [lf]. change (fact (S k)) with (S k * fact k)%nat. rewrite mult_INR, ln_mult, IH by (try apply INR_S_pos; apply fact_pos). ring.
Qed.
Lemma T_exp : forall k, (1 <= k)%nat -> T k = exp (INR k * ln y - ln (INR k) - lf k - ln (Z k)).
Proof.
  intros k Hk. pose proof (Z_ge1 k Hk). pose proof (k_pos k Hk). pose proof (fact_pos k). rewrite lf_fact. rewrite <- (exp_ln (T k)) by (apply T_pos, Hk). f_equal. unfold T, Rdiv.
  assert (P : 0 < INR k * INR (fact k)) by (apply Rmult_lt_0_compat; lra). rewrite ln_mult, ln_Rinv, ln_mult, ln_mult; try lra.
  - rewrite ln_pow by lra. lra.
  - apply Rmult_lt_0_compat; lra.
  - apply pow_lt; lra.
  - apply Rinv_0_lt_compat, Rmult_lt_0_compat; lra.
Qed.
(** the whole series stays below 2 e^y / y *)
Lemma exp_partial : forall m, sum_f_R0 (fun i => / INR (fact i) * y ^ i) m <= exp y.
Proof.
  intros m. unfold exp. destruct (exist_exp y) as [l H]. cbn [proj1_sig]. unfold exp_in, infinite_sum in H.
  apply (Un_cv_ge (sum_f_R0 (fun i => / INR (fact i) * y ^ i)) l _ m); [exact H|]. intros n Hn. induction Hn as [|n Hn IH]; [lra|]. cbn [sum_f_R0]. eapply Rle_trans; [exact IH|].
  assert (0 <= / INR (fact (S n)) * y ^ S n); [|lra]. apply Rmult_le_pos; [left; apply Rinv_0_lt_compat, fact_pos | apply pow_le; lra].
Qed.
Lemma Sm_le : forall k, Sm k <= 2 / y * exp y.
Proof.
  intros k. apply Rle_trans with (2 / y * sum_f_R0 (fun i => / INR (fact i) * y ^ i) (S k)); [|apply Rmult_le_compat_l; [apply Rlt_le, Rdiv_lt_0_compat; lra | apply exp_partial]].
  assert (Hq : 0 < 2 / y) by (apply Rdiv_lt_0_compat; lra).
  induction k as [|k IH]. { cbn [Sm sum_f_R0]. apply Rmult_le_pos; [lra|]. change (fact 1) with 1%nat. change (fact 0) with 1%nat. change (INR 1) with 1. cbn [pow]. rewrite Rinv_1. lra. }
  cbn [Sm]. change (sum_f_R0 (fun i => / INR (fact i) * y ^ i) (S (S k))) with (sum_f_R0 (fun i => / INR (fact i) * y ^ i) (S k) + / INR (fact (S (S k))) * y ^ S (S k)).
  rewrite Rmult_plus_distr_l. apply Rplus_le_compat; [exact IH|].
  pose proof (Z_ge1 (S k) ltac:(lia)) as Z1. pose proof (k_pos (S k) ltac:(lia)) as K1. pose proof (S_INR (S k)) as E. pose proof (fact_pos (S k)) as F. assert (P : 0 < y ^ S k) by (apply pow_lt; lra).
  change (fact (S (S k))) with (S (S k) * fact (S k))%nat. rewrite mult_INR. unfold T. set (m := INR (S k)) in *. change (y ^ S (S k)) with (y * y ^ S k). set (p := y ^ S k) in *. set (q := INR (fact (S k))) in *. rewrite E.
  replace (2 / y * (/ ((m + 1) * q) * (y * p))) with (p / q * (2 / (m + 1))) by (field; repeat split; lra). replace (p / (m * q * Z (S k))) with (p / q * (/ (m * Z (S k)))) by (field; repeat split; lra).
  apply Rmult_le_compat_l; [apply Rlt_le, Rdiv_lt_0_compat; lra|]. replace (2 / (m + 1)) with (/ ((m + 1) / 2)) by (field; lra). apply Rinv_le_contravar; [lra|]. apply Rle_trans with (m * 1); [lra | apply Rmult_le_compat_l; lra].
Qed.
Lemma Sm_series : forall k, sum_f_R0 (fun i => y ^ S i / (INR (S i) * INR (fact (S i)) * Z (S i))) k = Sm (S k).
Proof. induction k as [|k IH]; [cbn [sum_f_R0 Sm]; unfold T; lra|]. cbn [sum_f_R0]. rewrite IH. reflexivity. Qed.
Lemma Sm_limit : exists s, series_is (fun i => y ^ S i / (INR (S i) * INR (fact (S i)) * Z (S i))) s.
Proof.
  destruct (growing_cv (sum_f_R0 (fun i => y ^ S i / (INR (S i) * INR (fact (S i)) * Z (S i))))) as [s Hs].
  - intros k. rewrite !Sm_series. pose proof (Sm_mono (S k) 1) as A. rewrite Nat.add_1_r in A. exact A.
  - exists (2 / y * exp y). intros x [k ->]. rewrite Sm_series. apply Sm_le.
  - exists s. exact Hs.
Qed.
Lemma limit_ge : forall s k, series_is (fun i => y ^ S i / (INR (S i) * INR (fact (S i)) * Z (S i))) s -> Sm k <= s.
Proof.
  intros s k H. apply (Un_cv_ge _ s _ k H). intros n Hn. rewrite Sm_series. replace (S n) with (k + (S n - k))%nat by lia. apply Sm_mono.
Qed.
Lemma limit_le : forall s, series_is (fun i => y ^ S i / (INR (S i) * INR (fact (S i)) * Z (S i))) s -> s <= 2 / y * exp y.
Proof. intros s H. apply (Un_cv_le _ s _ 0 H). intros n _. rewrite Sm_series. apply Sm_le. Qed.
(** beyond 2 y the terms at least halve *)
Lemma limit_tail : forall s k, series_is (fun i => y ^ S i / (INR (S i) * INR (fact (S i)) * Z (S i))) s -> 2 * y <= INR (S (S k)) -> s <= Sm k + 2 * T (S k).
Proof.
  intros s k H Hk. assert (G : forall j, Sm (k + j) + 2 * T (S (k + j)) <= Sm k + 2 * T (S k)).
  { induction j as [|j IH]; [rewrite Nat.add_0_r; lra|]. eapply Rle_trans; [|exact IH]. rewrite <- plus_n_Sm. cbn [Sm]. pose proof (T_step (S (k + j)) ltac:(lia)) as A. pose proof (T_pos (S (k + j)) ltac:(lia)) as P.
    assert (B : y / INR (S (S (k + j))) <= / 2). { assert (INR (S (S k)) <= INR (S (S (k + j)))) by (apply le_INR; lia). apply Rmult_le_reg_r with (INR (S (S (k + j)))); [apply INR_S_pos|]. unfold Rdiv. rewrite Rmult_assoc, Rinv_l by (apply Rgt_not_eq, INR_S_pos). lra. }
    assert (T (S (k + j)) * (y / INR (S (S (k + j)))) <= T (S (k + j)) * / 2) by (apply Rmult_le_compat_l; lra). lra. }
  apply (Un_cv_le _ s _ k H). intros n Hn. rewrite Sm_series. pose proof (G (S n - k)%nat) as A. replace (k + (S n - k))%nat with (S n) in A by lia. pose proof (T_pos (S (S n)) ltac:(lia)). lra.
Qed.
End Series.
