(** * Property C62: prime_pi_est with the big-table feature is Riemann's R function.

    [L] and [X] are the platform's logarithm and exponential, accurate to a relative error of 2^-50. *)
From Coq Require Import Reals ZArith List Lia Lra Bool.
From Flocq Require Import Core BinarySingleNaN.
From Interval Require Import Tactic.
From Verif Require Import Base Tables Spec Ext NT PBase PTables MInteger MSieve MIsPrime FArith MFloat PFloat PFloat2 PGram PropFloat SpecGram PZeta PZetaTab PGramR PGram2.
Local Open Scope R_scope.

(** R(x) exists and is unique in the range at hand *)
Lemma zeta_choice : exists Z : nat -> R, forall k, (1 <= k)%nat -> zeta_is (S k) (Z k).
Proof. exists (fun k => match k with O => 0 | S j => proj1_sig (zeta_exists j) end). intros [|k] Hk; [lia|]. apply (proj2_sig (zeta_exists k)). Qed.
Theorem C62_riemann_R_exists : forall n, (252 <= n < 2 ^ 128)%Z -> exists r, riemann_R_is (IZR n) r /\ forall r', riemann_R_is (IZR n) r' -> r' = r.
Proof.
  intros n Hn. destruct zeta_choice as [Z HZ]. destruct (Sm_limit (ln (IZR n)) (ln_range_pi n Hn) Z HZ) as [s Hs]. exists (s + 1). assert (E : s + 1 - 1 = s) by ring. split.
  - exists Z. split; [exact HZ|]. rewrite E. exact Hs.
  - intros r' [Z' [HZ' Hr]]. assert (Q : r' - 1 = s); [|lra]. apply (UL_sequence _ _ _ Hr). intros e He. destruct (Hs e He) as [N HN]. exists N. intros m Hm. specialize (HN m Hm).
    replace (sum_f_R0 (fun i => ln (IZR n) ^ S i / (INR (S i) * INR (fact (S i)) * Z' (S i))) m) with (sum_f_R0 (fun i => ln (IZR n) ^ S i / (INR (S i) * INR (fact (S i)) * Z (S i))) m); [exact HN|].
    apply sum_eq. intros i _. rewrite (UL_sequence _ _ _ (HZ (S i) ltac:(lia)) (HZ' (S i) ltac:(lia))). reflexivity.
Qed.
Lemma est_gram : forall pf t L X n, (8162 <= n)%Z -> prime_pi_est BigTable pf t (pi_float L t) (gram L X ZETA_LOG_TABLE t) n = unwrap (gram L X ZETA_LOG_TABLE t n).
Proof. intros pf t L X n H. unfold prime_pi_est. rewrite last_small. destruct (Z.leb_spec n 8161); [lia | reflexivity]. Qed.

(** factorials as integers *)
Fixpoint zfact (k : nat) : Z := match k with O => 1%Z | S j => (Z.of_nat k * zfact j)%Z end.
Lemma zfact_eq : forall k, INR (fact k) = IZR (zfact k).
Proof. induction k as [|k IH]; [reflexivity|]. change (fact (S k)) with (S k * fact k)%nat. rewrite mult_INR, IH, INR_IZR_INZ. cbn [zfact]. rewrite mult_IZR. reflexivity. Qed.

(** for y <= 45 the hundredth term is at most 2^-35 of the fiftieth *)
Lemma T_100_50 : forall y Z, 11 / 2 <= y <= 45 -> (forall k, (1 <= k)%nat -> zeta_is (S k) (Z k)) -> T y Z 100 <= / 34359738368 * T y Z 50.
Proof.
  intros y Z Hy HZ. pose proof (Z_ge1 Z HZ 100 ltac:(lia)) as A. pose proof (Z_small Z HZ 50 ltac:(lia)) as B. pose proof (Z_ge1 Z HZ 50 ltac:(lia)) as C. unfold T. rewrite !zfact_eq, !INR_IZR_INZ in *.
  change (Z.of_nat 100) with 100%Z in *. change (Z.of_nat 50) with 50%Z in *. change 100%nat with (50 + 50)%nat at 1. rewrite pow_add. assert (P : 0 < y ^ 50) by (apply pow_lt; lra). assert (Q : y ^ 50 <= 45 ^ 50) by (apply pow_incr; lra).
  pose (f50 := IZR (zfact 50)). pose (f100 := IZR (zfact 100)). assert (F50 : 0 < f50) by (apply IZR_lt; vm_compute; reflexivity). assert (F100 : 0 < f100) by (apply IZR_lt; vm_compute; reflexivity).
  assert (K : 34359738368 * 45 ^ 50 * f50 <= f100).
  { unfold f50, f100. change 34359738368 with (IZR 34359738368). change 45 with (IZR 45). rewrite pow_IZR, <- !mult_IZR. apply IZR_le. vm_compute. discriminate. }
  fold f50 f100. set (p := y ^ 50) in *. set (q := 45 ^ 50) in *. clearbody f50 f100 p q. set (z1 := Z 100%nat) in *. set (z2 := Z 50%nat) in *. clearbody z1 z2.
  apply Rmult_le_reg_r with (100 * f100 * z1 * (50 * f50 * z2) * / p); [repeat (apply Rmult_lt_0_compat; try lra); apply Rinv_0_lt_compat; lra|].
  replace (p * p / (100 * f100 * z1) * (100 * f100 * z1 * (50 * f50 * z2) * / p)) with (p * f50 * (50 * z2)) by (field; repeat split; lra).
  replace (/ 34359738368 * (p / (50 * f50 * z2)) * (100 * f100 * z1 * (50 * f50 * z2) * / p)) with (/ 34359738368 * f100 * (100 * z1)) by (field; repeat split; lra).
  assert (M : p * f50 <= / 34359738368 * f100). { assert (p * f50 <= q * f50) by (apply Rmult_le_compat_r; lra). assert (34359738368 * (q * f50) <= f100) by lra. lra. }
  assert (0 <= p * f50) by (apply Rmult_le_pos; lra). apply Rmult_le_compat; lra.
Qed.
Theorem C62_prime_pi_est_riemann : forall pf t L X n r, ln_ok L -> exp_ok X -> (8162 <= n < 2 ^ 64)%Z -> in_range t n -> riemann_R_is (IZR n) r ->
  exists v, prime_pi_est BigTable pf t (pi_float L t) (gram L X ZETA_LOG_TABLE t) n = Ret v /\ Rabs (IZR v - r) <= 3 + r / 2 ^ 30.
Proof.
  intros pf t L X n r HL HX Hn Ht [Z [HZ Hr]]. assert (Hn' : (252 <= n < 2 ^ 128)%Z) by lia. destruct (gram2 L X HL HX n Hn' Z HZ t Ht) as [v [E [_ B]]]. exists v. rewrite est_gram, E by lia. split; [reflexivity|].
  pose proof (ln_range_pi n Hn') as Hy. assert (Hy2 : ln (IZR n) <= 45) by (assert (8162 <= IZR n <= 18446744073709551616) by (split; apply IZR_le; lia); interval with (i_prec 40)).
  pose proof (limit_ge _ Hy Z HZ _ 99 Hr) as A. pose proof (limit_tail _ Hy Z HZ _ 99 Hr) as C. rewrite INR_IZR_INZ in C. change (Z.of_nat 101) with 101%Z in C. specialize (C ltac:(lra)). pose proof (T_100_50 _ Z (conj (proj1 Hy) Hy2) HZ) as D.
  pose proof (Sm_ge_T _ Hy Z HZ 50 ltac:(lia)) as F. pose proof (Sm_mono _ Hy Z HZ 50 49) as G. change (50 + 49)%nat with 99%nat in G. set (s := Sm (ln (IZR n)) Z 99) in *. clearbody s.
  apply Rabs_bd in B. replace (2 ^ 31) with 2147483648 in B by (cbn [pow]; lra). replace (2 ^ 30) with 1073741824 by (cbn [pow]; lra). apply Rabs_le. lra.
Qed.
(** up to 2^128 it still returns, stays within 0..n and never exceeds R(n) by more than that; at the top it
    is too small by more than half a percent because the loop gives up after 99 terms *)
Theorem C62_prime_pi_est_below : forall pf t L X n r, ln_ok L -> exp_ok X -> (8162 <= n < 2 ^ 128)%Z -> in_range t n -> riemann_R_is (IZR n) r ->
  exists v, prime_pi_est BigTable pf t (pi_float L t) (gram L X ZETA_LOG_TABLE t) n = Ret v /\ (0 <= v <= n)%Z /\ IZR v <= r + 3 + r / 2 ^ 31.
Proof.
  intros pf t L X n r HL HX Hn Ht [Z [HZ Hr]]. assert (Hn' : (252 <= n < 2 ^ 128)%Z) by lia. destruct (gram2 L X HL HX n Hn' Z HZ t Ht) as [v [E [A B]]]. exists v. rewrite est_gram, E by lia. split; [reflexivity|]. split; [exact A|].
  pose proof (ln_range_pi n Hn') as Hy. pose proof (limit_ge _ Hy Z HZ _ 99 Hr) as C. set (s := Sm (ln (IZR n)) Z 99) in *. clearbody s. apply Rabs_bd in B. replace (2 ^ 31) with 2147483648 in * by (cbn [pow]; lra). lra.
Qed.
Lemma T_100_top : forall n Z, (2 ^ 127 <= n < 2 ^ 128)%Z -> (forall k, (1 <= k)%nat -> zeta_is (S k) (Z k)) -> 17 / 100000 * IZR n <= T (ln (IZR n)) Z 100.
Proof.
  intros n Z Hn HZ. assert (N : 170141183460469231731687303715884105728 <= IZR n <= 340282366920938463463374607431768211456) by (split; apply IZR_le; lia).
  set (y := ln (IZR n)). assert (Hy : 88029 / 1000 <= y <= 88723 / 1000) by (unfold y; split; interval with (i_prec 60)). assert (En : IZR n = exp y) by (unfold y; rewrite exp_ln; lra). rewrite En. clearbody y.
  rewrite (T_exp y ltac:(lra) Z HZ 100 ltac:(lia)), lf_fact, zfact_eq, !INR_IZR_INZ. change (Z.of_nat 100) with 100%Z. pose proof (Z_ge1 Z HZ 100 ltac:(lia)) as A. pose proof (Z_small Z HZ 100 ltac:(lia)) as B. rewrite INR_IZR_INZ in B. change (Z.of_nat 100) with 100%Z in B.
  pose proof (ln_le_sub1 (Z 100%nat) ltac:(lra)) as C. let z := eval vm_compute in (zfact 100) in change (zfact 100) with z.
  match goal with |- _ <= exp ?e => replace e with (y + (e - y)) by ring end. rewrite exp_plus, (Rmult_comm (17 / 100000)). apply Rmult_le_compat_l; [apply Rlt_le, exp_pos|].
  match goal with |- _ <= exp (_ - ln ?a - ln ?f - ln _ - y) => apply Rle_trans with (exp (100 * ln y - ln a - ln f - / 100 - y)) end; [interval with (i_prec 60, i_autodiff y, i_bisect y) | apply exp_mono; lra].
Qed.
Theorem C62_top_refuted : forall pf t L X n r, ln_ok L -> exp_ok X -> (2 ^ 127 <= n < 2 ^ 128)%Z -> in_range t n -> riemann_R_is (IZR n) r ->
  exists v, prime_pi_est BigTable pf t (pi_float L t) (gram L X ZETA_LOG_TABLE t) n = Ret v /\ IZR v <= r - r / 200.
Proof.
  intros pf t L X n r HL HX Hn Ht [Z [HZ Hr]]. assert (Hn' : (252 <= n < 2 ^ 128)%Z) by lia. destruct (gram2 L X HL HX n Hn' Z HZ t Ht) as [v [E [_ B]]]. exists v. rewrite est_gram, E by lia. split; [reflexivity|].
  pose proof (ln_range_pi n Hn') as Hy. pose proof (limit_ge _ Hy Z HZ _ 100 Hr) as C. pose proof (limit_le _ Hy Z HZ _ Hr) as D. pose proof (T_100_top n Z Hn HZ) as F. change (Sm (ln (IZR n)) Z 100) with (Sm (ln (IZR n)) Z 99 + T (ln (IZR n)) Z 100) in C.
  assert (N : 170141183460469231731687303715884105728 <= IZR n <= 340282366920938463463374607431768211456) by (split; apply IZR_le; lia).
  rewrite exp_ln in D by lra. assert (Y : 2 / ln (IZR n) <= 228 / 10000) by (interval with (i_prec 60)). assert (D2 : 2 / ln (IZR n) * IZR n <= 228 / 10000 * IZR n) by (apply Rmult_le_compat_r; lra).
  pose proof (Sm_mono _ Hy Z HZ 0 99) as G. set (s := Sm (ln (IZR n)) Z 99) in *. cbn [Sm Nat.add] in G. apply Rabs_bd in B. replace (2 ^ 31) with 2147483648 in * by (cbn [pow]; lra). lra.
Qed.

(** ** The hypotheses are met by concrete cases *)
Example C62_case : exists r v, riemann_R_is 1000000 r /\ prime_pi_est BigTable Debug (U 32) (pi_float ideal_ln (U 32)) (gram ideal_ln ideal_exp ZETA_LOG_TABLE (U 32)) 1000000 = Ret v /\ Rabs (IZR v - r) <= 3 + r / 2 ^ 30.
Proof.
  destruct (C62_riemann_R_exists 1000000 ltac:(lia)) as [r [Hr _]]. exists r. destruct (C62_prime_pi_est_riemann Debug (U 32) ideal_ln ideal_exp 1000000 r ideal ideal_exp_ok ltac:(lia) ltac:(cbn; lia) Hr) as [v [E B]]. exists v. auto.
Qed.
Example C62_top_case : exists r v, riemann_R_is (IZR (2 ^ 127)) r /\ prime_pi_est BigTable Debug (U 128) (pi_float ideal_ln (U 128)) (gram ideal_ln ideal_exp ZETA_LOG_TABLE (U 128)) (2 ^ 127) = Ret v /\ IZR v <= r - r / 200.
Proof.
  destruct (C62_riemann_R_exists (2 ^ 127) ltac:(lia)) as [r [Hr _]]. exists r. destruct (C62_top_refuted Debug (U 128) ideal_ln ideal_exp (2 ^ 127) r ideal ideal_exp_ok ltac:(lia) ltac:(cbn; lia) Hr) as [v [E B]]. exists v. auto.
Qed.

Print Assumptions C62_riemann_R_exists.
Print Assumptions C62_prime_pi_est_riemann.
Print Assumptions C62_prime_pi_est_below.
Print Assumptions C62_top_refuted.
