(** * nth_prime_est with the floating point formulas: where it returns, and where the sum in its bisection overflows *)
From Coq Require Import Reals ZArith List Lia Lra Bool.
From Flocq Require Import Core BinarySingleNaN.
From Interval Require Import Tactic.
From Verif Require Import Base Tables Spec Ext NT PBase PTables MInteger PInteger MSieve MIsPrime PSieve PBuffer PropBuffer PIsPrime NTPhi MPi PPi PPi2 PropPi FArith MFloat PFloat PFloat2 PGram PropFloat SpecGram PZeta PZetaTab PGramR PGram2 PropGram.
Local Open Scope Z_scope.

Lemma loop_inv_never : forall S R (I : S -> Prop) (g : S -> res (step S R)) n s, I s -> (forall s, I s -> exists s', g s = Ret (Next s') /\ I s') -> loop n g s = NoFuel.
Proof.
  intros S R I g n s Hs H. unfold loop. rewrite iter_niter. generalize (Z.to_nat n) as k. intros k. revert s Hs. induction k as [|k IH]; intros s Hs; [reflexivity|]. cbn [niter].
  destruct (H s Hs) as [s' [-> Hs']]. apply IH, Hs'.
Qed.
Lemma loop_panic : forall S R (g : S -> res (step S R)) n s, 1 <= n -> g s = Panic -> loop n g s = Panic.
Proof. intros S R g n s Hn H. unfold loop. rewrite iter_niter. replace (Z.to_nat n) with (Datatypes.S (Z.to_nat (n - 1))) by lia. cbn [niter]. rewrite H. reflexivity. Qed.

(** the bisection when lo and hi both exceed half the type's maximum *)
Lemma est_overflow : forall f w fuel bounds pi_est n lo hi, 1 <= w -> nth_prime_bounds f (U w) bounds n = Ret (Some (lo, hi)) ->
  2 ^ (w - 1) <= lo -> lo + 2 <= hi -> hi < 2 ^ w -> (forall x, 0 <= x < 2 ^ (w - 1) -> exists v, pi_est x = Ret v /\ v < n) ->
  (1 <= fuel -> nth_prime_est f Debug (U w) fuel bounds pi_est n = Panic) /\ nth_prime_est f Release (U w) fuel bounds pi_est n = NoFuel.
Proof.
  intros f w fuel bounds pi_est n lo hi Hw Hb H1 H2 H3 Hest. assert (P : 2 ^ w = 2 * 2 ^ (w - 1)) by (rewrite <- Z.pow_succ_r by lia; f_equal; lia). assert (P0 : 0 < 2 ^ (w - 1)) by (apply Z.pow_pos_nonneg; lia).
  unfold nth_prime_est. rewrite Hb. cbn [bind]. destruct (Z.eqb_spec lo hi); [lia|]. split.
  - intros Hf. apply loop_panic; [exact Hf|]. rewrite sub_ok by (cbn [in_range]; lia). cbn [bind]. destruct (Z.eqb_spec lo (hi - 1)); [lia|]. unfold add_, wrapz.
    destruct (in_rangeb (U w) (lo + hi)) eqn:E; [apply in_rangeb_spec in E; cbn [in_range] in E; lia | reflexivity].
  - apply (loop_inv_never _ _ (fun '(l, h) => h = hi /\ 0 <= l /\ l + 2 <= hi)); [lia|]. intros [l h] [-> [L1 L2]]. rewrite sub_ok by (cbn [in_range]; lia). cbn [bind]. destruct (Z.eqb_spec l (hi - 1)); [lia|].
    assert (A : exists s, add_ Release (U w) l hi = Ret s /\ 0 <= s < 2 ^ w).
    { unfold add_, wrapz. destruct (in_rangeb (U w) (l + hi)) eqn:E; [apply in_rangeb_spec in E; exists (l + hi); split; [reflexivity | exact E]|]. exists ((l + hi) mod 2 ^ w). split; [reflexivity|]. apply Z.mod_pos_bound. lia. }
    destruct A as [s [-> Hs]]. cbn [bind]. rewrite div_ok by lia. cbn [bind]. assert (X : 0 <= s / 2 < 2 ^ (w - 1)) by (split; [apply Z.div_pos; lia | apply Z.div_lt_upper_bound; lia]).
    destruct (Hest _ X) as [v [-> Hv]]. cbn [bind]. destruct (Z.ltb_spec v n); [|lia]. exists (s / 2, hi). split; [reflexivity|]. lia.
Qed.

(** ** prime_pi_est returns for every target below 2^128 *)
Lemma valid_u : forall w, w = 16 \/ w = 32 \/ w = 64 \/ w = 128 -> valid_ity (U w).
Proof. intros w H. cbn. lia. Qed.
Lemma two_pc : forall t x, valid_ity t -> in_range t x -> x <= 251 -> in_range t (2 * prime_count x).
Proof.
  intros t x Ht Hx H. pose proof (pc_nonneg x). assert (E : prime_count 251 = 54) by (vm_compute; reflexivity). pose proof (pc_mono x 251 H).
  destruct t as [w|]; cbn [in_range] in *; [|lia]. assert (256 <= 2 ^ w) by (change 256 with (2 ^ 8); apply Z.pow_le_mono_r; cbn in Ht; lia). lia.
Qed.
Lemma est_table : forall f pf t fl fl2 x, valid_ity t -> in_range t x -> x <= last (SMALL_PRIMES f) 0 -> prime_pi_est f pf t fl fl2 x = Ret (prime_count x).
Proof. intros f pf t fl fl2 x Ht Hx H. apply C45_prime_pi_est_table; try assumption. intros ->. apply two_pc; try assumption. Qed.
Lemma pi_est_total : forall f pf t L X x, ln_ok L -> exp_ok X -> valid_ity t -> in_range t x -> x < 2 ^ 128 -> exists v, prime_pi_est f pf t (pi_float L t) (gram L X ZETA_LOG_TABLE t) x = Ret v /\ 0 <= v <= x.
Proof.
  intros f pf t L X x HL HX Ht Hx Hlt. assert (H0 : 0 <= x) by (destruct t; cbn [in_range] in Hx; lia). destruct (Z.le_gt_cases x (last (SMALL_PRIMES f) 0)) as [H|H].
  - exists (prime_count x). split; [apply est_table; assumption|]. pose proof (pc_nonneg x). pose proof (pc_lt_self x H0). lia.
  - destruct f; pose proof H as H'; rewrite last_small in H'.
    + destruct zeta_choice as [Z0 HZ]. destruct (gram2 L X HL HX x ltac:(lia) Z0 HZ t Hx) as [v [E [A _]]]. exists v. rewrite est_gram, E by lia. split; [reflexivity | exact A].
    + unfold prime_pi_est. destruct (C52_prime_pi_bounds_rounding L SmallTable t x HL ltac:(lia) Hx) as [vl [vh [_ [_ [A [B E]]]]]]. rewrite E. cbn [bind].
      rewrite add_ok by (destruct t; cbn [in_range] in *; lia). cbn [bind]. rewrite div_ok by lia. exists ((Zfloor vl + Zfloor vh) / 2). split; [reflexivity|]. split; [apply Z.div_pos; lia | apply Z.div_le_upper_bound; lia].
Qed.

(** ** Upper bounds for it *)
Local Open Scope R_scope.
Lemma Sm_le3 : forall y Z k, 11 / 2 <= y <= 90 -> (forall k, (1 <= k)%nat -> zeta_is (S k) (Z k)) -> Sm y Z k <= exp y / y * (1 + 3 / y).
Proof.
  intros y Z k Hy HZ. set (E := fun m => sum_f_R0 (fun i => / INR (fact i) * y ^ i) m). assert (Q1 : 0 < / y) by (apply Rinv_0_lt_compat; lra). assert (Q2 : 0 < / y * / y) by (apply Rmult_lt_0_compat; lra).
  apply Rle_trans with (/ y * E (S k) + 3 * (/ y * / y) * E (S (S k))).
  2:{ pose proof (exp_partial y Hy (S k)) as A. pose proof (exp_partial y Hy (S (S k))) as B. fold (E (S k)) in A. fold (E (S (S k))) in B. replace (exp y / y * (1 + 3 / y)) with (/ y * exp y + 3 * (/ y * / y) * exp y) by (field; lra).
      apply Rplus_le_compat; apply Rmult_le_compat_l; lra. }
  induction k as [|k IH].
  { cbn [Sm]. apply Rplus_le_le_0_compat; apply Rmult_le_pos; try lra; unfold E; apply cond_pos_sum; intros i; apply Rmult_le_pos; try (apply pow_le; lra); left; apply Rinv_0_lt_compat, fact_pos. }
  cbn [Sm]. assert (E1 : E (S (S k)) = E (S k) + / INR (fact (S (S k))) * y ^ S (S k)) by reflexivity. assert (E2 : E (S (S (S k))) = E (S (S k)) + / INR (fact (S (S (S k)))) * y ^ S (S (S k))) by reflexivity.
  assert (G : T y Z (S k) <= / y * (/ INR (fact (S (S k))) * y ^ S (S k)) + 3 * (/ y * / y) * (/ INR (fact (S (S (S k)))) * y ^ S (S (S k)))); [|rewrite E2; rewrite E1 at 1; rewrite !Rmult_plus_distr_l in *; lra].
  clear IH E1 E2 E. pose proof (Z_ge1 Z HZ (S k) ltac:(lia)) as Z1. pose proof (k_pos (S k) ltac:(lia)) as K1. pose proof (fact_pos (S k)) as F. assert (P : 0 < y ^ S k) by (apply pow_lt; lra).
  change (fact (S (S (S k)))) with (S (S (S k)) * (S (S k) * fact (S k)))%nat. change (fact (S (S k))) with (S (S k) * fact (S k))%nat. rewrite !mult_INR, (S_INR (S (S k))), (S_INR (S k)). change (y ^ S (S (S k))) with (y * (y * y ^ S k)). change (y ^ S (S k)) with (y * y ^ S k).
  unfold T. set (m := INR (S k)) in *. set (p := y ^ S k) in *. set (q := INR (fact (S k))) in *. clearbody m p q.
  replace (/ y * (/ ((m + 1) * q) * (y * p)) + 3 * (/ y * / y) * (/ ((m + 1 + 1) * ((m + 1) * q)) * (y * (y * p)))) with (p / q * ((m + 5) / ((m + 1) * (m + 2)))) by (field; repeat split; lra).
  replace (p / (m * q * Z (S k))) with (p / q * (/ (m * Z (S k)))) by (field; repeat split; lra). apply Rmult_le_compat_l; [apply Rlt_le, Rdiv_lt_0_compat; lra|].
  apply Rle_trans with (/ m); [apply Rinv_le_contravar; [lra|]; rewrite <- (Rmult_1_r m) at 1; apply Rmult_le_compat_l; lra|].
  apply Rmult_le_reg_r with (m * ((m + 1) * (m + 2))); [repeat apply Rmult_lt_0_compat; lra|]. replace (/ m * (m * ((m + 1) * (m + 2)))) with ((m + 1) * (m + 2)) by (field; lra). replace ((m + 5) / ((m + 1) * (m + 2)) * (m * ((m + 1) * (m + 2)))) with (m * (m + 5)) by (field; lra). nra.
Qed.
(** both estimates are below ... *)
Definition est_up (x : R) : R := x / ln x * (1 + 3 / ln x).
Lemma est_upper : forall f pf t L X x v, ln_ok L -> exp_ok X -> in_range t x -> (last (SMALL_PRIMES f) 0 < x < 2 ^ 128)%Z ->
  prime_pi_est f pf t (pi_float L t) (gram L X ZETA_LOG_TABLE t) x = Ret v ->
  IZR v <= match f with BigTable => 4 + est_up (IZR x) * (1 + / 2147483648) | SmallTable => IZR x * r_pi_hi x + IZR x * tol end.
Proof.
  intros f pf t L X x v HL HX Ht Hx Hv. destruct f; rewrite last_small in Hx.
  - destruct zeta_choice as [Z0 HZ]. destruct (gram2 L X HL HX x ltac:(lia) Z0 HZ t Ht) as [v' [E [_ B]]]. rewrite est_gram, E in Hv by lia. injection Hv as <-.
    assert (Hy : 11 / 2 <= ln (IZR x) <= 90) by (apply ln_range_pi; unfold in128pi; lia). pose proof (Sm_le3 _ Z0 99 Hy HZ) as S3. rewrite exp_ln in S3 by (apply IZR_lt; lia). fold (est_up (IZR x)) in S3. apply Rabs_bd in B. replace (2 ^ 31) with 2147483648 in B by (cbn [pow]; lra). lra.
  - assert (H128 : in128pi x) by (unfold in128pi; lia). destruct (pi_float_spec L t x HL H128) as [vl [vh [A [B [C [D E]]]]]]. unfold prime_pi_est in Hv. rewrite pi_bounds_float, (E Ht) in Hv by (rewrite last_small; lia). cbn [unwrap bind] in Hv.
    rewrite add_ok in Hv by (destruct t; cbn [in_range] in *; lia). cbn [bind] in Hv. rewrite div_ok in Hv by lia. injection Hv as <-. apply near_bd in B.
    apply Rle_trans with (IZR (Zfloor vh)); [apply IZR_le; apply Z.div_le_upper_bound; lia|]. pose proof (Zfloor_lb vh). lra.
Qed.
Local Open Scope Z_scope.
(** where the bisection of nth_prime_est overflows: width and range of targets *)
Definition overflows (w n : Z) : Prop :=
  w = 16 /\ 4500 <= n <= 6200 \/ w = 32 /\ 125000000 <= n <= 200000000 \/
  w = 64 /\ 250000000000000000 <= n <= 420000000000000000 \/ w = 128 /\ 2300 * 10 ^ 33 <= n <= 3800 * 10 ^ 33.
Lemma pc_8161 : prime_count 8161 = 1024.
Proof.
  pose proof (C45_prime_pi_bounds_table BigTable (U 16) (fun _ => None) 8161 ltac:(cbn; lia) ltac:(cbn; lia) ltac:(rewrite last_small; lia)) as H.
  assert (E : prime_pi_bounds BigTable (U 16) (fun _ => None) 8161 = Ret (1024, 1024)) by (vm_compute; reflexivity). rewrite E in H. assert (G : forall a b : Z, Ret (1024, 1024) = Ret (a, b) -> a = 1024) by (intros a b K; injection K as K _; symmetry; exact K). exact (G _ _ H).
Qed.
Lemma ln_up : forall x a b : Z, (1 <= a)%Z -> (a <= x <= b)%Z -> (ln (IZR a) <= ln (IZR x) <= ln (IZR b))%R.
Proof.
  intros x a b Ha Hx. assert (M : forall u v, (0 < u)%R -> (u <= v)%R -> (ln u <= ln v)%R) by (intros u v Hu [H|H]; [left; apply ln_increasing; assumption | right; rewrite H; reflexivity]).
  split; apply M; try (apply IZR_lt; lia); apply IZR_le; lia.
Qed.
Lemma half_est : forall f pf w n L X x, ln_ok L -> exp_ok X -> overflows w n -> 0 <= x < 2 ^ (w - 1) ->
  exists v, prime_pi_est f pf (U w) (pi_float L (U w)) (gram L X ZETA_LOG_TABLE (U w)) x = Ret v /\ v < n.
Proof.
  intros f pf w n L X x HL HX Ho Hx. assert (Hv : valid_ity (U w)) by (unfold overflows in Ho; cbn; lia). assert (Hw : 2 ^ (w - 1) <= 2 ^ 127) by (apply Z.pow_le_mono_r; unfold overflows in Ho; lia).
  assert (Hr : in_range (U w) x) by (cbn [in_range]; assert (2 ^ (w - 1) <= 2 ^ w) by (apply Z.pow_le_mono_r; unfold overflows in Ho; lia); lia).
  destruct (pi_est_total f pf (U w) L X x HL HX Hv Hr ltac:(lia)) as [v [E A]]. exists v. split; [exact E|].
  destruct (Z.le_gt_cases x (last (SMALL_PRIMES f) 0)) as [H|H].
  { rewrite (est_table f pf (U w) _ _ x Hv Hr H) in E. injection E as <-. assert (4500 <= n) by (unfold overflows in Ho; lia). assert (x <= 8161) by (rewrite last_small in H; destruct f; lia). pose proof (pc_mono x 8161 ltac:(lia)). rewrite pc_8161 in *. lia. }
  apply lt_IZR. pose proof (est_upper f pf (U w) L X x v HL HX Hr ltac:(lia) E) as U. eapply Rle_lt_trans; [exact U|]. clear U E A Hr Hv. rewrite last_small in H.
  assert (C : exists b h, 2 ^ (w - 1) = h /\ b <= n /\ (b = 4500 /\ h = 32768 \/ b = 125000000 /\ h = 2147483648 \/ b = 250000000000000000 /\ h = 9223372036854775808 \/ b = 2300 * 10 ^ 33 /\ h = 170141183460469231731687303715884105728)).
  { unfold overflows in Ho. destruct Ho as [[-> Ho]|[[-> Ho]|[[-> Ho]|[-> Ho]]]]; eexists; eexists; (split; [reflexivity|]; split; [apply Ho|]); lia. }
  destruct C as [b [h [Eh [Hb C]]]]. rewrite Eh in Hx. apply Rlt_le_trans with (IZR b); [|apply IZR_le, Hb]. clear Ho Hw Hb Eh n w L X HL HX pf v. destruct f.
  - assert (Hl : (9 <= ln (IZR x))%R) by (destruct (ln_up x 8162 x ltac:(lia) ltac:(lia)) as [K _]; eapply Rle_trans; [|exact K]; interval with (i_prec 60)).
    destruct (Z.le_gt_cases x (4 * b)) as [Q|Q].
    + assert (U : (est_up (IZR x) <= 15 / 100 * IZR x)%R).
      { unfold est_up. assert (0 < IZR x)%R by (apply IZR_lt; lia). replace (IZR x / ln (IZR x) * (1 + 3 / ln (IZR x)))%R with ((/ ln (IZR x) * (1 + 3 * / ln (IZR x))) * IZR x)%R by (field; lra). apply Rmult_le_compat_r; [lra|]. assert (0 <= / ln (IZR x) <= / 9)%R by (split; [left; apply Rinv_0_lt_compat; lra | apply Rinv_le_contravar; lra]). nra. }
      assert (IZR x <= 4 * IZR b)%R by (rewrite <- mult_IZR; apply IZR_le; lia). assert (4500 <= IZR b)%R by (apply IZR_le; lia). lra.
    + assert (R : (IZR (4 * b) <= IZR x <= IZR h)%R) by (split; apply IZR_le; lia). unfold est_up. revert R. generalize (IZR x). intros r R.
      destruct C as [[-> ->]|[[-> ->]|[[-> ->]|[-> ->]]]]; match type of R with (IZR ?a <= _ <= _)%R => let z := eval vm_compute in a in change a with z in R end; match goal with |- (_ < IZR ?a)%R => let z := eval vm_compute in a in change a with z end; interval with (i_bisect r, i_prec 60).
  - destruct (pi_order x ltac:(unfold in128pi; lia)) as [_ [_ O]]. destruct (Z.le_gt_cases x (3 * b)) as [Q|Q].
    + assert (IZR x * r_pi_hi x <= IZR x * (26 / 100))%R by (apply Rmult_le_compat_l; [apply IZR_le; lia | exact O]). assert (IZR x <= 3 * IZR b)%R by (rewrite <- mult_IZR; apply IZR_le; lia). assert (4500 <= IZR b)%R by (apply IZR_le; lia). assert (0 <= IZR x)%R by (apply IZR_le; lia). unfold tol. lra.
    + assert (R : (IZR (3 * b) <= IZR x <= IZR h)%R) by (split; apply IZR_le; lia). unfold r_pi_hi, r_s1, r_s2, r_s3, r_q, r_r, tol.
      destruct C as [[-> ->]|[[-> ->]|[[-> ->]|[-> ->]]]]; match type of R with (IZR ?a <= _ <= _)%R => let z := eval vm_compute in a in change a with z in R end; match goal with |- (_ < IZR ?a)%R => let z := eval vm_compute in a in change a with z end.
      * destruct (Z.leb_spec 7398600000 x); [lia|]. destruct (Z.leb_spec 2953652287 x); [lia|]. destruct (Z.leb_spec 467345 x); [lia|]. destruct (Z.leb_spec 5668 x); [|lia]. revert R. destruct (29927 <=? x); generalize (IZR x); intros r R; interval with (i_bisect r, i_prec 60).
      * destruct (Z.leb_spec 7398600000 x); [lia|]. destruct (Z.leb_spec 2953652287 x); [lia|]. destruct (Z.leb_spec 467345 x); [|lia]. revert R. generalize (IZR x); intros r R; interval with (i_bisect r, i_prec 60).
      * destruct (Z.leb_spec 7398600000 x); [|lia]. revert R. generalize (IZR x); intros r R; interval with (i_bisect r, i_prec 60).
      * destruct (Z.leb_spec 7398600000 x); [|lia]. revert R. generalize (IZR x); intros r R; interval with (i_bisect r, i_prec 60).
Qed.
