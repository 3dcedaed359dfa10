(** * C76: with the small table nth_prime is right up to index 203236859 and prime_pi for every limit below 4294000001^2
    (99.95 % of the 64 bit range). *)
From Coq Require Import ZArith Znumtheory List Lia Bool Reals Lra.
From Flocq Require Import Core.Raux.
From Interval Require Import Tactic.
From Verif Require Import Base Spec NT PBase NTPhi MInteger MSieve MIsPrime PSieve PBuffer PropBuffer MPi PropPi PExact FArith MFloat PFloat PFloatTab PGram PFloat2 PropFloat PPiVals PropWord.
Import ListNotations.
Local Open Scope Z_scope.

Lemma big_point : forall x v, In (x, v) pi_points2 -> prime_count x = v.
Proof. intros x v H. exact (proj1 (Forall_forall _ _) pi_points2_ok (x, v) H). Qed.
Lemma primes_upto_4294000000 : prime_count 4294000000 = 203236859.
Proof. apply big_point. cbn [pi_points2 In]. tauto. Qed.
(** the published upper bound, at the indices up to 203236859 *)
Lemma hi_below_32bit : forall n, 55 <= n <= 203236859 -> (IZR n * r_nth_hi n <= 4294960000)%R.
Proof.
  intros n Hn. unfold r_nth_hi.
  destruct (Z.leb_spec 46254381 n).
  { assert (46254381 <= IZR n <= 203236859)%R by (split; apply IZR_le; lia). unfold r_f3. interval with (i_bisect (IZR n), i_prec 60, i_depth 40). }
  assert (G : forall r, (0 <= r <= 40)%R -> forall m : Z, (55 <= m <= 46254381) -> (IZR m * r <= 4294960000)%R).
  { intros r Hr m Hm. assert (0 <= IZR m <= 46254381)%R by (split; apply IZR_le; lia). apply Rle_trans with (46254381 * 40)%R; [apply Rmult_le_compat; lra | lra]. }
  assert (B : (55 <= IZR n <= 46254381)%R) by (split; apply IZR_le; lia).
  apply G; [|lia]. destruct (Z.leb_spec 8009824 n); [unfold r_f3; interval with (i_prec 40)|]. destruct (Z.leb_spec 688383 n); [unfold r_f2; interval with (i_prec 40)|].
  destruct (Z.leb_spec 178974 n); [unfold r_f2; interval with (i_prec 40)|]. destruct (Z.leb_spec 39017 n); [unfold r_f1; interval with (i_prec 40)|].
  destruct (Z.leb_spec 27076 n); [unfold r_f2; interval with (i_prec 40)|]. unfold r_f1. interval with (i_prec 40).
Qed.
Lemma bounds_32bit : forall L n, ln_ok L -> 55 <= n <= 203236859 -> exists lo hi, nth_float L u64 n = Some (lo, hi) /\ 3 <= lo <= hi /\ hi <= 2 ^ 32 - 1.
Proof.
  intros L n HL Hn. assert (H128 : in128 n) by (unfold in128; lia). destruct (nth_float_spec L u64 n HL H128) as [vl [vh [A [B [C [D E]]]]]]. apply near_bd in B.
  assert (M : Zfloor vh <= 2 ^ 32 - 1); [|exists (Zfloor vl), (Zfloor vh); split; [apply D; cbn; lia | lia]].
  apply le_IZR. apply Rle_trans with vh; [apply Zfloor_lb|]. change (IZR (2 ^ 32 - 1)) with 4294967295%R.
  pose proof (tol_small n 203236859 ltac:(lia)) as T. assert (T2 : (203236859 * tol <= 1)%R) by (unfold tol; lra). pose proof (hi_below_32bit n Hn). lra.
Qed.
Lemma pi_est_ok_small : forall pf L X x, ln_ok L -> 0 <= x < 2 ^ 32 -> exists v, prime_pi_est SmallTable pf u64 (pi_float L u64) (gram L X ZETA_LOG_TABLE u64) x = Ret v.
Proof.
  intros pf L X x HL Hx. assert (R : in_range u64 x) by (cbn; lia). destruct (Z.le_gt_cases x (last (SMALL_PRIMES SmallTable) 0)) as [H|H].
  - exists (prime_count x). apply C45_prime_pi_est_table; [right; right; right; left; reflexivity | exact R | exact H|]. intros _. pose proof (pc_lt_self x ltac:(lia)). pose proof (pc_nonneg x). unfold u64. cbn [in_range]. lia.
  - unfold prime_pi_est. destruct (C52_prime_pi_bounds_rounding L SmallTable u64 x HL ltac:(lia) R) as [vl [vh [_ [_ [A [B E]]]]]]. rewrite E. cbn [bind]. rewrite add_ok by (cbn; lia). cbn [bind]. exists ((Zfloor vl + Zfloor vh) / 2). reflexivity.
Qed.
Theorem C76_estimates_ok : forall pf L X fuel, ln_ok L -> 2 ^ 32 <= fuel ->
  estimates_ok SmallTable (nth_float L u64) (float_est SmallTable pf fuel L X) 203236859 (2 ^ 32 - 1).
Proof.
  intros pf L X fuel HL Hf. apply C46_estimates_from_brackets.
  - split; [change (Z.sqrt (2 ^ 32 - 1)) with 65535; pose proof (pc_lt_self 65535 ltac:(lia)); lia|]. rewrite <- primes_upto_4294000000. apply pc_mono. lia.
  - lia.
  - lia.
  - intros x Hx. apply pi_est_ok_small; [exact HL | lia].
  - intros n Hn. rewrite small_len' in Hn. cbn [table_len] in Hn. destruct (bounds_32bit L n HL ltac:(lia)) as [lo [hi [E [A B]]]]. exists lo, hi. split; [exact E|]. split; [exact A|]. split; [exact B|].
    intros H4. split; [|lia]. destruct (nth_prime_exists n (2 ^ 20 - 1)) as [p [Hp Lp]]; [split; [lia|]; pose proof primes_upto_1015809; pose proof (pc_mono 1015809 (2 ^ 20 - 1) ltac:(lia)); lia|].
    pose proof (nth_bracket L u64 n p HL ltac:(lia) Hp) as K. rewrite E in K. apply (nth_prime_le n p hi Hp). lia.
  - intros _ m Hm Hr. exact (accepted32 Debug m ltac:(lia) Hr).
Qed.
Lemma big_square : forall pf L X fuel, ln_ok L -> exp_ok X -> 2 ^ 32 <= fuel -> forall i e, 4096 < i <= 203236859 -> float_est SmallTable pf fuel L X i = Ret (Some e) -> e <= i * i.
Proof.
  intros pf L X fuel HL HX Hf i e Hi E. destruct (Z.le_gt_cases i 65536) as [H|H]; [apply (est_square SmallTable pf L X fuel HL HX ltac:(lia) i e ltac:(lia) E)|].
  destruct (C76_estimates_ok pf L X fuel HL Hf) as [_ [_ [_ [He _]]]]. destruct (He i Hi) as [e' [E' B]]. rewrite E in E'. injection E' as <-.
  assert (65536 * 65536 <= i * i) by (apply Z.mul_le_mono_nonneg; lia). lia.
Qed.
(** nth_prime returns the n-th prime for every n up to 203236859 *)
Theorem C76_nth_prime : forall pf L X fn fw fuel n, ln_ok L -> exp_ok X -> 2 ^ 32 <= fuel -> 2 ^ 64 <= fn -> 2 ^ 64 <= fw -> 1 <= n <= 203236859 ->
  exists k0, forall k ops b, (k0 <= k)%nat -> Forall (op_ok SmallTable (nth_float L u64)) ops -> history SmallTable pf (nth_float L u64) ops = Ret b ->
  exists p b', nth_prime SmallTable pf (nth_float L u64) (float_est SmallTable pf fuel L X) fn fw k b n = Ret (p, b') /\ nth_prime_is n p.
Proof.
  intros pf L X fn fw fuel n HL HX Hf Hfn Hfw Hn. eapply C06_nth_prime_returns; eauto; [apply C76_estimates_ok; auto | intros i e Hi; apply big_square; auto].
Qed.
(** prime_pi counts the primes up to every limit below 4294000001^2 = 18438436008588000001 *)
Lemma sqrt_4294000000 : forall limit, 0 <= limit < 4294000001 * 4294000001 -> prime_count (Z.sqrt limit) <= 203236859.
Proof.
  intros limit H. assert (Z.sqrt limit < 4294000001) by (apply Z.sqrt_lt_square; lia). rewrite <- primes_upto_4294000000. apply pc_mono. lia.
Qed.
Theorem C76_prime_pi : forall pf L X fn fw fuel limit, ln_ok L -> exp_ok X -> 2 ^ 32 <= fuel -> 2 ^ 64 <= fn -> 2 ^ 64 <= fw -> 0 <= limit < 4294000001 * 4294000001 ->
  exists k0, forall k ops b, (k0 <= k)%nat -> Forall (op_ok SmallTable (nth_float L u64)) ops -> history SmallTable pf (nth_float L u64) ops = Ret b ->
  exists b', prime_pi SmallTable pf (nth_float L u64) (float_est SmallTable pf fuel L X) fn fw k b limit = Ret (prime_count limit, b').
Proof.
  intros pf L X fn fw fuel limit HL HX Hf Hfn Hfw Hl. eapply C07_prime_pi_returns; eauto; [apply C76_estimates_ok; auto | intros i e Hi; apply big_square; auto | lia | apply sqrt_4294000000, Hl].
Qed.
Theorem C76_prime_phi : forall pf L X fn fw fuel x a ops b k cap cache, ln_ok L -> 2 ^ 32 <= fuel -> 2 ^ 64 <= fn -> 2 ^ 64 <= fw ->
  0 <= x < 2 ^ 64 - 1 -> 1 <= a <= 203236859 -> Forall (op_ok SmallTable (nth_float L u64)) ops -> history SmallTable pf (nth_float L u64) ops = Ret b -> consistent_cache cache ->
  value_is (prime_phi SmallTable pf (nth_float L u64) (float_est SmallTable pf fuel L X) fn fw k b x a cap cache) (fun '(r, _, cache') => r = legendre_phi x a /\ consistent_cache cache').
Proof.
  intros pf L X fn fw fuel x a ops b k cap cache HL Hf Hfn Hfw Hx Ha Hops Hh Hc. eapply C08_prime_phi; eauto; [apply (C76_estimates_ok pf L X fuel); auto | lia].
Qed.
(** after any history of buffer calls and of these calls the buffer holds exactly the primes up to its bound *)
Theorem C76_history : forall pf L X fn fw fuel k ops, ln_ok L -> 2 ^ 32 <= fuel -> 2 ^ 64 <= fn -> 2 ^ 64 <= fw -> Forall (op2_ok SmallTable (nth_float L u64) 203236859) ops ->
  value_is (history2 SmallTable pf (nth_float L u64) (float_est SmallTable pf fuel L X) fn fw k ops) (fun b => exists B, buf_bound b = Ret B /\ 53 <= B /\ lists_primes (buf_iter b) (fun p => p <= B)).
Proof. intros pf L X fn fw fuel k ops HL Hf Hfn Hfw Hops. eapply C01_history_with_counting; eauto. apply C76_estimates_ok; auto. Qed.

(** ** Concrete cases *)
Example C76_case : prime_count (Z.sqrt (10 ^ 19)) <= 203236859 /\ ln_ok ideal_ln /\ exp_ok ideal_exp /\
  Forall (op_ok SmallTable (nth_float ideal_ln u64)) [OReserve 100; ONprimes 3000; OClear] /\
  estimates_ok SmallTable (nth_float ideal_ln u64) (float_est SmallTable Debug (2 ^ 32) ideal_ln ideal_exp) 203236859 (2 ^ 32 - 1).
Proof.
  split; [apply sqrt_4294000000; lia|]. split; [apply ideal_ln_ok|]. split; [apply ideal_exp_ok|]. split; [|apply C76_estimates_ok; [apply ideal | lia]].
  constructor; [cbn; lia|]. constructor; [apply C54_history_nprimes; [apply ideal | lia]|]. repeat constructor.
Qed.

Print Assumptions C76_estimates_ok.
Print Assumptions C76_nth_prime.
Print Assumptions C76_prime_pi.
Print Assumptions C76_prime_phi.
Print Assumptions C76_history.
