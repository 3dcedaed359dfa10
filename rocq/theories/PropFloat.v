(** * Properties C50-C54 (and C05-C09 with the real floating point formulas): prime_pi_bounds,
    nth_prime_bounds and the estimates over binary64.

    [L] and [X] are the platform's logarithm and exponential: all that is asked of them is [ln_ok] and
    [exp_ok] (accurate to a relative error of 2^-50). *)
From Coq Require Import Reals ZArith Znumtheory List Lia Lra Bool.
From Flocq Require Import Core BinarySingleNaN Relative.
From Interval Require Import Tactic.
From Verif Require Import Base Tables Spec Ext NT PBase PTables MInteger PInteger MSieve MIsPrime PSieve PBuffer PropBuffer PIsPrime NTPhi MPi PPi PPi2 PropPi PExact FArith MFloat PFloat PPiVals PSieveArr PFloatTab PGram PFloat2.
Import ListNotations.
Local Open Scope Z_scope.

Lemma last_small : forall f, last (SMALL_PRIMES f) 0 = match f with BigTable => 8161 | SmallTable => 251 end.
Proof. destruct f; vm_compute; reflexivity. Qed.
Lemma small_len' : forall f, Z.of_nat (length (SMALL_PRIMES f)) = table_len f.
Proof. intros f. rewrite small_len. reflexivity. Qed.
Lemma bounds_float : forall f t fl n, table_len f < n -> nth_prime_bounds f t fl n = Ret (fl n).
Proof.
  intros f t fl n Hn. unfold nth_prime_bounds. rewrite small_len'. assert (0 < table_len f) by (destruct f; cbn; lia).
  destruct (Z.eqb_spec n 0); [lia|]. destruct (Z.leb_spec n (table_len f)); [lia | reflexivity].
Qed.
Lemma pi_bounds_float : forall f t fl x, last (SMALL_PRIMES f) 0 < x -> prime_pi_bounds f t fl x = unwrap (fl x).
Proof. intros f t fl x H. unfold prime_pi_bounds. destruct (Z.leb_spec x (last (SMALL_PRIMES f) 0)); [lia | reflexivity]. Qed.
Lemma near_bd : forall n r v, near n r v -> (IZR n * r - IZR n * tol <= v <= IZR n * r + IZR n * tol)%R.
Proof. intros n r v H. unfold near in H. apply Rabs_bd in H. lra. Qed.
Lemma tol_small : forall n b, 0 <= n <= b -> (IZR n * tol <= IZR b * tol)%R.
Proof. intros n b H. apply Rmult_le_compat_r; [unfold tol; lra | apply IZR_le; lia]. Qed.

(** ** C50: the n-th prime is within the bounds *)
Lemma nth_hi_small : forall n, 55 <= n <= 788060 -> (r_nth_hi n <= 16)%R.
Proof.
  intros n Hn. assert (55 <= IZR n <= 788060)%R by (split; apply IZR_le; lia). unfold r_nth_hi.
  destruct (Z.leb_spec 46254381 n); [lia|]. destruct (Z.leb_spec 8009824 n); [lia|].
  destruct (Z.leb_spec 688383 n); [unfold r_f2; interval|]. destruct (Z.leb_spec 178974 n); [unfold r_f2; interval|].
  destruct (Z.leb_spec 39017 n); [unfold r_f1; interval|]. destruct (Z.leb_spec 27076 n); [unfold r_f2; interval|]. unfold r_f1; interval.
Qed.
Lemma nth_bracket : forall L t n p, ln_ok L -> 55 <= n <= 788060 -> nth_prime_is n p ->
  match nth_float L t n with Some (lo, hi) => 3 <= lo <= p /\ p <= hi <= 16777215 | None => ~ in_range t 16777215 end.
Proof.
  intros L t n p HL Hn Hp. assert (H128 : in128 n) by (unfold in128; lia).
  destruct (nth_float_spec L t n HL H128) as [vl [vh [A [B [C [D E]]]]]]. apply near_bd in A, B.
  pose proof (tol_small n 788060 ltac:(lia)) as T. assert (T2 : (788060 * tol <= / 1000)%R) by (unfold tol; lra).
  pose proof (nth_lo_bracket n p Hn Hp) as K1. pose proof (nth_hi_bracket n p Hn Hp) as K2.
  assert (M : Zfloor vh <= 16777215).
  { apply le_IZR. apply Rle_trans with vh; [apply Zfloor_lb|]. pose proof (nth_hi_small n Hn) as R.
    assert (IZR n * r_nth_hi n <= 788060 * 16)%R; [|lra]. destruct (nth_order n H128) as [O1 [O2 O3]]. apply Rmult_le_compat; [apply IZR_le; lia | lra | apply IZR_le; lia | exact R]. }
  assert (Q : 3 <= Zfloor vl <= p /\ p <= Zfloor vh <= 16777215).
  { split; [split; [lia|]|split; [|exact M]]; [|apply Zfloor_lub; lra]. apply le_IZR. pose proof (Zfloor_lb vl). lra. }
  destruct (in_rangeb t (Zfloor vh)) eqn:R.
  - apply in_rangeb_spec in R. rewrite (D R). exact Q.
  - assert (R' : ~ in_range t (Zfloor vh)) by (intros F; apply in_rangeb_spec in F; congruence). rewrite (E R'). intros F. apply R'. apply (range_below t _ 16777215); [lia | exact F].
Qed.
Theorem C50_nth_prime_bounds_bracket : forall L f t n p, ln_ok L -> 1 <= n <= 788060 -> nth_prime_is n p -> in_range t 16777215 ->
  exists lo hi, nth_prime_bounds f t (nth_float L t) n = Ret (Some (lo, hi)) /\ lo <= p <= hi.
Proof.
  intros L f t n p HL Hn Hp Ht. destruct (Z.le_gt_cases n (table_len f)) as [H|H].
  - destruct (nth_prime_bounds_table f t (nth_float L t) n ltac:(rewrite small_len'; lia)) as [q [Hq [Hlt E]]]. pose proof (nth_prime_unique n p q Hp Hq) as <-.
    exists p, p. split; [|lia]. apply C45_nth_prime_bounds_table; [rewrite small_len'; lia | exact Hp|]. apply (range_below t _ 16777215); [|exact Ht].
    pose proof (prime_ge2 p (proj1 Hp)). rewrite small_next in Hlt. destruct f; lia.
  - rewrite bounds_float by exact H. pose proof (nth_bracket L t n p HL ltac:(destruct f; cbn in H; lia) Hp) as K. destruct (nth_float L t n) as [[lo hi]|]; [|contradiction]. exists lo, hi. split; [reflexivity | lia].
Qed.
(** at a type too small for that, whatever is returned is a bracket *)
Theorem C50_nth_prime_bounds_any_type : forall L f t n p lo hi, ln_ok L -> 1 <= n <= 788060 -> nth_prime_is n p ->
  nth_prime_bounds f t (nth_float L t) n = Ret (Some (lo, hi)) -> lo <= p <= hi.
Proof.
  intros L f t n p lo hi HL Hn Hp Hr. destruct (Z.le_gt_cases n (table_len f)) as [H|H].
  - destruct (nth_prime_bounds_table f t (nth_float L t) n ltac:(rewrite small_len'; lia)) as [q [Hq [Hlt E]]]. pose proof (nth_prime_unique n p q Hp Hq) as <-.
    rewrite E in Hr. unfold from_prim in Hr. destruct (in_rangeb t p); cbn in Hr; [|discriminate]. injection Hr as <- <-. lia.
  - rewrite bounds_float in Hr by exact H. injection Hr as Hr. pose proof (nth_bracket L t n p HL ltac:(destruct f; cbn in H; lia) Hp) as K. rewrite Hr in K. lia.
Qed.

(** ** C51: the number of primes is within the bounds *)
Lemma pi_bracket : forall L t x, ln_ok L -> 252 <= x <= 12000000 -> in_range t x ->
  exists lo hi, pi_float L t x = Some (lo, hi) /\ lo <= prime_count x <= hi /\ 2 * hi <= x.
Proof.
  intros L t x HL Hx Ht. assert (H128 : in128pi x) by (unfold in128pi; lia).
  destruct (pi_float_spec L t x HL H128) as [vl [vh [A [B [C [D E]]]]]]. apply near_bd in A, B. exists (Zfloor vl), (Zfloor vh). split; [exact (E Ht)|]. split; [|exact D].
  pose proof (pi_lo_bracket x Hx) as K1. pose proof (pi_hi_bracket x Hx) as K2. split; [|apply Zfloor_lub; lra].
  assert (Zfloor vl < prime_count x + 1); [|lia]. apply lt_IZR. pose proof (Zfloor_lb vl). lra.
Qed.
Theorem C51_prime_pi_bounds_bracket : forall L f t x, ln_ok L -> valid_ity t -> in_range t x -> x <= 12000000 ->
  exists lo hi, prime_pi_bounds f t (pi_float L t) x = Ret (lo, hi) /\ lo <= prime_count x <= hi.
Proof.
  intros L f t x HL Hv Ht Hx. destruct (Z.le_gt_cases x (last (SMALL_PRIMES f) 0)) as [H|H].
  - exists (prime_count x), (prime_count x). split; [apply C45_prime_pi_bounds_table; assumption | lia].
  - rewrite pi_bounds_float by exact H. destruct (pi_bracket L t x HL) as [lo [hi [E [B _]]]]; [rewrite last_small in H; destruct f; lia | exact Ht|]. exists lo, hi. rewrite E. split; [reflexivity | exact B].
Qed.

(** ** C52: all targets below 2^128. The bounds are ordered, they are the published formulas up to a
    relative rounding error of 2^-38, and prime_pi_bounds never panics *)
Theorem C52_nth_prime_bounds_rounding : forall L f t n, ln_ok L -> table_len f < n < 2 ^ 128 ->
  exists vl vh, (Rabs (vl - IZR n * r_nth_lo n) <= IZR n / 2 ^ 38)%R /\ (Rabs (vh - IZR n * r_nth_hi n) <= IZR n / 2 ^ 38)%R /\ 3 <= Zfloor vl <= Zfloor vh /\
    nth_prime_bounds f t (nth_float L t) n = Ret (if in_rangeb t (Zfloor vh) then Some (Zfloor vl, Zfloor vh) else None).
Proof.
  intros L f t n HL Hn. assert (H128 : in128 n) by (unfold in128; destruct f; cbn in Hn; lia). destruct (nth_float_spec L t n HL H128) as [vl [vh [A [B [C [D E]]]]]].
  assert (T : (IZR n / 2 ^ 38 = IZR n * tol)%R) by (unfold tol; lra). exists vl, vh. rewrite T. split; [exact A|]. split; [exact B|]. split; [exact C|]. rewrite bounds_float by lia. f_equal.
  destruct (in_rangeb t (Zfloor vh)) eqn:R; [apply D, in_rangeb_spec, R | apply E; intros F; apply in_rangeb_spec in F; congruence].
Qed.
Theorem C52_prime_pi_bounds_rounding : forall L f t x, ln_ok L -> last (SMALL_PRIMES f) 0 < x < 2 ^ 128 -> in_range t x ->
  exists vl vh, (Rabs (vl - IZR x * r_pi_lo x) <= IZR x / 2 ^ 38)%R /\ (Rabs (vh - IZR x * r_pi_hi x) <= IZR x / 2 ^ 38)%R /\ 0 <= Zfloor vl <= Zfloor vh /\ 2 * Zfloor vh <= x /\
    prime_pi_bounds f t (pi_float L t) x = Ret (Zfloor vl, Zfloor vh).
Proof.
  intros L f t x HL Hx Ht. assert (H128 : in128pi x) by (unfold in128pi; rewrite last_small in Hx; destruct f; lia). destruct (pi_float_spec L t x HL H128) as [vl [vh [A [B [C [D E]]]]]].
  assert (T : (IZR x / 2 ^ 38 = IZR x * tol)%R) by (unfold tol; lra). exists vl, vh. rewrite T. split; [exact A|]. split; [exact B|]. split; [exact C|]. split; [exact D|]. rewrite pi_bounds_float, (E Ht) by lia. reflexivity.
Qed.
Theorem C52_prime_pi_bounds_total : forall L f t x, ln_ok L -> valid_ity t -> in_range t x -> x < 2 ^ 128 ->
  exists lo hi, prime_pi_bounds f t (pi_float L t) x = Ret (lo, hi) /\ 0 <= lo <= hi.
Proof.
  intros L f t x HL Hv Ht Hx. destruct (Z.le_gt_cases x (last (SMALL_PRIMES f) 0)) as [H|H].
  - exists (prime_count x), (prime_count x). split; [apply C45_prime_pi_bounds_table; assumption | pose proof (pc_nonneg x); lia].
  - destruct (C52_prime_pi_bounds_rounding L f t x HL ltac:(lia) Ht) as [vl [vh [_ [_ [A [_ B]]]]]]. exists (Zfloor vl), (Zfloor vh). auto.
Qed.
(** Below 2^38 rounding cannot spoil a published inequality by more than the truncation does: if the
    real formula is a lower bound, the integer returned is one; if the real formula is an upper
    bound, the integer returned is at most 1 below the truth. *)
Theorem C52_nth_prime_bounds_from_formula : forall L f t n p lo hi, ln_ok L -> table_len f < n < 2 ^ 38 ->
  (IZR n * r_nth_lo n <= IZR p <= IZR n * r_nth_hi n)%R ->
  nth_prime_bounds f t (nth_float L t) n = Ret (Some (lo, hi)) -> lo <= p <= hi + 1.
Proof.
  intros L f t n p lo hi HL Hn Hp Hr. destruct (C52_nth_prime_bounds_rounding L f t n HL ltac:(lia)) as [vl [vh [A [B [C D]]]]]. rewrite D in Hr. destruct (in_rangeb t (Zfloor vh)); [|discriminate]. injection Hr as <- <-.
  apply Rabs_bd in A, B. assert (T : (0 <= IZR n / 2 ^ 38 < 1)%R).
  { assert (0 <= IZR n < 274877906944)%R by (split; [apply IZR_le | apply IZR_lt]; destruct f; cbn in Hn; lia). lra. }
  split.
  - assert (Zfloor vl < p + 1); [|lia]. apply lt_IZR. rewrite plus_IZR. pose proof (Zfloor_lb vl). lra.
  - assert (p < Zfloor vh + 1 + 1); [|lia]. apply lt_IZR. rewrite !plus_IZR. pose proof (Zfloor_ub vh). lra.
Qed.
Theorem C52_prime_pi_bounds_from_formula : forall L f t x c lo hi, ln_ok L -> last (SMALL_PRIMES f) 0 < x < 2 ^ 38 -> in_range t x ->
  (IZR x * r_pi_lo x <= IZR c <= IZR x * r_pi_hi x)%R ->
  prime_pi_bounds f t (pi_float L t) x = Ret (lo, hi) -> lo <= c <= hi + 1.
Proof.
  intros L f t x c lo hi HL Hx Ht Hc Hr. destruct (C52_prime_pi_bounds_rounding L f t x HL ltac:(lia) Ht) as [vl [vh [A [B [C [_ D]]]]]]. rewrite D in Hr. injection Hr as <- <-.
  apply Rabs_bd in A, B. assert (T : (0 <= IZR x / 2 ^ 38 < 1)%R).
  { assert (0 <= IZR x < 274877906944)%R by (split; [apply IZR_le | apply IZR_lt]; rewrite last_small in Hx; destruct f; lia). lra. }
  split.
  - assert (Zfloor vl < c + 1); [|lia]. apply lt_IZR. rewrite plus_IZR. pose proof (Zfloor_lb vl). lra.
  - assert (c < Zfloor vh + 1 + 1); [|lia]. apply lt_IZR. rewrite !plus_IZR. pose proof (Zfloor_ub vh). lra.
Qed.

(** ** C53: targets from 2^1024 on (BigUint) *)
Theorem C53_prime_pi_bounds_huge_panics : forall L f n, L finf = finf -> 2 ^ 1024 <= n -> prime_pi_bounds f Big (pi_float L Big) n = Panic.
Proof.
  intros L f n HL Hn. rewrite pi_bounds_float; [rewrite pi_float_inf by assumption; reflexivity|]. rewrite last_small. eapply Z.lt_le_trans; [|exact Hn]. destruct f; vm_compute; reflexivity.
Qed.
Theorem C53_nth_prime_bounds_huge_none : forall L f n, L finf = finf -> 2 ^ 1024 <= n -> nth_prime_bounds f Big (nth_float L Big) n = Ret None.
Proof.
  intros L f n HL Hn. rewrite bounds_float; [rewrite nth_float_inf by assumption; reflexivity|]. eapply Z.lt_le_trans; [|exact Hn]. destruct f; vm_compute; reflexivity.
Qed.

(** ** C54: nth_prime, prime_pi, prime_phi, nprimes and primorial with this floating point code *)
Definition float_est (f : feature) (pf : profile) (fuel : Z) (L X : f64 -> f64) : Z -> res (option Z) :=
  nth_prime_est f pf u64 fuel (nth_float L u64) (prime_pi_est f pf u64 (pi_float L u64) (gram L X ZETA_LOG_TABLE u64)).
Lemma pi_est_ok : forall f pf L X x, ln_ok L -> exp_ok X -> 0 <= x < 2 ^ 32 -> exists v, prime_pi_est f pf u64 (pi_float L u64) (gram L X ZETA_LOG_TABLE u64) x = Ret v.
Proof.
  intros f pf L X x HL HX Hx. assert (R : in_range u64 x) by (cbn; lia). destruct (Z.le_gt_cases x (last (SMALL_PRIMES f) 0)) as [H|H].
  - exists (prime_count x). apply C45_prime_pi_est_table; [right; right; right; left; reflexivity | exact R | exact H|]. intros _. pose proof (pc_lt_self x ltac:(lia)). pose proof (pc_nonneg x). unfold u64. cbn [in_range]. lia.
  - unfold prime_pi_est. destruct f.
    + destruct (Z.leb_spec x (last (SMALL_PRIMES BigTable) 0)); [lia|]. rewrite last_small in H. destruct (gram_ok L X HL HX ZETA_LOG_TABLE zeta_table_ok x ltac:(lia)) as [v [E _]]. change (gram L X ZETA_LOG_TABLE (U 64)) with (gram L X ZETA_LOG_TABLE u64) in E. rewrite E. exists v. reflexivity.
    + destruct (C52_prime_pi_bounds_rounding L SmallTable u64 x HL ltac:(lia) R) as [vl [vh [_ [_ [A [B E]]]]]]. rewrite E. cbn [bind]. rewrite add_ok by (cbn; lia). cbn [bind]. exists ((Zfloor vl + Zfloor vh) / 2). reflexivity.
Qed.
Lemma bounds_79667 : forall L n, ln_ok L -> 55 <= n <= 79667 -> exists lo hi, nth_float L u64 n = Some (lo, hi) /\ 3 <= lo <= hi /\ hi <= 2 ^ 20 - 1.
Proof.
  intros L n HL Hn. assert (H128 : in128 n) by (unfold in128; lia). destruct (nth_float_spec L u64 n HL H128) as [vl [vh [A [B [C [D E]]]]]]. apply near_bd in B.
  assert (M : Zfloor vh <= 2 ^ 20 - 1); [|exists (Zfloor vl), (Zfloor vh); split; [apply D; cbn; lia | lia]].
  apply le_IZR. apply Rle_trans with vh; [apply Zfloor_lb|]. change (IZR (2 ^ 20 - 1)) with 1048575%R.
  pose proof (tol_small n 79667 ltac:(lia)) as T. assert (T2 : (79667 * tol <= / 1000000)%R) by (unfold tol; lra).
  assert (R : (r_nth_hi n <= 12775 / 1000)%R).
  { assert (55 <= IZR n <= 79667)%R by (split; apply IZR_le; lia). unfold r_nth_hi. destruct (Z.leb_spec 46254381 n); [lia|]. destruct (Z.leb_spec 8009824 n); [lia|]. destruct (Z.leb_spec 688383 n); [lia|]. destruct (Z.leb_spec 178974 n); [lia|].
    destruct (Z.leb_spec 39017 n); [unfold r_f1; interval with (i_prec 40)|]. destruct (Z.leb_spec 27076 n).
    - assert (27076 <= IZR n <= 39017)%R by (split; apply IZR_le; lia). unfold r_f2. interval with (i_prec 40).
    - assert (55 <= IZR n <= 27076)%R by (split; apply IZR_le; lia). unfold r_f1. interval with (i_prec 40). }
  destruct (nth_order n H128) as [O1 [O2 O3]]. assert (IZR n * r_nth_hi n <= 79667 * (12775 / 1000))%R; [|lra]. apply Rmult_le_compat; [apply IZR_le; lia | lra | apply IZR_le; lia | exact R].
Qed.
Lemma pc_sqrt_top : prime_count (Z.sqrt (2 ^ 20 - 1)) <= 79667.
Proof. change (Z.sqrt (2 ^ 20 - 1)) with 1023. pose proof (pc_lt_self 1023 ltac:(lia)). lia. Qed.
Theorem C54_estimates_ok : forall f pf L X fuel, ln_ok L -> exp_ok X -> 2 ^ 20 <= fuel ->
  estimates_ok f (nth_float L u64) (float_est f pf fuel L X) 79667 (2 ^ 20 - 1).
Proof.
  intros f pf L X fuel HL HX Hf. apply C46_estimates_from_brackets.
  - split; [apply pc_sqrt_top|]. rewrite <- primes_upto_1015809. apply pc_mono. lia.
  - lia.
  - lia.
  - intros x Hx. apply pi_est_ok; auto. lia.
  - intros n Hn. rewrite small_len' in Hn. assert (H55 : 55 <= n) by (destruct f; cbn in Hn; lia). destruct (bounds_79667 L n HL ltac:(lia)) as [lo [hi [E [A B]]]]. exists lo, hi. split; [exact E|]. split; [exact A|]. split; [exact B|].
    intros H4. split; [|lia]. destruct (nth_prime_exists n (2 ^ 20 - 1)) as [p [Hp Lp]]; [split; [lia|]; pose proof primes_upto_1015809; pose proof (pc_mono 1015809 (2 ^ 20 - 1) ltac:(lia)); lia|].
    pose proof (nth_bracket L u64 n p HL ltac:(lia) Hp) as K. rewrite E in K. apply (nth_prime_le n p hi Hp). lia.
  - intros _ m Hm Hr. apply (z_is_prime64_exact f m ltac:(lia)). rewrite is_prime64_law in Hr by lia. injection Hr as Hr. exact Hr.
Qed.
Lemma est_square : forall f pf L X fuel, ln_ok L -> exp_ok X -> 2 ^ 20 <= fuel -> forall i e, 4096 < i <= 79667 -> float_est f pf fuel L X i = Ret (Some e) -> e <= i * i.
Proof.
  intros f pf L X fuel HL HX Hf i e Hi E. destruct (C54_estimates_ok f pf L X fuel HL HX Hf) as [_ [_ [_ [He _]]]]. destruct (He i Hi) as [e' [E' B]]. rewrite E in E'. injection E' as <-.
  assert (4096 * 4096 <= i * i) by (apply Z.mul_le_mono_nonneg; lia). lia.
Qed.
(** nth_prime returns the n-th prime for all n up to 79667 *)
Theorem C54_nth_prime : forall f pf L X fn fw fuel n, ln_ok L -> exp_ok X -> 2 ^ 20 <= fuel -> 2 ^ 64 <= fn -> 2 ^ 64 <= fw -> 1 <= n <= 79667 ->
  exists k0, forall k ops b, (k0 <= k)%nat -> Forall (op_ok f (nth_float L u64)) ops -> history f pf (nth_float L u64) ops = Ret b ->
  exists p b', nth_prime f pf (nth_float L u64) (float_est f pf fuel L X) fn fw k b n = Ret (p, b') /\ nth_prime_is n p.
Proof.
  intros f pf L X fn fw fuel n HL HX Hf Hfn Hfw Hn. eapply C06_nth_prime_returns; eauto; [apply C54_estimates_ok; auto | intros i e Hi; apply est_square; auto].
Qed.
(** prime_pi counts the primes up to every limit below 1015810^2 > 10^12 *)
Lemma sqrt_1015809 : forall limit, 0 <= limit < 1015810 * 1015810 -> prime_count (Z.sqrt limit) <= 79667.
Proof.
  intros limit H. assert (Z.sqrt limit < 1015810) by (apply Z.sqrt_lt_square; lia). rewrite <- primes_upto_1015809. apply pc_mono. lia.
Qed.
Theorem C54_prime_pi : forall f pf L X fn fw fuel limit, ln_ok L -> exp_ok X -> 2 ^ 20 <= fuel -> 2 ^ 64 <= fn -> 2 ^ 64 <= fw -> 0 <= limit < 1015810 * 1015810 ->
  exists k0, forall k ops b, (k0 <= k)%nat -> Forall (op_ok f (nth_float L u64)) ops -> history f pf (nth_float L u64) ops = Ret b ->
  exists b', prime_pi f pf (nth_float L u64) (float_est f pf fuel L X) fn fw k b limit = Ret (prime_count limit, b').
Proof.
  intros f pf L X fn fw fuel limit HL HX Hf Hfn Hfw Hl. eapply C07_prime_pi_returns; eauto; [apply C54_estimates_ok; auto | intros i e Hi; apply est_square; auto | lia | apply sqrt_1015809, Hl].
Qed.
Theorem C54_prime_phi : forall f pf L X fn fw fuel x a ops b k cap cache, ln_ok L -> exp_ok X -> 2 ^ 20 <= fuel -> 2 ^ 64 <= fn -> 2 ^ 64 <= fw ->
  0 <= x < 2 ^ 64 - 1 -> 1 <= a <= 79667 -> Forall (op_ok f (nth_float L u64)) ops -> history f pf (nth_float L u64) ops = Ret b -> consistent_cache cache ->
  value_is (prime_phi f pf (nth_float L u64) (float_est f pf fuel L X) fn fw k b x a cap cache) (fun '(r, _, cache') => r = legendre_phi x a /\ consistent_cache cache').
Proof.
  intros f pf L X fn fw fuel x a ops b k cap cache HL HX Hf Hfn Hfw Hx Ha Hops Hh Hc. eapply C08_prime_phi; eauto; [apply (C54_estimates_ok f pf L X fuel); auto | lia].
Qed.
Lemma float_bound_ok : forall f L n, ln_ok L -> n <= 788060 -> Z.of_nat (length (SMALL_PRIMES f)) < n -> exists lo hi, nth_float L u64 n = Some (lo, hi) /\ n <= prime_count hi /\ 0 <= hi <= 2 ^ 32 - 1.
Proof.
  intros f L n HL Hn Hl. rewrite small_len' in Hl. assert (H55 : 55 <= n) by (destruct f; cbn in Hl; lia).
  destruct (nth_prime_exists n top) as [p [Hp Lp]]; [rewrite pc_top_val; lia|].
  pose proof (nth_bracket L u64 n p HL ltac:(lia) Hp) as K. destruct (nth_float L u64 n) as [[lo hi]|]; [|exfalso; apply K; unfold u64; cbn [in_range]; lia].
  exists lo, hi. split; [reflexivity|]. split; [apply (nth_prime_le n p hi Hp); lia | lia].
Qed.
Theorem C54_nprimes : forall f pf L ops b n, ln_ok L -> 0 <= n <= 788060 -> Forall (op_ok f (nth_float L u64)) ops -> history f pf (nth_float L u64) ops = Ret b ->
  exists l b', buf_nprimes f pf (nth_float L u64) b n = Ret (l, b') /\ lists_primes l (fun p => prime_count p <= n) /\ Z.of_nat (length l) = n.
Proof.
  intros f pf L ops b n HL Hn Hops Hh. eapply C05_nprimes_exact; eauto; [lia|]. intros H. destruct (float_bound_ok f L n HL ltac:(lia) H) as [lo [hi [E [A B]]]]. exists lo, hi. split; [exact E|]. split; [exact A | lia].
Qed.
Theorem C54_primorial : forall f pf t L ops b n l, ln_ok L -> 0 <= n <= 788060 -> Forall (op_ok f (nth_float L u64)) ops -> history f pf (nth_float L u64) ops = Ret b ->
  lists_primes l (fun p => prime_count p <= n) -> in_range t (prod l) -> exists b', buf_primorial f pf t (nth_float L u64) b n = Ret (prod l, b').
Proof.
  intros f pf t L ops b n l HL Hn Hops Hh Hl Hr. eapply C09_primorial; eauto; [lia|]. intros H. destruct (float_bound_ok f L n HL ltac:(lia) H) as [lo [hi [E [A B]]]]. exists lo, hi. split; [exact E|]. split; [exact A | lia].
Qed.
(** a history may use nprimes up to 788060 without further conditions *)
Theorem C54_history_nprimes : forall f L n, ln_ok L -> 0 <= n <= 788060 -> op_ok f (nth_float L u64) (ONprimes n).
Proof. intros f L n HL Hn. split; [lia|]. intros H. apply (float_bound_ok f L n HL); [lia | exact H]. Qed.

(** ** C11: is_prime64 is exact below 2^20 *)
Theorem C11_is_prime64_exact_20bit : forall f pf n, 0 <= n < 2 ^ 20 -> exists r, is_prime64 f pf n = Ret r /\ (r = true <-> prime n).
Proof. intros f pf n Hn. exists (z_is_prime64 f n). split; [apply is_prime64_law; lia | apply z_is_prime64_exact; lia]. Qed.

(** ** Concrete cases *)
(** The correctly rounded logarithm and exponential meet the requirements. *)
Local Open Scope R_scope.
Definition fexp64 : Z -> Z := SpecFloat.fexp 53 1024.
Definition round64 (r : R) : f64 :=
  binary_normalize 53 1024 _ _ mode_NE (Ztrunc (scaled_mantissa radix2 fexp64 (rnd r))) (cexp radix2 fexp64 (rnd r)) false.
Lemma round64_spec : forall r, Rabs r <= bpow radix2 1020 -> fin (round64 r) /\ val (round64 r) = rnd r.
Proof.
  intros r H. unfold round64. pose proof (binary_normalize_correct 53 1024 _ _ mode_NE (Ztrunc (scaled_mantissa radix2 fexp64 (rnd r))) (cexp radix2 fexp64 (rnd r)) false) as C. cbv zeta in C.
  assert (G : generic_format radix2 fexp64 (rnd r)) by (apply generic_format_round; [apply fexp_correct; exact eq_refl | apply valid_rnd_round_mode]).
  pose proof (round_generic radix2 fexp64 (round_mode mode_NE) (rnd r) G) as I. unfold generic_format in G. rewrite <- G in C. unfold fexp64 in I. rewrite I in C.
  rewrite Rlt_bool_true in C.
  - destruct C as [C1 [C2 _]]. split; [exact C2 | exact C1].
  - apply Rle_lt_trans with (bpow radix2 1020); [|apply bpow_lt; lia]. apply abs_round_le_generic; [apply fexp_correct; exact eq_refl | apply valid_rnd_round_mode | apply generic_format_bpow; unfold SpecFloat.fexp, SpecFloat.emin; lia | exact H].
Qed.
Lemma round64_err : forall r, bpow radix2 (-1022) <= Rabs r <= bpow radix2 1020 -> fin (round64 r) /\ Rabs (val (round64 r) - r) <= Rabs r / 2 ^ 50.
Proof.
  intros r [H1 H2]. destruct (round64_spec r H2) as [A B]. split; [exact A|]. rewrite B.
  pose proof (relative_error_N_FLT radix2 (-1074) 53 ltac:(lia) (fun x => negb (Z.even x)) r H1) as E. replace (/ 2 * bpow radix2 (- (53) + 1)) with u53 in E by (unfold u53; cbn; lra).
  eapply Rle_trans; [exact E|]. pose proof (Rabs_pos r). unfold u53. lra.
Qed.
Definition ideal_ln (x : f64) : f64 := if is_finite x then round64 (ln (val x)) else x.
Definition ideal_exp (x : f64) : f64 := round64 (exp (val x)).
Example ideal_ln_ok : ln_ok ideal_ln /\ ideal_ln finf = finf.
Proof.
  split; [|reflexivity]. intros x Hx H1. unfold ideal_ln. unfold fin in Hx. rewrite Hx. set (v := val x) in *.
  assert (L0 : 0 <= ln v) by (rewrite <- ln_1; destruct H1 as [H1|H1]; [left; apply ln_increasing; lra | right; rewrite <- H1; reflexivity]).
  assert (Up : ln v <= bpow radix2 1020).
  { apply Rle_trans with (ln (bpow radix2 1024)).
    - left. apply ln_increasing; [lra|]. unfold v, val. apply Rle_lt_trans with (Rabs (B2R x)); [apply Rle_abs | apply abs_B2R_lt_emax].
    - apply Rle_trans with 1024; [|apply Rle_trans with (bpow radix2 10); [change (bpow radix2 10) with 1024; lra | apply bpow_le; lia]].
      rewrite bpow_powerRZ. change (powerRZ (IZR radix2) 1024) with (2 ^ 1024). rewrite <- Rpower_pow by lra. unfold Rpower. rewrite ln_exp. rewrite INR_IZR_INZ. change (Z.of_nat 1024) with 1024%Z. assert (ln 2 <= 1) by interval. lra. }
  destruct (Req_dec v 1) as [E|Ne].
  - rewrite E, ln_1. destruct (round64_spec 0) as [A B]; [rewrite Rabs_R0; apply bpow_ge_0|]. split; [exact A|]. rewrite B, round_0 by apply valid_rnd_round_mode. rewrite Rminus_0_r, Rabs_R0. lra.
  - assert (S : 1 + / 2 ^ 52 <= v).
    { assert (G1 : generic_format radix2 fexp64 1) by (change 1 with (bpow radix2 0); apply generic_format_bpow; unfold fexp64, SpecFloat.fexp, SpecFloat.emin; lia).
      pose proof (succ_le_lt radix2 fexp64 1 v G1 (generic_format_B2R 53 1024 x) ltac:(lra)) as S. rewrite succ_eq_pos in S by lra.
      replace (ulp radix2 fexp64 1) with (/ 2 ^ 52) in S; [exact S|]. change (ulp radix2 fexp64 1) with (ulp radix2 fexp64 (bpow radix2 0)). rewrite ulp_bpow. change (fexp64 (0 + 1)) with (-52)%Z. cbn. lra. }
    assert (D : / 2 ^ 53 <= ln v).
    { pose proof (ln_le_sub1 (/ v) ltac:(apply Rinv_0_lt_compat; lra)) as K. rewrite ln_Rinv in K by lra. apply Rle_trans with (1 - / v); [|lra].
      assert (/ v <= / (1 + / 2 ^ 52)) by (apply Rinv_le_contravar; lra). apply Rle_trans with (1 - / (1 + / 2 ^ 52)); [|lra]. interval with (i_prec 120). }
    destruct (round64_err (ln v)) as [A B].
    + rewrite Rabs_pos_eq by exact L0. split; [|exact Up]. apply Rle_trans with (/ 2 ^ 53); [|exact D]. apply Rle_trans with (bpow radix2 (-53)); [apply bpow_le; lia | cbn; lra].
    + split; [exact A|]. rewrite (Rabs_pos_eq (ln v)) in B by exact L0. exact B.
Qed.
Example ideal_exp_ok : exp_ok ideal_exp.
Proof.
  intros x Hx H. unfold ideal_exp. apply Rabs_bd in H. set (v := val x) in *. pose proof (exp_pos v) as P.
  assert (Q : forall k, exp (IZR k) = exp 1 ^ Z.to_nat k \/ (k < 0)%Z).
  { intros k. destruct (Z.lt_ge_cases k 0) as [L|L]; [right; exact L | left]. rewrite <- (Z2Nat.id k L) at 1. rewrite <- INR_IZR_INZ. generalize (Z.to_nat k) as m. induction m as [|m IH]; [cbn; apply exp_0|]. rewrite S_INR, exp_plus, IH. cbn [pow]. ring. }
  assert (E7 : exp 700 <= bpow radix2 1020).
  { destruct (Q 700%Z) as [->|]; [|lia]. rewrite bpow_powerRZ. change (powerRZ (IZR radix2) 1020) with (2 ^ 1020). change (Z.to_nat 700) with 700%nat.
    replace 1020%nat with (102 * 10)%nat by reflexivity. replace 700%nat with (70 * 10)%nat by reflexivity. rewrite !pow_mult. apply pow_incr. split; [apply pow_le, Rlt_le, exp_pos|].
    replace 70%nat with (7 * 10)%nat by reflexivity. rewrite (pow_mult (exp 1)). change 2 with (IZR 2). rewrite pow_IZR. apply Rle_trans with (1100 ^ 10); [apply pow_incr; split; [apply pow_le, Rlt_le, exp_pos | interval]|]. change 1100 with (IZR 1100). rewrite pow_IZR. apply IZR_le. vm_compute. discriminate. }
  assert (U : exp v <= bpow radix2 1020) by (apply Rle_trans with (exp 700); [|exact E7]; destruct (Rle_lt_or_eq_dec v 700 ltac:(lra)) as [L| ->]; [left; apply exp_increasing, L | right; reflexivity]).
  assert (D : bpow radix2 (-1022) <= exp v).
  { apply Rle_trans with (exp (-700)); [|destruct (Rle_lt_or_eq_dec (-700) v ltac:(lra)) as [L| <-]; [left; apply exp_increasing, L | right; reflexivity]].
    replace (-700) with (- (700)) by lra. rewrite exp_Ropp. change (-1022)%Z with (- (1022))%Z. rewrite bpow_opp. apply Rinv_le_contravar; [apply exp_pos|]. apply Rle_trans with (bpow radix2 1020); [exact E7 | apply bpow_le; lia]. }
  destruct (round64_err (exp v)) as [A B]; [rewrite Rabs_pos_eq by lra; lra|]. rewrite (Rabs_pos_eq (exp v)) in B by lra. split; [exact A | exact B].
Qed.
Local Open Scope Z_scope.
Lemma ideal : ln_ok ideal_ln.
Proof. apply ideal_ln_ok. Qed.
(** the 60th prime is 281; beyond the small table, so the formulas are used *)
Example C50_case : nth_prime_is 60 281 /\ in_range (U 32) 16777215 /\
  exists lo hi, nth_prime_bounds SmallTable (U 32) (nth_float ideal_ln (U 32)) 60 = Ret (Some (lo, hi)) /\ lo <= 281 <= hi.
Proof.
  assert (H : nth_prime_is 60 281) by (split; [apply primeb_spec; vm_compute; reflexivity | vm_compute; reflexivity]).
  split; [exact H|]. split; [cbn; lia|]. apply (C50_nth_prime_bounds_bracket ideal_ln SmallTable (U 32) 60 281 ideal); [lia | exact H | cbn; lia].
Qed.
Example C51_case : prime_count 300 = 62 /\ exists lo hi, prime_pi_bounds SmallTable (U 16) (pi_float ideal_ln (U 16)) 300 = Ret (lo, hi) /\ lo <= 62 <= hi.
Proof.
  assert (E : prime_count 300 = 62) by (vm_compute; reflexivity). split; [exact E|]. rewrite <- E. apply C51_prime_pi_bounds_bracket; [apply ideal | right; left; reflexivity | cbn; lia | lia].
Qed.
(** the float values themselves, with ln(1000) and ln(ln(1000)) given to 53 bits *)
Definition ln1000 (x : f64) : f64 := flit 690775527898213 100000000000000.
Example C51_value : pi_float ln1000 (U 16) 1000 = Some (165, 171) /\ pi_float ln1000 (U 8) 1000 = Some (165, 171).
Proof. vm_compute. split; reflexivity. Qed.
Example C52_case : exists lo hi, prime_pi_bounds BigTable u64 (pi_float ideal_ln u64) (2 ^ 64 - 1) = Ret (lo, hi) /\ 0 <= lo <= hi.
Proof. apply C52_prime_pi_bounds_total; [apply ideal | right; right; right; left; reflexivity | cbn; lia | lia]. Qed.
Example C53_case : prime_pi_bounds BigTable Big (pi_float ideal_ln Big) (2 ^ 1024) = Panic /\ nth_prime_bounds BigTable Big (nth_float ideal_ln Big) (2 ^ 1024) = Ret None.
Proof. split; [apply C53_prime_pi_bounds_huge_panics | apply C53_nth_prime_bounds_huge_none]; try apply ideal_ln_ok; lia. Qed.
Example C54_case : Forall (op_ok SmallTable (nth_float ideal_ln u64)) [OReserve 100; ONprimes 300000; OClear] /\ estimates_ok SmallTable (nth_float ideal_ln u64) (float_est SmallTable Debug (2 ^ 20) ideal_ln ideal_exp) 79667 (2 ^ 20 - 1).
Proof.
  split; [|apply C54_estimates_ok; [apply ideal | apply ideal_exp_ok | lia]]. constructor; [cbn; lia|]. constructor; [apply C54_history_nprimes; [apply ideal | lia]|]. repeat constructor.
Qed.
Example C11_case_20bit : prime 1048573 /\ (exists r, is_prime64 BigTable Debug 1048573 = Ret r /\ (r = true <-> prime 1048573)) /\ is_prime64 BigTable Debug 1048573 = Ret true.
Proof.
  assert (E : is_prime64 BigTable Debug 1048573 = Ret true) by (vm_compute; reflexivity). destruct (C11_is_prime64_exact_20bit BigTable Debug 1048573 ltac:(lia)) as [r [E' H]].
  pose proof E' as E2. rewrite E in E2. injection E2 as <-. split; [apply H; reflexivity|]. split; [exists true; split; assumption | exact E].
Qed.

Print Assumptions C50_nth_prime_bounds_bracket.
Print Assumptions C50_nth_prime_bounds_any_type.
Print Assumptions C51_prime_pi_bounds_bracket.
Print Assumptions C52_nth_prime_bounds_rounding.
Print Assumptions C52_prime_pi_bounds_rounding.
Print Assumptions C52_prime_pi_bounds_total.
Print Assumptions C52_nth_prime_bounds_from_formula.
Print Assumptions C52_prime_pi_bounds_from_formula.
Print Assumptions C53_prime_pi_bounds_huge_panics.
Print Assumptions C53_nth_prime_bounds_huge_none.
Print Assumptions C54_estimates_ok.
Print Assumptions C54_nth_prime.
Print Assumptions C54_prime_pi.
Print Assumptions C54_prime_phi.
Print Assumptions C54_nprimes.
Print Assumptions C54_primorial.
Print Assumptions C54_history_nprimes.
Print Assumptions C11_is_prime64_exact_20bit.
