(** * C79: prime_pi_est lies between the bounds of prime_pi_bounds. *)
From Coq Require Import Reals ZArith Znumtheory List Lia Lra Bool.
From Flocq Require Import Core.Raux.
From Interval Require Import Tactic.
From Verif Require Import Base Tables Spec Ext NT PBase PTables MInteger MSieve MIsPrime PropPi FArith MFloat PFloat PFloat2 PGram PropFloat SpecGram PZeta PZetaTab PGramR PGram2 PropGram PNthEst PropNthEst PEstR.
Import ListNotations.
Local Open Scope Z_scope.

Lemma ln_IZR_in : forall a x b, 0 < a -> a <= x <= b -> (ln (IZR a) <= ln (IZR x) <= ln (IZR b))%R.
Proof. intros a x b Ha H. apply ln_in; [apply IZR_lt, Ha | split; apply IZR_le; lia]. Qed.
Lemma two64 : IZR (2 ^ 64) = 18446744073709551616%R.
Proof. reflexivity. Qed.
Lemma two128 : IZR (2 ^ 128) = 340282366920938463463374607431768211456%R.
Proof. reflexivity. Qed.
Lemma hundred : forall zt n x, (forall k, (1 <= k)%nat -> zeta_is (S k) (zt k)) -> 7398600000 <= x < 2 ^ 128 -> (n <= 100)%nat ->
  (4 <= IZR x * (r_s3 (759 / 100) (IZR x) - tol) - kup * Sm (ln (IZR x)) zt n)%R.
Proof.
  intros zt n x HZ Hx Hn. assert (X : (7398600000 <= IZR x)%R) by (apply IZR_le; lia). assert (L : (ln 7398600000 <= ln (IZR x) <= ln 340282366920938463463374607431768211456)%R) by (apply (ln_IZR_in 7398600000 x (2 ^ 128)); lia).
  pose proof (hi_5 zt HZ (ln (IZR x)) L) as A. rewrite exp_ln in A by lra. assert (L0 : (0 <= ln (IZR x))%R) by (assert (0 <= ln 7398600000)%R by interval; lra).
  assert (M : (Sm (ln (IZR x)) zt n <= Sm (ln (IZR x)) zt 100)%R).
  { clear - HZ L0 Hn. replace 100%nat with (n + (100 - n))%nat by lia. generalize (100 - n)%nat as j. induction j as [|j IH]; [rewrite Nat.add_0_r; lra|]. rewrite <- plus_n_Sm. eapply Rle_trans; [exact IH|]. apply (Sm_le_succ zt HZ); exact L0. }
  unfold r_s3. assert (kup * Sm (ln (IZR x)) zt n <= kup * Sm (ln (IZR x)) zt 100)%R by (apply Rmult_le_compat_l; [unfold kup; lra | exact M]). lra.
Qed.
Lemma est_hi : forall zt x, (forall k, (1 <= k)%nat -> zeta_is (S k) (zt k)) -> 8162 <= x < 2 ^ 64 ->
  (4 <= IZR x * (r_pi_hi x - tol) - kup * Sm (ln (IZR x)) zt 99)%R.
Proof.
  intros zt x HZ Hx. assert (X : (8162 <= IZR x)%R) by (apply IZR_le; lia). assert (E : exp (ln (IZR x)) = IZR x) by (apply exp_ln; lra). unfold r_pi_hi.
  destruct (Z.leb_spec 7398600000 x); [apply hundred; [exact HZ | lia | lia]|].
  destruct (Z.leb_spec 2953652287 x). { pose proof (hi_4 zt HZ (ln (IZR x)) (ln_IZR_in 2953652287 x 7398600000 ltac:(lia) ltac:(lia))) as A. rewrite E in A. exact A. }
  destruct (Z.leb_spec 467345 x). { pose proof (hi_3 zt HZ (ln (IZR x)) (ln_IZR_in 467345 x 2953652287 ltac:(lia) ltac:(lia))) as A. rewrite E in A. exact A. }
  destruct (Z.leb_spec 29927 x). { pose proof (hi_2 zt HZ (ln (IZR x)) (ln_IZR_in 29927 x 467345 ltac:(lia) ltac:(lia))) as A. rewrite E in A. exact A. }
  destruct (Z.leb_spec 5668 x); [|lia]. pose proof (hi_1 zt HZ (ln (IZR x)) (ln_IZR_in 8162 x 29927 ltac:(lia) ltac:(lia))) as A. rewrite E in A. exact A.
Qed.
Lemma est_lo : forall zt x, (forall k, (1 <= k)%nat -> zeta_is (S k) (zt k)) -> 8162 <= x < 2 ^ 64 ->
  (2 <= klow * Sm (ln (IZR x)) zt 99 - IZR x * (r_pi_lo x + tol))%R.
Proof.
  intros zt x HZ Hx. assert (X : (8162 <= IZR x)%R) by (apply IZR_le; lia). assert (E : exp (ln (IZR x)) = IZR x) by (apply exp_ln; lra). unfold r_pi_lo.
  destruct (Z.leb_spec 468049 x). { pose proof (lo_3 zt HZ (ln (IZR x)) (ln_IZR_in 468049 x (2 ^ 64) ltac:(lia) ltac:(lia))) as A. rewrite E in A. exact A. }
  destruct (Z.leb_spec 88789 x). { pose proof (lo_2 zt HZ (ln (IZR x)) (ln_IZR_in 88789 x 468049 ltac:(lia) ltac:(lia))) as A. rewrite E in A. exact A. }
  destruct (Z.leb_spec 5393 x); [|lia]. pose proof (lo_1 zt HZ (ln (IZR x)) (ln_IZR_in 8162 x 88789 ltac:(lia) ltac:(lia))) as A. rewrite E in A. exact A.
Qed.
Lemma floor_le : forall v z, (v <= IZR z)%R -> Zfloor v <= z.
Proof. intros v z H. apply le_IZR. eapply Rle_trans; [apply Zfloor_lb | exact H]. Qed.
(** with the big table: Gram's series is between the formulas for every 64-bit argument *)
Theorem C79_prime_pi_est_between : forall f pf t L X x, ln_ok L -> exp_ok X -> valid_ity t -> in_range t x -> x < 2 ^ 64 ->
  exists lo v hi, prime_pi_bounds f t (pi_float L t) x = Ret (lo, hi) /\ prime_pi_est f pf t (pi_float L t) (gram L X ZETA_LOG_TABLE t) x = Ret v /\ lo <= v <= hi.
Proof.
  intros f pf t L X x HL HX Hv Ht Hx. destruct (Z.le_gt_cases x (last (SMALL_PRIMES f) 0)) as [H|H].
  - exists (prime_count x), (prime_count x), (prime_count x). split; [apply C45_prime_pi_bounds_table; assumption|]. split; [|lia]. apply est_table; assumption.
  - destruct (C52_prime_pi_bounds_rounding L f t x HL ltac:(lia) Ht) as [vl [vh [A [B [C [D E]]]]]]. destruct f.
    + rewrite last_small in H. destruct zeta_choice as [zt HZ]. destruct (gram2 L X HL HX x ltac:(lia) zt HZ t Ht) as [v [G [_ R]]]. exists (Zfloor vl), v, (Zfloor vh). split; [exact E|]. split; [rewrite est_gram, G by lia; reflexivity|].
      pose proof (est_hi zt x HZ ltac:(lia)) as U. pose proof (est_lo zt x HZ ltac:(lia)) as W. apply Rabs_bd in A, B, R. unfold kup, klow, tol in *. replace (2 ^ 31)%R with 2147483648%R in R by (cbn [pow]; lra). replace (2 ^ 38)%R with 274877906944%R in * by (cbn [pow]; lra).
      split; [apply floor_le; lra | apply Zfloor_lub; lra].
    + exists (Zfloor vl), ((Zfloor vl + Zfloor vh) / 2), (Zfloor vh). split; [exact E|]. split; [|split; [apply Z.div_le_lower_bound; lia | apply Z.div_le_upper_bound; lia]].
      unfold prime_pi_est. rewrite E. cbn [bind]. rewrite add_ok by (apply (range_below t _ x); [lia | exact Ht]). reflexivity.
Qed.
(** close to 2^128 a hundred terms are not enough and the estimate falls below the lower bound *)
Theorem C79_top_refuted : forall pf t L X x, ln_ok L -> exp_ok X -> in_range t x -> 2 ^ 127 <= x < 2 ^ 128 ->
  exists lo v hi, prime_pi_bounds BigTable t (pi_float L t) x = Ret (lo, hi) /\ prime_pi_est BigTable pf t (pi_float L t) (gram L X ZETA_LOG_TABLE t) x = Ret v /\ v < lo.
Proof.
  intros pf t L X x HL HX Ht Hx. destruct (C52_prime_pi_bounds_rounding L BigTable t x HL ltac:(rewrite last_small; lia) Ht) as [vl [vh [A [B [C [D E]]]]]]. destruct zeta_choice as [zt HZ]. destruct (gram2 L X HL HX x ltac:(lia) zt HZ t Ht) as [v [G [_ R]]].
  exists (Zfloor vl), v, (Zfloor vh). split; [exact E|]. split; [rewrite est_gram, G by lia; reflexivity|]. pose proof (hundred zt 100 x HZ ltac:(lia) ltac:(lia)) as U. pose proof (T_100_top x zt ltac:(lia) HZ) as T100. change (Sm (ln (IZR x)) zt 100) with (Sm (ln (IZR x)) zt 99 + T (ln (IZR x)) zt 100)%R in U.
  assert (N : (170141183460469231731687303715884105728 <= IZR x <= 340282366920938463463374607431768211456)%R) by (split; apply IZR_le; lia).
  assert (K : (r_s3 (759 / 100) (IZR x) - 16 / 100000 <= r_pi_lo x - / 100000)%R).
  { unfold r_pi_lo. destruct (Z.leb_spec 468049 x); [|lia]. unfold r_s3, r_q. assert (Hl : (8802 / 100 <= ln (IZR x) <= 8873 / 100)%R) by (split; interval with (i_prec 60)). revert Hl. generalize (ln (IZR x)). intros l Hl. assert (Z0 : (0 <= 1 / (l - 1 - 1 * (1 / l)) - / 100000 - (1 / l * (1 + 1 / l * (1 + 1 / l * (2 + 1 / l * (759 / 100)))) - 16 / 100000))%R) by (interval with (i_bisect l)). lra. }
  assert (K2 : (IZR x * (r_s3 (759 / 100) (IZR x) - 16 / 100000) <= IZR x * (r_pi_lo x - / 100000))%R) by (apply Rmult_le_compat_l; lra).
  apply Rabs_bd in A, B, R. unfold kup, tol in *. replace (2 ^ 31)%R with 2147483648%R in R by (cbn [pow]; lra). replace (2 ^ 38)%R with 274877906944%R in * by (cbn [pow]; lra).
  assert (V : v + 1 <= Zfloor vl); [|lia]. apply Zfloor_lub. rewrite plus_IZR. lra.
Qed.
(** prime_pi_bounds_test and nth_prime_bounds_test (src/nt_funcs.rs:1222-1320): the loops over the sieved primes and
    the lists of known values *)
Definition pi_known : list (Z * Z) := [(10 ^ 4, 1229); (10 ^ 5, 9592); (10 ^ 6, 78498); (10 ^ 7, 664579); (10 ^ 8, 5761455); (10 ^ 9, 50847534); (10 ^ 10, 455052511); (10 ^ 11, 4118054813);
  (10 ^ 12, 37607912018); (10 ^ 13, 346065536839); (10 ^ 14, 3204941750802); (10 ^ 15, 29844570422669); (10 ^ 16, 279238341033925); (10 ^ 17, 2623557157654233)].
Definition nth_known : list (Z * Z) := [(10 ^ 4, 104729); (10 ^ 5, 1299709); (10 ^ 6, 15485863); (10 ^ 7, 179424673); (10 ^ 8, 2038074743); (10 ^ 9, 22801763489); (10 ^ 10, 252097800623);
  (10 ^ 11, 2760727302517); (10 ^ 12, 29996224275833); (10 ^ 13, 323780508946331); (10 ^ 14, 3475385758524527); (10 ^ 15, 37124508045065437)].
Ltac lits := repeat match goal with |- context [10 ^ ?k] => let v := eval vm_compute in (10 ^ k) in change (10 ^ k) with v end.
Lemma pi_known_ok : Forall (fun q => 8161 < fst q < 2 ^ 64 /\ (IZR (snd q) <= IZR (fst q) * (r_pi_hi (fst q) - tol))%R /\ (IZR (fst q) * (r_pi_lo (fst q) + tol) <= IZR (snd q))%R) pi_known.
Proof.
  unfold pi_known. lits. repeat (apply List.Forall_cons; [cbn [fst snd]; split; [lia|]; unfold r_pi_hi, r_pi_lo, tol; cbn [Z.leb Z.compare Pos.compare Pos.compare_cont]; unfold r_q, r_r, r_s1, r_s2, r_s3; split; interval with (i_prec 80)|]). apply List.Forall_nil.
Qed.
Lemma nth_known_ok : Forall (fun q => 1028 < fst q <= 10 ^ 15 /\ snd q <= 10 ^ 17 /\ (IZR (snd q) <= IZR (fst q) * (r_nth_hi (fst q) - tol))%R /\ (IZR (fst q) * (r_nth_lo (fst q) + tol) <= IZR (snd q))%R) nth_known.
Proof.
  unfold nth_known. lits. repeat (apply List.Forall_cons; [cbn [fst snd]; split; [lia|]; split; [lia|]; unfold r_nth_hi, r_nth_lo, tol; cbn [Z.leb Z.compare Pos.compare Pos.compare_cont]; unfold r_f1, r_f2, r_f3; split; interval with (i_prec 80)|]). apply List.Forall_nil.
Qed.
Lemma pc_by_table : forall x c, 0 <= x <= 8161 -> prime_pi_bounds BigTable u64 (fun _ => None) x = Ret (c, c) -> c = prime_count x.
Proof. intros x c Hx E. rewrite C45_prime_pi_bounds_table in E; [congruence | right; right; right; left; reflexivity | cbn; lia | rewrite last_small; lia]. Qed.
Theorem C66_prime_pi_bounds_test : forall f pf L X x c, ln_ok L -> exp_ok X -> 0 <= x < 2 ^ 64 ->
  x < 100000 /\ c = prime_count x \/ In (x, c) ([(1, 0); (10, 4); (100, 25); (1000, 168)] ++ pi_known) ->
  exists lo v hi, prime_pi_bounds f u64 (pi_float L u64) x = Ret (lo, hi) /\ prime_pi_est f pf u64 (pi_float L u64) (gram L X ZETA_LOG_TABLE u64) x = Ret v /\ lo <= c <= hi /\ lo <= v <= hi.
Proof.
  intros f pf L X x c HL HX Hx Hc. assert (V : valid_ity u64) by (right; right; right; left; reflexivity). assert (R : in_range u64 x) by (cbn; lia).
  destruct (C79_prime_pi_est_between f pf u64 L X x HL HX V R ltac:(lia)) as [lo [v [hi [A [B C]]]]]. exists lo, v, hi. split; [exact A|]. split; [exact B|]. split; [|exact C].
  assert (S : x <= 100000 -> c = prime_count x -> lo <= c <= hi).
  { intros Hs ->. destruct (C51_prime_pi_bounds_bracket L f u64 x HL V R ltac:(lia)) as [lo' [hi' [A' B']]]. rewrite A in A'. injection A' as <- <-. exact B'. }
  destruct Hc as [[Hc E]|Hc]; [apply S; [lia | exact E]|]. apply in_app_or in Hc. destruct Hc as [Hc|Hc].
  - cbn [In] in Hc. destruct Hc as [E|[E|[E|[E|[]]]]]; injection E as <- <-; (apply S; [lia | apply pc_by_table; [lia | vm_compute; reflexivity]]).
  - destruct (proj1 (Forall_forall _ _) pi_known_ok _ Hc) as [P1 [P2 P3]]. cbn [fst snd] in *. destruct (C52_prime_pi_bounds_rounding L f u64 x HL ltac:(rewrite last_small; destruct f; lia) R) as [vl [vh [Q1 [Q2 [_ [_ Q3]]]]]].
    rewrite A in Q3. injection Q3 as -> ->. apply Rabs_bd in Q1, Q2. unfold tol in *. replace (2 ^ 38)%R with 274877906944%R in * by (cbn [pow]; lra). split; [apply floor_le; lra | apply Zfloor_lub; lra].
Qed.
Theorem C66_nth_prime_bounds_test : forall f pf L X fuel n p, ln_ok L -> exp_ok X -> 2 ^ 64 <= fuel ->
  1 <= n /\ nth_prime_is n p /\ p < 100000 \/ In (n, p) ([(1, 2); (10, 29); (100, 541); (1000, 7919)] ++ nth_known) ->
  exists lo v hi, nth_prime_bounds f u64 (nth_float L u64) n = Ret (Some (lo, hi)) /\ nth_est f pf u64 fuel L X n = Ret (Some v) /\ lo <= p <= hi /\ lo <= v <= hi.
Proof.
  intros f pf L X fuel n p HL HX Hf Hc.
  assert (S : 1 <= n -> nth_prime_is n p -> p < 100000 -> 1 <= n <= 100000 /\ exists lo hi, nth_prime_bounds f u64 (nth_float L u64) n = Ret (Some (lo, hi)) /\ lo <= p <= hi).
  { intros H1 H2 H3. assert (N : 1 <= n <= 100000) by (destruct H2 as [H2 <-]; apply prime_ge_2 in H2; pose proof (NTPhi.pc_lt_self p); lia). split; [exact N|]. apply C50_nth_prime_bounds_bracket; [exact HL | lia | exact H2 | cbn; lia]. }
  assert (M : 1 <= n <= 10 ^ 15 /\ exists lo hi, nth_prime_bounds f u64 (nth_float L u64) n = Ret (Some (lo, hi)) /\ lo <= p <= hi).
  { destruct Hc as [[H1 [H2 H3]]|Hc]; [destruct (S H1 H2 H3) as [S1 S2]; split; [lia | exact S2]|]. apply in_app_or in Hc. destruct Hc as [Hc|Hc].
    - assert (H : 1 <= n /\ nth_prime_is n p /\ p < 100000).
      { cbn [In] in Hc. destruct Hc as [E|[E|[E|[E|[]]]]]; injection E as <- <-; (split; [lia|]; split; [|lia]; split; [apply fast_primeb_spec; vm_compute; reflexivity | symmetry; apply pc_by_table; [lia | vm_compute; reflexivity]]). }
      destruct H as [H1 [H2 H3]]. destruct (S H1 H2 H3) as [S1 S2]; split; [lia | exact S2].
    - destruct (proj1 (Forall_forall _ _) nth_known_ok _ Hc) as [P1 [P4 [P2 P3]]]. cbn [fst snd] in *. split; [lia|].
      destruct (C52_nth_prime_bounds_rounding L f u64 n HL ltac:(unfold table_len; destruct f; lia)) as [vl [vh [Q1 [Q2 [Q4 Q3]]]]].
      destruct (C63_nth_prime_est_small f pf fuel 64 n L X HL HX Hf ltac:(lia)) as [lo [r [hi [E1 [_ _]]]]]. change (U 64) with u64 in E1. rewrite E1 in Q3. exists lo, hi. split; [exact E1|].
      destruct (in_rangeb u64 (Zfloor vh)); [|discriminate]. injection Q3 as -> ->. apply Rabs_bd in Q1, Q2. unfold tol in *. replace (2 ^ 38)%R with 274877906944%R in * by (cbn [pow]; lra). split; [apply floor_le; lra | apply Zfloor_lub; lra]. }
  destruct M as [M1 [lo [hi [M2 M3]]]]. destruct (C63_nth_prime_est_small f pf fuel 64 n L X HL HX Hf ltac:(lia)) as [lo' [r [hi' [E1 [E2 E3]]]]]. change (U 64) with u64 in E1, E2. rewrite M2 in E1. injection E1 as <- <-. exists lo, r, hi. auto.
Qed.
Example C66_bounds_test_case : exists lo v hi, nth_prime_bounds BigTable u64 (nth_float ideal_ln u64) (10 ^ 15) = Ret (Some (lo, hi)) /\ nth_est BigTable Debug u64 (2 ^ 64) ideal_ln ideal_exp (10 ^ 15) = Ret (Some v) /\ lo <= 37124508045065437 <= hi /\ lo <= v <= hi.
Proof. apply C66_nth_prime_bounds_test; [apply ideal | apply ideal_exp_ok | lia | right; unfold nth_known; cbn [app In]; tauto]. Qed.
Example C79_case : (exists lo v hi, prime_pi_bounds BigTable (U 32) (pi_float ideal_ln (U 32)) 2953652287 = Ret (lo, hi) /\ prime_pi_est BigTable Debug (U 32) (pi_float ideal_ln (U 32)) (gram ideal_ln ideal_exp ZETA_LOG_TABLE (U 32)) 2953652287 = Ret v /\ lo <= v <= hi)
  /\ (exists lo v hi, prime_pi_bounds BigTable Big (pi_float ideal_ln Big) (2 ^ 127) = Ret (lo, hi) /\ prime_pi_est BigTable Debug Big (pi_float ideal_ln Big) (gram ideal_ln ideal_exp ZETA_LOG_TABLE Big) (2 ^ 127) = Ret v /\ v < lo).
Proof.
  split; [apply C79_prime_pi_est_between; [apply ideal | apply ideal_exp_ok | right; right; left; reflexivity | cbn; lia | lia] | apply C79_top_refuted; [apply ideal | apply ideal_exp_ok | cbn; lia | lia]].
Qed.
Print Assumptions C79_prime_pi_est_between.
Print Assumptions C79_top_refuted.
Print Assumptions C66_prime_pi_bounds_test.
Print Assumptions C66_nth_prime_bounds_test.
