(** * C78: prime_pi_bounds excludes the true count at 2953652287, the first argument of one of its branches. *)
From Coq Require Import ZArith Znumtheory List Lia Bool Reals Lra.
From Flocq Require Import Core.Raux.
From Interval Require Import Tactic.
From Verif Require Import Base Spec NT PBase MInteger MSieve MIsPrime PropPi FArith MFloat PFloat PFloat2 PropFloat PPiVals.
Import ListNotations.
Local Open Scope Z_scope.

Lemma floor_in : forall v z, (IZR z <= v < IZR z + 1)%R -> Zfloor v = z.
Proof. intros v z H. apply Zfloor_imp. rewrite plus_IZR. exact H. Qed.
Lemma pi_at : prime_count 2953652287 = 142325757.
Proof. refine (proj1 (Forall_forall _ _) pi_points2_ok (2953652287, 142325757) _). cbn [pi_points2 In]. tauto. Qed.
Lemma pc_prev : forall x y v, y = x + 1 -> 0 <= x -> prime_count y = v -> v - 1 <= prime_count x <= v.
Proof. intros x y v -> Hx H. rewrite pc_step in H by exact Hx. destruct (primeb (x + 1)); lia. Qed.
Lemma last_small_le : forall f, last (SMALL_PRIMES f) 0 < 2953652286.
Proof. intros []; vm_compute; reflexivity. Qed.
(** the bounds at the witness, for every type that holds it, any table and any accurate logarithm *)
Theorem C78_value : forall L f t, ln_ok L -> in_range t 2953652287 ->
  exists lo, prime_pi_bounds f t (pi_float L t) 2953652287 = Ret (lo, 142325756).
Proof.
  intros L f t HL Ht. destruct (C52_prime_pi_bounds_rounding L f t 2953652287 HL) as [vl [vh [_ [B [_ [_ E]]]]]]; [pose proof (last_small_le f); lia | exact Ht|].
  exists (Zfloor vl). rewrite E. do 2 f_equal. apply floor_in. apply Rabs_bd in B.
  assert (V : (142325756 + 3 / 10 <= 2953652287 * r_pi_hi 2953652287 <= 142325756 + 4 / 10)%R).
  { change (r_pi_hi 2953652287) with (r_s2 (2334 / 1000) 2953652287). unfold r_s2. split; interval with (i_prec 80). }
  lra.
Qed.
(** so the bounds are not bounds *)
Theorem C78_prime_pi_bounds_refuted : forall L f t, ln_ok L -> in_range t 2953652287 ->
  ~ (forall x, in_range t x -> x < 2 ^ 64 -> exists lo hi, prime_pi_bounds f t (pi_float L t) x = Ret (lo, hi) /\ lo <= prime_count x <= hi).
Proof.
  intros L f t HL Ht H. destruct (H 2953652287 Ht ltac:(lia)) as [lo [hi [E B]]]. destruct (C78_value L f t HL Ht) as [lo' E']. rewrite E' in E.
  assert (K : hi = 142325756) by (inversion E; reflexivity). rewrite pi_at, K in B. lia.
Qed.
(** the number before, where the branch below still applies, is inside its bounds *)
Theorem C78_before : forall L f t, ln_ok L -> in_range t 2953652286 ->
  exists lo hi, prime_pi_bounds f t (pi_float L t) 2953652286 = Ret (lo, hi) /\ lo <= prime_count 2953652286 <= hi.
Proof.
  intros L f t HL Ht. destruct (C52_prime_pi_bounds_rounding L f t 2953652286 HL) as [vl [vh [A [B [_ [_ E]]]]]]; [pose proof (last_small_le f); lia | exact Ht|].
  exists (Zfloor vl), (Zfloor vh). split; [exact E|]. apply Rabs_bd in A, B.
  assert (P : 142325757 - 1 <= prime_count 2953652286 <= 142325757).
  { refine (pc_prev 2953652286 2953652287 142325757 _ _ pi_at); lia. }
  assert (V : (142325757 + 1 / 10 <= 2953652286 * r_pi_hi 2953652286)%R).
  { change (r_pi_hi 2953652286) with (r_q (12311 / 10000) 2953652286). unfold r_q. interval with (i_prec 80). }
  assert (W : (2953652286 * r_pi_lo 2953652286 <= 142325755)%R).
  { change (r_pi_lo 2953652286) with (r_q 1 2953652286). unfold r_q. interval with (i_prec 80). }
  generalize dependent (prime_count 2953652286). intros c P. split.
  - assert (Zfloor vl < 142325756 + 1); [|lia]. apply lt_IZR. pose proof (Zfloor_lb vl). rewrite plus_IZR. lra.
  - assert (142325757 <= Zfloor vh); [|lia]. apply Zfloor_lub. lra.
Qed.
Example C78_case : ln_ok ideal_ln /\ in_range (U 32) 2953652287 /\ in_range u64 2953652287 /\ in_range Big 2953652287 /\ prime_count 2953652287 = 142325757.
Proof.
  split; [apply ideal|]. split; [cbn; lia|]. split; [cbn; lia|]. split; [cbn; lia|]. exact pi_at.
Qed.
Print Assumptions C78_value.
Print Assumptions C78_prime_pi_bounds_refuted.
Print Assumptions C78_before.
