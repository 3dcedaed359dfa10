(** * C57-C60: the programs in /repo/examples. *)
From Coq Require Import ZArith Znumtheory List Lia Bool Sorted.
From Verif Require Import Base Spec SpecEx Ext Ops NT PBase PIsPrime PIsPrime2 PNext PMoebius PFactorize2 PExact MInteger MSieve MTraits MIsPrime MFactorize MExamples PLucky PDivisors PExamples PMersenne PropFactorize.
Import ListNotations.
Local Open Scope Z_scope.

(** C28 without provisos for small targets (below 2^20 with the large tables, below 257^2 with the small
    ones): factorize64 returns the prime factorization and draws no random number. *)
Theorem C28_small : forall f pf fuel n dr, 1 <= n < 2 ^ 20 -> n < SMALL_PRIMES_NEXT f * SMALL_PRIMES_NEXT f -> 129 < fuel ->
  exists m, factorize64 f pf fuel n dr = Ret (m, dr) /\ prime_factorization n m.
Proof.
  intros f pf fuel n dr Hn HB Hf. destruct (small_split n (SMALL_PRIMES_NEXT f) ltac:(lia) ltac:(rewrite small_next; destruct f; lia)) as [s [q [E [Hs [Hp Hq]]]]].
  apply (C28_returns f pf fuel n s q dr); try assumption; [lia|]. rewrite is_prime64_law by lia. intros C. injection C as C. apply z_is_prime64_exact in C; [exact C | lia].
Qed.
Example C28_case_small : exists m, factorize64 SmallTable Debug 200 66048 [] = Ret (m, []) /\ prime_factorization 66048 m.
Proof. apply C28_small; [lia | rewrite small_next; lia | lia]. Qed.

(** C57: whenever factorize64 returns, divisors returns (no overflow, in no build profile) a list of
    divisors of the target; it lists every divisor exactly once if the keys of the factorization are
    prime. *)
Theorem C57_divisors : forall f pf fuel n dr m dr', 1 <= n < 2 ^ 64 -> 129 < fuel -> factorize64 f pf fuel n dr = Ret (m, dr') ->
  exists l, divisors f pf fuel n dr = Ret (l, dr') /\ (forall d, In d l -> 1 <= d /\ (d | n)) /\
    ((forall k, In k (map fst m) -> prime k) -> NoDup l /\ forall d, 1 <= d -> (d | n) -> In d l).
Proof.
  intros f pf fuel n dr m dr' Hn Hf E. destruct (C28_factorize64 f pf fuel n dr m dr' Hn Hf E) as [[S W] [P [K _]]].
  assert (G : good m).
  { apply Forall_forall. intros [p e] Hin. rewrite Forall_forall in W. specialize (W _ Hin). cbn [fst snd] in *. split; [|exact W]. specialize (K p (in_map fst _ _ Hin)).
    destruct (Z.le_gt_cases 2 p) as [|C]; [assumption|]. rewrite is_prime64_law in K by lia. unfold z_is_prime64 in K. replace (p <? 2) with true in K by (symmetry; apply Z.ltb_lt; lia). discriminate. }
  pose proof (tau_bound m G S ltac:(lia)) as T. pose proof (tau_pos m G) as T1. exists (fold_left dstep m [1]). split; [|split].
  - unfold divisors. rewrite E. cbn [bind]. rewrite capacity_ok by (try assumption; lia). cbn [bind]. rewrite Z.mul_1_l. unfold with_capacity. replace (8 * tau m <? 2 ^ 63) with true by (symmetry; apply Z.ltb_lt; lia). cbn [bind].
    rewrite (divisors_fold pf m [1] 1); [reflexivity | exact G | | lia | lia | cbn [length]; lia]. intros g [<-|[]]. lia.
  - rewrite <- P, <- (Z.mul_1_l (prod_powers m)). apply fold_sound; [exact G|]. intros d [<-|[]]. split; [lia | apply Z.divide_refl].
  - intros Pr. assert (F : prime_factorization n m) by (split; [split; assumption|]; split; [apply Forall_forall; intros pe Hin; apply Pr, in_map, Hin | exact P]).
    destruct (fold_divisors n m F) as [A B]. split; [exact A|]. intros d H1 H2. apply B. auto.
Qed.
(** No proviso for small targets. *)
Theorem C57_divisors_small : forall f pf fuel n dr, 1 <= n < 2 ^ 20 -> n < SMALL_PRIMES_NEXT f * SMALL_PRIMES_NEXT f -> 129 < fuel ->
  exists l, divisors f pf fuel n dr = Ret (l, dr) /\ NoDup l /\ forall d, In d l <-> 1 <= d /\ (d | n).
Proof.
  intros f pf fuel n dr Hn HB Hf. destruct (C28_small f pf fuel n dr Hn HB Hf) as [m [E F]]. destruct (C57_divisors f pf fuel n dr m dr ltac:(lia) Hf E) as [l [El [A B]]].
  destruct B as [ND B]. { intros k Hk. destruct F as [_ [F _]]. rewrite Forall_forall in F. apply in_map_iff in Hk. destruct Hk as [pe [<- Hin]]. apply F, Hin. }
  exists l. split; [exact El|]. split; [exact ND|]. intros d. split; [apply A | intros [H1 H2]; apply B; assumption].
Qed.
(** divisor_sigma: the sum of the z-th powers of the divisors; when it does not fit in 64 bits, debug
    builds panic and release builds return it modulo 2^64. *)
Theorem C57_sigma : forall f pf fuel n z dr m dr', 1 <= n < 2 ^ 64 -> 129 < fuel -> 0 <= z < 2 ^ 32 -> factorize64 f pf fuel n dr = Ret (m, dr') -> (forall k, In k (map fst m) -> prime k) ->
  divisor_sigma f pf fuel n z dr =
    if sigma z n <? 2 ^ 64 then Ret (sigma z n, dr') else match pf with Debug => Panic | Release => Ret (sigma z n mod 2 ^ 64, dr') end.
Proof.
  intros f pf fuel n z dr m dr' Hn Hf Hz E Pr. destruct (C57_divisors f pf fuel n dr m dr' Hn Hf E) as [l [El [A B]]]. destruct (B Pr) as [ND C].
  assert (L : lists_divisors l n) by (split; [exact ND|]; intros d; split; [apply A | intros [H1 H2]; apply C; assumption]).
  unfold divisor_sigma. rewrite El. cbn [bind]. rewrite sigma_fold by (try lia; intros d Hd; apply A, Hd). rewrite (sigma_list n z l ltac:(lia) L), Z.add_0_l.
  assert (S0 : 0 <= sigma z n).
  { unfold sigma. generalize (seq 1 (Z.to_nat n)). intros s. induction s as [|i s IH]; cbn [map fold_right]; [lia|]. cbv zeta. destruct (n mod Z.of_nat i =? 0); [|lia]. pose proof (Z.pow_nonneg (Z.of_nat i) z ltac:(lia)). lia. }
  unfold wrapz, u64, in_rangeb. replace (0 <=? sigma z n) with true by (symmetry; apply Z.leb_le, S0). cbn [andb]. destruct (sigma z n <? 2 ^ 64); [reflexivity|]. destruct pf; reflexivity.
Qed.
Theorem C57_sigma_small : forall f pf fuel n z dr, 1 <= n < 2 ^ 20 -> n < SMALL_PRIMES_NEXT f * SMALL_PRIMES_NEXT f -> 129 < fuel -> 0 <= z < 2 ^ 32 ->
  divisor_sigma f pf fuel n z dr =
    if sigma z n <? 2 ^ 64 then Ret (sigma z n, dr) else match pf with Debug => Panic | Release => Ret (sigma z n mod 2 ^ 64, dr) end.
Proof.
  intros f pf fuel n z dr Hn HB Hf Hz. destruct (C28_small f pf fuel n dr Hn HB Hf) as [m [E F]]. apply (C57_sigma f pf fuel n z dr m dr); try assumption; [lia|].
  intros k Hk. destruct F as [_ [F _]]. rewrite Forall_forall in F. apply in_map_iff in Hk. destruct Hk as [pe [<- Hin]]. apply F, Hin.
Qed.
(** divisors(0): a panic in debug builds; 130 numbers, not all different, in release builds. *)
Theorem C57_zero_refuted : forall f, divisors f Debug 200 0 [] = Panic /\
  exists l, divisors f Release 200 0 [] = Ret (l, []) /\ length l = 130%nat /\ ~ NoDup l.
Proof.
  intros f. split; [destruct f; vm_compute; reflexivity|].
  exists (match divisors f Release 200 0 [] with Ret (l, _) => l | _ => [] end). split; [destruct f; vm_compute; reflexivity|]. split; [destruct f; vm_compute; reflexivity|].
  intros C. assert (G : forall l : list Z, NoDup l -> nodup Z.eq_dec l = l) by (intros l; apply nodup_fixed_point). apply G in C. apply (f_equal (@length Z)) in C. revert C. destruct f; vm_compute; discriminate.
Qed.
Example C57_case : divisors BigTable Debug 200 360 [] = Ret ([1; 2; 4; 8; 3; 6; 12; 24; 9; 18; 36; 72; 5; 10; 20; 40; 15; 30; 60; 120; 45; 90; 180; 360], [])
  /\ divisor_sigma SmallTable Debug 200 60 1 [] = Ret (168, []) /\ sigma 1 60 = 168
  /\ divisor_sigma BigTable Debug 200 60 12 [] = Panic /\ divisor_sigma BigTable Release 200 60 12 [] = Ret (sigma 12 60 mod 2 ^ 64, []).
Proof. vmc. Qed.

(** C58: prime_omega counts the distinct prime divisors, prime_Omega the primes in the factorization
    with multiplicity, whenever factorize64 returns a map with prime keys. *)
Theorem C58_omega : forall f pf fuel n dr m dr', 1 <= n < 2 ^ 64 -> 129 < fuel -> factorize64 f pf fuel n dr = Ret (m, dr') -> (forall k, In k (map fst m) -> prime k) ->
  prime_omega f pf fuel n dr = Ret (omega n, dr') /\
  exists v, prime_Omega f pf fuel n dr = Ret (v, dr') /\ (exists ps, prime_product n ps) /\ (forall ps, prime_product n ps -> Z.of_nat (length ps) = v).
Proof.
  intros f pf fuel n dr m dr' Hn Hf E Pr. destruct (C28_factorize64 f pf fuel n dr m dr' Hn Hf E) as [[S W] [P _]].
  assert (F : prime_factorization n m) by (split; [split; assumption|]; split; [apply Forall_forall; intros pe Hin; apply Pr, in_map, Hin | exact P]).
  assert (G : good m). { apply Forall_forall. intros pe Hin. rewrite Forall_forall in W. split; [apply prime_ge2, Pr, in_map, Hin | apply W, Hin]. }
  split.
  - unfold prime_omega. rewrite E. cbn [bind]. rewrite (omega_factorization n m ltac:(lia) F). reflexivity.
  - destruct (exps_bound m G) as [B1 B2]. exists (PExamples.zsum (map snd m)). split; [|destruct (expand_spec n m F) as [X1 X2]; split; [exists (expand m); exact X1|]].
    + unfold prime_Omega. rewrite E. cbn [bind]. rewrite Omega_fold; [reflexivity | exact W | lia|]. rewrite Z.add_0_l. assert (PExamples.zsum (map snd m) < 64) by (apply (Z.pow_lt_mono_r_iff 2); lia). lia.
    + intros ps Hps. rewrite <- X2. f_equal. apply Permutation.Permutation_length, (prime_product_perm ps n); assumption.
Qed.
Theorem C58_omega_small : forall f pf fuel n dr, 1 <= n < 2 ^ 20 -> n < SMALL_PRIMES_NEXT f * SMALL_PRIMES_NEXT f -> 129 < fuel ->
  prime_omega f pf fuel n dr = Ret (omega n, dr) /\
  exists v, prime_Omega f pf fuel n dr = Ret (v, dr) /\ (exists ps, prime_product n ps) /\ (forall ps, prime_product n ps -> Z.of_nat (length ps) = v).
Proof.
  intros f pf fuel n dr Hn HB Hf. destruct (C28_small f pf fuel n dr Hn HB Hf) as [m [E F]]. apply (C58_omega f pf fuel n dr m dr); try assumption; [lia|].
  intros k Hk. destruct F as [_ [F _]]. rewrite Forall_forall in F. apply in_map_iff in Hk. destruct Hk as [pe [<- Hin]]. apply F, Hin.
Qed.
(** Zero has no factorization; release builds answer 2 and 65, debug builds panic. *)
Theorem C58_zero_refuted : forall f, prime_omega f Debug 200 0 [] = Panic /\ prime_omega f Release 200 0 [] = Ret (2, []) /\ prime_Omega f Release 200 0 [] = Ret (65, []).
Proof. intros [|]; vmc. Qed.
Example C58_case : prime_omega BigTable Debug 200 360 [] = Ret (3, []) /\ prime_Omega BigTable Debug 200 360 [] = Ret (6, []) /\ omega 360 = 3 /\ prime_Omega SmallTable Release 200 (2 ^ 63) [] = Ret (63, []).
Proof. vmc. Qed.

(** C59: list_lucky_numbers returns exactly the lucky numbers below the limit, in increasing order,
    for every limit other than 6 and 7. *)
Theorem C59_lucky_numbers : forall pf fuel limit, 0 <= limit < 2 ^ 64 -> limit <> 6 -> limit <> 7 -> limit < fuel ->
  exists l, list_lucky_numbers pf fuel limit = Ret l /\ StronglySorted Z.lt l /\ forall n, In n l <-> lucky n /\ n < limit.
Proof.
  intros pf fuel limit HL N6 N7 Hf. destruct (lucky_loop pf fuel limit HL Hf) as [l [E H]]. exists l. split; [exact E|]. apply (lucky_end_exact limit); try assumption. lia.
Qed.
(** For the limits 6 and 7 the loop ends too early and 5, which is not lucky, is returned. *)
Theorem C59_limit_6_7_refuted : forall pf limit, limit = 6 \/ limit = 7 -> list_lucky_numbers pf 10 limit = Ret [1; 3; 5] /\ ~ lucky 5.
Proof. intros pf limit H. split; [|exact lucky_not_5]. destruct H as [-> | ->], pf; vm_compute; reflexivity. Qed.
(** list_lucky_primes keeps the lucky numbers that is_prime64 accepts: all lucky primes, and no other
    number below 2^20. *)
Theorem C59_lucky_primes : forall f pf fuel limit, 0 <= limit < 2 ^ 64 -> limit <> 6 -> limit <> 7 -> limit < fuel ->
  exists l, list_lucky_primes f pf fuel limit = Ret l /\ StronglySorted Z.lt l /\
    (forall n, lucky n -> prime n -> n < limit -> In n l) /\
    (forall n, In n l -> lucky n /\ n < limit /\ is_prime64 f pf n = Ret true /\ (n < 2 ^ 20 -> prime n)).
Proof.
  intros f pf fuel limit HL N6 N7 Hf. destruct (C59_lucky_numbers pf fuel limit HL N6 N7 Hf) as [l [E [S H]]]. unfold list_lucky_primes. rewrite E. cbn [bind].
  rewrite lucky_filter by (intros x Hx; apply H in Hx; lia). cbn [app]. eexists. split; [reflexivity|]. split; [apply sorted_filter, S|]. split.
  - intros n Ln Pn Hn. apply filter_In. split; [apply H; auto | apply z_is_prime64_complete, Pn].
  - intros n Hin. apply filter_In in Hin. destruct Hin as [Hin Z1]. apply H in Hin. destruct Hin as [A B]. split; [exact A|]. split; [exact B|]. split; [rewrite is_prime64_law, Z1 by lia; reflexivity|].
    intros Hs. apply (z_is_prime64_exact f n Hs), Z1.
Qed.
Theorem C59_primes_6_7_refuted : forall f pf limit, limit = 6 \/ limit = 7 -> list_lucky_primes f pf 10 limit = Ret [3; 5] /\ ~ lucky 5.
Proof. intros f pf limit H. split; [|exact lucky_not_5]. destruct H as [-> | ->], pf, f; vm_compute; reflexivity. Qed.
Example C59_case : list_lucky_numbers Debug 60 52 = Ret [1; 3; 7; 9; 13; 15; 21; 25; 31; 33; 37; 43; 49; 51] /\ list_lucky_primes BigTable Debug 60 52 = Ret [3; 7; 13; 31; 37; 43].
Proof. vmc. Qed.

(** C60: for all random draws other than 0 (mod 2^64), a result of list_mersenne is exactly the list of
    the p < 128 for which p and 2^p - 1 are prime; no panic. *)
Theorem C60_mersenne : forall f pf lf dr, (forall x, In x dr -> x mod 2 ^ 64 <> 0) ->
  match list_mersenne f pf lf dr with
  | Ret (l, _) => StronglySorted Z.lt l /\ forall p, In p l <-> prime p /\ p < 128 /\ prime (2 ^ p - 1)
  | Panic => False
  | NoFuel => True
  end.
Proof.
  intros f pf lf dr Hd. pose proof (list_mersenne_run f pf lf dr Hd) as R. destruct (list_mersenne f pf lf dr) as [[l d]| |]; [|exact R | exact I].
  cbn [run] in R. subst l. split; [apply sorted_filter, primes_128_sorted | exact mersenne_filter_in].
Qed.
(** It returns whenever the random numbers are distinct, greater than 3 and at least 39 in number. *)
Theorem C60_returns : forall f pf lf dr, (forall x, In x dr -> 3 < x mod 2 ^ 64) -> NoDup (map (fun x => x mod 2 ^ 64) dr) -> (39 <= length dr)%nat ->
  list_mersenne f pf lf dr = Ret ([2; 3; 5; 7; 13; 17; 19; 31; 61; 89; 107; 127], skipn 39 dr).
Proof. exact list_mersenne_returns. Qed.
(** A zero among the random numbers can hide a Mersenne prime: here 89 is missing. *)
Theorem C60_zero_draw_refuted : forall f pf lf, exists dr l, list_mersenne f pf lf dr = Ret (l, []) /\ ~ In 89 l /\ prime 89 /\ prime (2 ^ 89 - 1).
Proof.
  intros f pf lf. eexists; eexists. split; [apply zero_draw|]. split; [cbn [In]; intuition lia|]. split; [apply (primes_128_in 89) | apply exponents_prime]; cbn [In exponents primes_128]; tauto.
Qed.
Example C60_case : list_mersenne BigTable Debug 50 (map Z.of_nat (seq 4 40)) = Ret ([2; 3; 5; 7; 13; 17; 19; 31; 61; 89; 107; 127], [43]).
Proof.
  rewrite C60_returns; [vm_compute; reflexivity | | |].
  - intros x Hx. apply in_map_iff in Hx. destruct Hx as [i [<- Hi]]. apply in_seq in Hi. rewrite Z.mod_small; lia.
  - vm_compute. repeat (constructor; [cbn; intuition discriminate|]). constructor.
  - rewrite map_length, seq_length. lia.
Qed.

Print Assumptions C28_small. Print Assumptions C57_divisors. Print Assumptions C57_divisors_small. Print Assumptions C57_sigma. Print Assumptions C57_sigma_small. Print Assumptions C57_zero_refuted.
Print Assumptions C58_omega. Print Assumptions C58_omega_small. Print Assumptions C58_zero_refuted.
Print Assumptions C59_lucky_numbers. Print Assumptions C59_limit_6_7_refuted. Print Assumptions C59_lucky_primes. Print Assumptions C59_primes_6_7_refuted.
Print Assumptions C60_mersenne. Print Assumptions C60_returns. Print Assumptions C60_zero_draw_refuted.
