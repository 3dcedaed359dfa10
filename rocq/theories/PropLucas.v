(** * C19-C22: Lucas sequences, parameter selection, Lucas probable prime tests. *)
From Coq Require Import ZArith Znumtheory List Lia Bool.
From Verif Require Import Base Spec Ext NT NTLegendre NTLucas NTResidue PBase MInteger Ops POps MPrimality PSprp PropSprp PLucas PLucas2 PLucas3.
Import ListNotations.
Local Open Scope Z_scope.

(** C19: lucasm(p, q, m, n) = (U_n mod m, V_n mod m). *)
Theorem C19_lucasm_exact : forall f pf t p q m n, valid_ity t -> in_range t m -> in_range t n -> 1 <= m ->
  in_range t p -> in_range t (Z.abs q) -> - 2 ^ 63 < q < 2 ^ 63 ->
  lucasm pf (uops f pf t) p q m n = Ret (lucasU p q n mod m, lucasV p q n mod m).
Proof.
  intros f pf t p q m n Ht Hm Hn H1 Hp Hq Hq'.
  destruct (lucasm_law pf _ t _ _ _ (uops_lawful f pf t) (valid_one t Ht) p q m n m n) as [u [v [-> [[-> _] [-> _]]]]];
    try assumption; [split; auto | split; auto | lia | reflexivity].
Qed.
Example C19_case : lucasm Debug (uops BigTable Debug u64) 3 (-1) 1000003 500 = Ret (lucasU 3 (-1) 500 mod 1000003, lucasV 3 (-1) 500 mod 1000003).
Proof. apply C19_lucasm_exact; try rng; try (cbn; tauto). Qed.
Example C19_value : lucasm Debug (uops BigTable Debug u64) 1 (-1) 1000 30 = Ret (40, 498).  (* F_30 = 832040, L_30 = 1860498 *)
Proof. vm_compute. reflexivity. Qed.
(** P or Q that does not fit the integer type panics instead of giving a wrong answer. *)
Theorem C19_unfit_P_panics : forall f pf t p q m n, ~ in_range t p -> lucasm pf (uops f pf t) p q m n = Panic.
Proof.
  intros f pf t p q m n Hp. unfold lucasm. rewrite (o_const_panic _ t _ _ _ (uops_lawful f pf t) p Hp). reflexivity.
Qed.

(** C20: the parameter searches. *)
Theorem C20_selfridge : forall f pf t fuel n, valid_ity t -> in_range t n -> Z.odd n = true -> 1 <= n < 2 ^ 120 ->
  6 + Z.sqrt n <= Z.of_nat fuel ->
  exists P Q, pq_selfridge pf (uops f pf t) fuel n = Ret (P, Q) /\
    ((P = 0 /\ Q = 0 /\ ~ prime n) \/ (P = 1 /\ selfridge_choice n (P * P - 4 * Q))).
Proof.
  intros f pf t fuel n Ht Hn Ho Hr Hf. destruct (self_at_exists n ltac:(lia) Ho) as [e Ha].
  rewrite (pq_selfridge_law pf _ t _ _ _ (uops_lawful f pf t) Ht fuel n n e) by (assumption || (split; auto) || lia).
  pose proof Ha as [Oe [Re _]]. assert (Ef : Z.of_nat fuel <=? (e - 5) / 2 = false).
  { apply Z.leb_gt. apply Z.div_lt_upper_bound; lia. }
  rewrite Ef. rewrite (self_out_ok pf n e Ha) by (eapply self_fuel; [exact Ha | lia | right; apply Hr | exact Ef]).
  destruct (usable n e) eqn:Eu; [exists 1, (self_Q e) | exists 0, 0]; (split; [reflexivity|]).
  - right. split; [reflexivity|]. rewrite self_Q_D by exact Oe. apply self_choice; assumption.
  - left. split; [reflexivity|]. split; [reflexivity|]. intros Hp. rewrite (self_prime_usable n e Hp Ho Ha) in Eu. discriminate Eu.
Qed.
Theorem C20_bruteforce : forall f pf t fuel n, valid_ity t -> in_range t n -> Z.odd n = true -> 1 <= n < 2 ^ 60 ->
  8 + Z.sqrt n <= Z.of_nat fuel ->
  exists P, p_bruteforce pf (uops f pf t) fuel n = Ret P /\
    ((P = 0 /\ ~ prime n) \/ bruteforce_choice n P).
Proof.
  intros f pf t fuel n Ht Hn Ho Hr Hf. destruct (brute_at_exists n ltac:(lia) Ho) as [e Ha]. pose proof Ha as [Re _].
  assert (He : e < 2 ^ 32). { assert (Z.sqrt n < 2 ^ 30) by (apply Z.sqrt_lt_square; lia). lia. }
  destruct (p_bruteforce_law pf _ t _ _ _ (uops_lawful f pf t) Ht fuel n n e) as [[E [A B]]|[[E A]|[E A]]];
    [split; auto | cbv beta; lia | exact Ho | lia | exact Ha | left; exact He | | |].
  - exists (brute_out n e). split; [exact E|]. rewrite brute_out_ok by exact Ha. destruct (b_usable n e) eqn:Eu.
    + right. apply brute_usable; assumption.
    + left. split; [reflexivity|]. intros Hp. rewrite (brute_prime_usable n e Hp Ho Ha) in Eu. discriminate Eu.
  - exfalso. pose proof (Z.sqrt_nonneg n). lia.
  - exfalso. apply A. eapply brute_range; eassumption.
Qed.
Example C20_case : pq_selfridge Debug (uops BigTable Debug u64) 20 71 = Ret (1, -3) /\ selfridge_D 6 = 17 /\
  pq_selfridge Debug (uops BigTable Debug u64) 20 49 = Ret (0, 0) /\ p_bruteforce Debug (uops BigTable Debug u64) 20 47 = Ret 3 /\
  p_bruteforce Debug (uops BigTable Debug u64) 20 131 = Ret 6.
Proof. vmc. Qed.

(** C21: no Lucas test rejects an odd prime. *)
Lemma C21_odd : forall p, prime p -> 3 <= p -> Z.odd p = true.
Proof.
  intros p Hp H3. destruct (Z.odd p) eqn:E; [reflexivity|]. exfalso.
  assert (D : (2 | p)) by (apply mod0_divide; [lia|]; rewrite Zmod_odd, E; reflexivity).
  pose proof (prime_divides_prime 2 p prime_2 Hp D). lia.
Qed.
Lemma sqrt_fuel_self : forall n e fuel, self_at n e -> 6 + Z.sqrt n <= Z.of_nat fuel -> Z.of_nat fuel <=? (e - 5) / 2 = false.
Proof. intros n e fuel [_ [Re _]] Hf. apply Z.leb_gt. apply Z.div_lt_upper_bound; lia. Qed.

(** the chosen parameters make the condition of prime_lprp hold *)
Lemma auto_cond : forall p e, prime p -> Z.odd p = true -> self_at p e -> legendre (1 * 1 - 4 * self_Q e) p <> 1.
Proof.
  intros p e Hp Ho Ha. pose proof (self_usable p e Ha (self_prime_usable p e Hp Ho Ha)) as J. pose proof Ha as [Oe _].
  rewrite self_Q_D by exact Oe. rewrite jacobi_prime in J by exact Hp. lia.
Qed.

Theorem C21_lprp_accepts_primes : forall f pf t fuel p, valid_ity t -> in_range t p -> prime p -> 3 <= p < 2 ^ 120 ->
  6 + Z.sqrt p <= Z.of_nat fuel -> is_lprp pf (uops f pf t) fuel p None None = Ret true.
Proof.
  intros f pf t fuel p Ht Hn Hp Hr Hf. pose proof (C21_odd p Hp ltac:(lia)) as Ho. destruct (self_at_exists p ltac:(lia) Ho) as [e Ha].
  rewrite (is_lprp_auto pf _ t _ _ _ (uops_lawful f pf t) Ht fuel p p e); try assumption; try lia; auto; [|split; auto].
  rewrite (sqrt_fuel_self p e fuel Ha Hf). unfold z_auto. rewrite (self_prime_usable p e Hp Ho Ha). f_equal.
  apply prime_lprp; [assumption | assumption | right; apply auto_cond; assumption].
Qed.
Theorem C21_slprp_accepts_primes : forall f pf t fuel p, valid_ity t -> in_range t p -> prime p -> 3 <= p < 2 ^ 120 ->
  6 + Z.sqrt p <= Z.of_nat fuel -> is_slprp pf (uops f pf t) fuel p None None = Ret true.
Proof.
  intros f pf t fuel p Ht Hn Hp Hr Hf. pose proof (C21_odd p Hp ltac:(lia)) as Ho. destruct (self_at_exists p ltac:(lia) Ho) as [e Ha].
  rewrite (is_slprp_auto pf _ t _ _ _ (uops_lawful f pf t) Ht fuel p p e); try assumption; try lia; auto; [|split; auto].
  rewrite (sqrt_fuel_self p e fuel Ha Hf). unfold z_auto. rewrite (self_prime_usable p e Hp Ho Ha). f_equal.
  apply prime_slprp; [assumption | assumption | right; apply auto_cond; assumption].
Qed.
Theorem C21_eslprp_accepts_primes : forall f pf t fuel p, valid_ity t -> in_range t p -> prime p -> 3 <= p < 2 ^ 60 ->
  8 + Z.sqrt p <= Z.of_nat fuel -> is_eslprp pf (uops f pf t) fuel p None = Ret true.
Proof.
  intros f pf t fuel p Ht Hn Hp Hr Hf. pose proof (C21_odd p Hp ltac:(lia)) as Ho. destruct (brute_at_exists p ltac:(lia) Ho) as [e Ha].
  rewrite (is_eslprp_auto f pf t fuel p e); try assumption; try lia.
  - pose proof Ha as [Re _]. pose proof (Z.sqrt_nonneg p). replace (Z.of_nat fuel <=? e - 3) with false by (symmetry; apply Z.leb_gt; lia).
    unfold z_auto_es. rewrite (brute_prime_usable p e Hp Ho Ha). f_equal. apply prime_eslprp; assumption.
  - assert (Z.log2 (p + 1) < 61); [|lia]. apply Z.log2_lt_pow2; lia.
Qed.
(** Primes of any size: as long as the parameter search ends within 2^61 (2^31) iterations the
    verdict is true; nothing else (no panic, no rejection) is possible. *)
Theorem C21_never_rejects_a_prime : forall f pf t fuel p, valid_ity t -> in_range t p -> prime p -> 3 <= p ->
  (Z.of_nat fuel <= 2 ^ 61 -> is_lprp pf (uops f pf t) fuel p None None = Ret true \/ is_lprp pf (uops f pf t) fuel p None None = NoFuel) /\
  (Z.of_nat fuel <= 2 ^ 61 -> is_slprp pf (uops f pf t) fuel p None None = Ret true \/ is_slprp pf (uops f pf t) fuel p None None = NoFuel) /\
  (Z.of_nat fuel <= 2 ^ 31 -> Z.log2 (p + 1) < 2 ^ 64 -> is_eslprp pf (uops f pf t) fuel p None = Ret true \/ is_eslprp pf (uops f pf t) fuel p None = NoFuel).
Proof.
  intros f pf t fuel p Ht Hn Hp Hr. pose proof (C21_odd p Hp ltac:(lia)) as Ho. destruct (self_at_exists p ltac:(lia) Ho) as [e Ha].
  pose proof (self_prime_usable p e Hp Ho Ha) as Hu. pose proof (auto_cond p e Hp Ho Ha) as Hc.
  split; [|split]; intros Hf.
  - rewrite (is_lprp_auto pf _ t _ _ _ (uops_lawful f pf t) Ht fuel p p e); try assumption; try lia; auto; [|split; auto].
    destruct (Z.of_nat fuel <=? (e - 5) / 2); [right; reflexivity|]. left. unfold z_auto. rewrite Hu. f_equal. apply prime_lprp; auto.
  - rewrite (is_slprp_auto pf _ t _ _ _ (uops_lawful f pf t) Ht fuel p p e); try assumption; try lia; auto; [|split; auto].
    destruct (Z.of_nat fuel <=? (e - 5) / 2); [right; reflexivity|]. left. unfold z_auto. rewrite Hu. f_equal. apply prime_slprp; auto.
  - intros Hl. destruct (brute_at_exists p ltac:(lia) Ho) as [P Hb]. rewrite (is_eslprp_auto f pf t fuel p P); try assumption; try lia.
    destruct (Z.of_nat fuel <=? P - 3); [right; reflexivity|]. left. unfold z_auto_es. rewrite (brute_prime_usable p P Hp Ho Hb). f_equal.
    apply prime_eslprp; assumption.
Qed.
(** Explicit parameters. *)
Theorem C21_lprp_explicit_primes : forall f pf t fuel p P Q, valid_ity t -> in_range t p -> in_range t (p + 1) -> prime p -> 3 <= p ->
  params_ok t P Q -> ~ (p | Q) ->
  is_lprp pf (uops f pf t) fuel p (Some P) (Some Q) = Ret true /\ is_slprp pf (uops f pf t) fuel p (Some P) (Some Q) = Ret true.
Proof.
  intros f pf t fuel p P Q Ht Hn Hn1 Hp H3 Hpar HQ. pose proof (C21_odd p Hp H3) as Ho. split.
  - rewrite (is_lprp_explicit pf _ t _ _ _ (uops_lawful f pf t) (valid_one t Ht) fuel p p P Q); try assumption; [|split; auto|lia].
    f_equal. apply prime_lprp; auto.
  - rewrite (is_slprp_explicit pf _ t _ _ _ (uops_lawful f pf t) (valid_one t Ht) fuel p p P Q); try assumption; [|split; auto|lia].
    f_equal. apply prime_slprp; auto.
Qed.
Theorem C21_eslprp_explicit_primes : forall f pf t fuel p P, valid_ity t -> in_range t p -> in_range t (p + 1) -> prime p -> 3 <= p ->
  params_ok t P 1 -> Z.log2 (p + 1) < 2 ^ 64 -> is_eslprp pf (uops f pf t) fuel p (Some P) = Ret true.
Proof.
  intros f pf t fuel p P Ht Hn Hn1 Hp H3 Hpar Hl. pose proof (C21_odd p Hp H3) as Ho.
  rewrite is_eslprp_unfold by (assumption || lia). rewrite eslprp_core by assumption. rewrite (prime_eslprp p P Hp Ho), orb_true_r. reflexivity.
Qed.
Example C21_case : is_lprp Debug (uops BigTable Debug u64) 20 131 None None = Ret true /\
  is_slprp Debug (uops BigTable Debug u64) 20 131 None None = Ret true /\
  is_eslprp Release (uops BigTable Release u64) 20 131 None = Ret true /\
  params_ok u64 3 (-1) /\ is_slprp Debug (uops BigTable Debug u64) 0 137 (Some 3) (Some (-1)) = Ret true.
Proof. split; [vm_compute; reflexivity|]. split; [vm_compute; reflexivity|]. split; [vm_compute; reflexivity|]. split; [unfold params_ok; rng | vm_compute; reflexivity]. Qed.
(** The prime 2 is even and is rejected by all three tests: "odd" is needed. *)
Theorem C21_two_refuted : forall f pf t fuel P Q, valid_ity t ->
  is_lprp pf (uops f pf t) fuel 2 P Q = Ret false /\ is_slprp pf (uops f pf t) fuel 2 P Q = Ret false /\ is_eslprp pf (uops f pf t) fuel 2 P = Ret false.
Proof.
  intros f pf t fuel P Q Ht. unfold is_lprp, is_slprp, is_eslprp, o_one, o_const. cbn [uops o_from o_ltb].
  rewrite from_prim_ok by (apply valid_one, Ht). auto.
Qed.

(** C22: the tests are the textbook ones. *)
Theorem C22_lprp_exact : forall f pf t fuel n P Q, valid_ity t -> in_range t n -> in_range t (n + 1) -> Z.odd n = true -> 3 <= n ->
  params_ok t P Q -> exists b, is_lprp pf (uops f pf t) fuel n (Some P) (Some Q) = Ret b /\ (b = true <-> lucas_prp n P Q).
Proof.
  intros f pf t fuel n P Q Ht Hn Hn1 Ho H3 Hpar. exists (z_lprp n P Q). split; [|apply z_lprp_spec].
  apply (is_lprp_explicit pf _ t _ _ _ (uops_lawful f pf t) (valid_one t Ht)); try assumption; [split; auto | lia].
Qed.
Theorem C22_slprp_exact : forall f pf t fuel n P Q, valid_ity t -> in_range t n -> in_range t (n + 1) -> Z.odd n = true -> 3 <= n ->
  params_ok t P Q -> rel_prime (P * P - 4 * Q) n ->
  exists b, is_slprp pf (uops f pf t) fuel n (Some P) (Some Q) = Ret b /\ (b = true <-> strong_lucas_prp n P Q).
Proof.
  intros f pf t fuel n P Q Ht Hn Hn1 Ho H3 Hpar Hrel. exists (z_slprp n P Q). split.
  - apply (is_slprp_explicit pf _ t _ _ _ (uops_lawful f pf t) (valid_one t Ht)); try assumption; [split; auto | lia].
  - apply z_slprp_spec; try assumption. apply jacobi_rel_prime; [lia | exact Hrel].
Qed.
Theorem C22_eslprp_exact : forall f pf t fuel n P, valid_ity t -> in_range t n -> in_range t (n + 1) -> Z.odd n = true -> 3 <= n ->
  params_ok t P 1 -> rel_prime (P * P - 4) n -> Z.log2 (n + 1) < 2 ^ 64 ->
  exists b, is_eslprp pf (uops f pf t) fuel n (Some P) = Ret b /\ (b = true <-> extra_strong_lucas_prp n P).
Proof.
  intros f pf t fuel n P Ht Hn Hn1 Ho H3 Hpar Hrel Hl. exists (z_eslprp n P).
  assert (HJ : jacobi (P * P - 4 * 1) n <> 0) by (apply jacobi_rel_prime; [lia | rewrite Z.mul_1_r; exact Hrel]). split.
  - rewrite is_eslprp_unfold by (assumption || lia). rewrite eslprp_core by assumption.
    replace (0 <? ztz (z_delta n P 1)) with true by (symmetry; apply Z.ltb_lt; apply delta_even; assumption). reflexivity.
  - apply z_eslprp_spec; assumption.
Qed.
(** Without parameters: the textbook test for the chosen discriminant, or rejection of a
    number that is not prime. *)
Theorem C22_lprp_auto : forall f pf t fuel n, valid_ity t -> in_range t n -> Z.odd n = true -> 1 <= n < 2 ^ 120 -> 6 + Z.sqrt n <= Z.of_nat fuel ->
  exists b, is_lprp pf (uops f pf t) fuel n None None = Ret b /\
   ((b = false /\ ~ prime n) \/ exists Q, selfridge_choice n (1 - 4 * Q) /\ (b = true <-> lucas_prp n 1 Q)).
Proof.
  intros f pf t fuel n Ht Hn Ho Hr Hf. destruct (self_at_exists n ltac:(lia) Ho) as [e Ha]. exists (z_auto z_lprp n e). split.
  - rewrite (is_lprp_auto pf _ t _ _ _ (uops_lawful f pf t) Ht fuel n n e); try assumption; try lia; auto; [|split; auto].
    rewrite (sqrt_fuel_self n e fuel Ha Hf). reflexivity.
  - unfold z_auto. destruct (usable n e) eqn:Eu.
    + right. exists (self_Q e). split; [|apply z_lprp_spec]. pose proof Ha as [Oe _]. pose proof (self_Q_D e Oe) as E. rewrite Z.mul_1_r in E. rewrite E. apply self_choice; assumption.
    + left. split; [reflexivity|]. intros Hp. rewrite (self_prime_usable n e Hp Ho Ha) in Eu. discriminate Eu.
Qed.
Theorem C22_slprp_auto : forall f pf t fuel n, valid_ity t -> in_range t n -> Z.odd n = true -> 1 <= n < 2 ^ 120 -> 6 + Z.sqrt n <= Z.of_nat fuel ->
  exists b, is_slprp pf (uops f pf t) fuel n None None = Ret b /\
   ((b = false /\ ~ prime n) \/ exists Q, selfridge_choice n (1 - 4 * Q) /\ (b = true <-> strong_lucas_prp n 1 Q)).
Proof.
  intros f pf t fuel n Ht Hn Ho Hr Hf. destruct (self_at_exists n ltac:(lia) Ho) as [e Ha]. exists (z_auto z_slprp n e). split.
  - rewrite (is_slprp_auto pf _ t _ _ _ (uops_lawful f pf t) Ht fuel n n e); try assumption; try lia; auto; [|split; auto].
    rewrite (sqrt_fuel_self n e fuel Ha Hf). reflexivity.
  - unfold z_auto. pose proof Ha as [Oe _]. pose proof (self_Q_D e Oe) as E. destruct (usable n e) eqn:Eu.
    + right. exists (self_Q e). split; [rewrite Z.mul_1_r in E; rewrite E; apply self_choice; assumption|].
      apply z_slprp_spec; [eapply usable_3; try eassumption; lia | exact Ho |]. rewrite E, (self_usable n e Ha Eu). lia.
    + left. split; [reflexivity|]. intros Hp. rewrite (self_prime_usable n e Hp Ho Ha) in Eu. discriminate Eu.
Qed.
Theorem C22_eslprp_auto : forall f pf t fuel n, valid_ity t -> in_range t n -> Z.odd n = true -> 1 <= n < 2 ^ 60 -> 8 + Z.sqrt n <= Z.of_nat fuel ->
  exists b, is_eslprp pf (uops f pf t) fuel n None = Ret b /\
   ((b = false /\ ~ prime n) \/ exists P, bruteforce_choice n P /\ (b = true <-> extra_strong_lucas_prp n P)).
Proof.
  intros f pf t fuel n Ht Hn Ho Hr Hf. destruct (brute_at_exists n ltac:(lia) Ho) as [e Ha]. exists (z_auto_es n e). split.
  - rewrite (is_eslprp_auto f pf t fuel n e); try assumption; try lia.
    + pose proof Ha as [Re _]. pose proof (Z.sqrt_nonneg n). replace (Z.of_nat fuel <=? e - 3) with false by (symmetry; apply Z.leb_gt; lia). reflexivity.
    + assert (Z.log2 (n + 1) < 61); [|lia]. apply Z.log2_lt_pow2; lia.
  - unfold z_auto_es. destruct (b_usable n e) eqn:Eu.
    + right. exists e. pose proof (brute_usable n e Ha Eu) as Hc. split; [exact Hc|]. destruct Hc as [_ [HJ _]].
      apply z_eslprp_spec; [eapply b_usable_3; try eassumption; lia | exact Ho | rewrite Z.mul_1_r; lia].
    + left. split; [reflexivity|]. intros Hp. rewrite (brute_prime_usable n e Hp Ho Ha) in Eu. discriminate Eu.
Qed.
Example C22_case : is_lprp Debug (uops BigTable Debug u64) 100 323 None None = Ret true /\ is_slprp Debug (uops BigTable Debug u64) 100 323 None None = Ret false
  /\ is_slprp Debug (uops BigTable Debug u64) 100 5459 None None = Ret true /\ is_eslprp Debug (uops BigTable Debug u64) 100 989 None = Ret true
  /\ is_eslprp Debug (uops BigTable Debug u64) 100 3239 None = Ret true /\ is_eslprp Debug (uops BigTable Debug u64) 100 3233 None = Ret false.
Proof. vmc. Qed.
(** The condition gcd(D, n) = 1 is needed for the strong test: n = 15, P = 3, Q = 3 (D = -3). *)
Theorem C22_slprp_common_factor_refuted :
  is_slprp Debug (uops BigTable Debug u64) 0 15 (Some 3) (Some 3) = Ret true /\ ~ strong_lucas_prp 15 3 3.
Proof.
  split; [vm_compute; reflexivity|]. intros [d [s [Hs [Hd [E C]]]]]. change (15 - jacobi (3 * 3 - 4 * 3) 15) with 15 in E.
  assert (s = 0 /\ d = 15) as [-> ->].
  { destruct (Z.eq_dec s 0) as [->|]; [split; [reflexivity | rewrite Z.pow_0_r in E; lia]|]. exfalso.
    replace s with (Z.succ (s - 1)) in E by lia. rewrite Z.pow_succ_r in E by lia. lia. }
  destruct C as [C|[r [Hr _]]]; [vm_compute in C; discriminate C | lia].
Qed.
(** n + 1 must fit the type when parameters are given: at n = 255u8 debug panics, release wraps
    the index to 0 and accepts a number that is not a Lucas probable prime. *)
Theorem C22_lprp_max_value_refuted :
  is_lprp Release (uops BigTable Release (U 8)) 0 255 (Some 1) (Some 2) = Ret true /\
  is_lprp Debug (uops BigTable Debug (U 8)) 0 255 (Some 1) (Some 2) = Panic /\ ~ lucas_prp 255 1 2.
Proof. split; [vm_compute; reflexivity|]. split; [vm_compute; reflexivity|]. intros C. vm_compute in C. discriminate C. Qed.

Print Assumptions C19_lucasm_exact.
Print Assumptions C20_selfridge.
Print Assumptions C20_bruteforce.
Print Assumptions C21_lprp_accepts_primes.
Print Assumptions C21_slprp_accepts_primes.
Print Assumptions C21_eslprp_accepts_primes.
Print Assumptions C21_never_rejects_a_prime.
Print Assumptions C21_lprp_explicit_primes.
Print Assumptions C21_eslprp_explicit_primes.
Print Assumptions C21_two_refuted.
Print Assumptions C22_lprp_exact.
Print Assumptions C22_slprp_exact.
Print Assumptions C22_eslprp_exact.
Print Assumptions C22_lprp_auto.
Print Assumptions C22_slprp_auto.
Print Assumptions C22_eslprp_auto.
Print Assumptions C22_slprp_common_factor_refuted.
Print Assumptions C22_lprp_max_value_refuted.
