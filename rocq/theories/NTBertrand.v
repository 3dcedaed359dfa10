(** * Bertrand's postulate: between n and 2n there is a prime (the proof of Erdos). *)
From Coq Require Import ZArith Znumtheory List Lia Bool Arith.
From Verif Require Import Base Spec NT NTPock.
Import ListNotations.
Local Open Scope Z_scope.

(** ** Binomial coefficients *)
Fixpoint binom (n k : nat) : Z :=
  match k, n with
  | O, _ => 1
  | S _, O => 0
  | S k', S n' => binom n' k' + binom n' k
  end.
Fixpoint fac (n : nat) : Z := match n with O => 1 | S k => Z.of_nat n * fac k end.
Lemma fac_pos : forall n, 0 < fac n.
Proof. induction n as [|n IH]; [reflexivity|]. cbn [fac]. nia. Qed.
Lemma binom_0 : forall n, binom n 0 = 1.
Proof. intros [|n]; reflexivity. Qed.
Lemma binom_big : forall n k, (n < k)%nat -> binom n k = 0.
Proof. induction n as [|n IH]; intros [|k] H; try lia; [reflexivity|]. cbn [binom]. rewrite !IH by lia. reflexivity. Qed.
Lemma binom_pos : forall n k, (k <= n)%nat -> 0 < binom n k.
Proof.
  induction n as [|n IH]; intros [|k] H; try lia; try (rewrite binom_0; lia). cbn [binom]. assert (0 < binom n k) by (apply IH; lia).
  destruct (Nat.eq_dec k n) as [-> |N]; [rewrite (binom_big n (S n)) by lia; lia|]. assert (0 < binom n (S k)) by (apply IH; lia). lia.
Qed.
Lemma binom_absorb : forall n k, Z.of_nat (S k) * binom (S n) (S k) = Z.of_nat (S n) * binom n k.
Proof.
  induction n as [|n IH]; intros k; [destruct k as [|k]; [reflexivity|]; cbn [binom]; lia|].
  change (binom (S (S n)) (S k)) with (binom (S n) k + binom (S n) (S k)).
  destruct k as [|k]; [rewrite !binom_0; specialize (IH 0%nat); rewrite binom_0 in IH; lia|].
  pose proof (IH (S k)) as H1. pose proof (IH k) as H2. change (binom (S n) (S k)) with (binom n k + binom n (S k)) in *.
  rewrite !Nat2Z.inj_succ in *. unfold Z.succ in *. set (N := Z.of_nat n) in *. set (K := Z.of_nat k) in *. nia.
Qed.
Lemma binom_fac : forall a b, binom (a + b) a * fac a * fac b = fac (a + b).
Proof.
  induction a as [|a IH]; intros b; [rewrite binom_0; cbn [fac Nat.add]; lia|].
  cbn [Nat.add]. pose proof (binom_absorb (a + b) a) as H. specialize (IH b). change (fac (S a)) with (Z.of_nat (S a) * fac a). change (fac (S (a + b))) with (Z.of_nat (S (a + b)) * fac (a + b)). rewrite <- IH.
  rewrite <- !Z.mul_assoc in *. rewrite (Z.mul_assoc (binom _ (S a))), (Z.mul_comm (binom _ (S a))), H. ring.
Qed.
Lemma binom_sym : forall a b, binom (a + b) a = binom (a + b) b.
Proof.
  intros a b. pose proof (binom_fac a b) as H1. pose proof (binom_fac b a) as H2. rewrite (Nat.add_comm b a) in H2. pose proof (fac_pos a). pose proof (fac_pos b).
  apply (Z.mul_reg_r _ _ (fac a * fac b)); [nia|]. lia.
Qed.

(** ** The central one *)
Definition central (n : nat) : Z := binom (n + n) n.
Lemma central_step : forall n, Z.of_nat (S n) * central (S n) = 2 * (2 * Z.of_nat n + 1) * central n.
Proof.
  intros n. unfold central. replace (S n + S n)%nat with (S (S (n + n))) by lia. pose proof (binom_absorb (S (n + n)) n) as H1. pose proof (binom_absorb (n + n) n) as H2.
  pose proof (binom_sym n (S n)) as H3. replace (n + S n)%nat with (S (n + n)) in H3 by lia. rewrite H3 in H1. rewrite !Nat2Z.inj_succ in *. rewrite !Nat2Z.inj_add in *. unfold Z.succ in *. nia.
Qed.
Lemma central_pos : forall n, 0 < central n.
Proof. intros n. apply binom_pos. lia. Qed.
Lemma central_upper : forall n, 2 * central (S n) <= 4 ^ Z.of_nat (S n).
Proof.
  induction n as [|n IH]; [vm_compute; discriminate|]. pose proof (central_step (S n)) as H. pose proof (central_pos (S n)). pose proof (central_pos (S (S n))).
  rewrite (Nat2Z.inj_succ (S n)), Z.pow_succ_r by lia. rewrite !Nat2Z.inj_succ in H. unfold Z.succ in H. nia.
Qed.
Lemma central_lower : forall n, (1 <= n)%nat -> 4 ^ Z.of_nat n <= 2 * Z.of_nat n * central n.
Proof.
  induction n as [|n IH]; [lia|]. intros _. destruct n as [|n]; [vm_compute; discriminate|]. specialize (IH ltac:(lia)). pose proof (central_step (S n)) as H.
  rewrite (Nat2Z.inj_succ (S n)), Z.pow_succ_r by lia. rewrite <- !Z.mul_assoc. rewrite Nat2Z.inj_succ in H. rewrite H. pose proof (central_pos (S n)). nia.
Qed.
Lemma middle_upper : forall k, binom (S (k + k)) k <= 4 ^ Z.of_nat k.
Proof.
  intros k. pose proof (central_upper k) as H. unfold central in H. replace (S k + S k)%nat with (S (S (k + k))) in H by lia.
  change (binom (S (S (k + k))) (S k)) with (binom (S (k + k)) k + binom (S (k + k)) (S k)) in H. pose proof (binom_sym k (S k)) as E. replace (k + S k)%nat with (S (k + k)) in E by lia.
  rewrite <- E in H. rewrite Nat2Z.inj_succ, Z.pow_succ_r in H by lia. lia.
Qed.

(** ** Leibniz' triangle: k * binom n k divides every common multiple of 1..n *)
Definition common (n : nat) (M : Z) : Prop := forall m, 1 <= m <= Z.of_nat n -> (m | M).
Lemma leibniz : forall k n M, common n M -> (S k <= n)%nat -> (Z.of_nat (S k) * binom n (S k) | M).
Proof.
  induction k as [|k IH]; intros n M HM Hk.
  - destruct n as [|n]; [lia|]. rewrite binom_absorb, binom_0, Z.mul_1_r. apply HM. lia.
  - destruct n as [|n]; [lia|]. assert (HM' : common n M) by (intros m Hm; apply HM; lia).
    destruct (IH n M HM' ltac:(lia)) as [x Hx]. destruct (IH (S n) M HM ltac:(lia)) as [y Hy]. exists (x - y).
    rewrite binom_absorb in Hy. rewrite binom_absorb. pose proof (binom_absorb n k) as Ha. change (binom (S n) (S k)) with (binom n k + binom n (S k)) in Ha.
    pose proof (binom_pos n k ltac:(lia)) as Hp. set (A := binom n (S k)) in *. set (B := binom n k) in *. set (K := Z.of_nat (S k)) in *. set (N := Z.of_nat (S n)) in *. clearbody A B K N.
    assert (E1 : x * A * (N * B) = M * (B + A)) by (rewrite <- Ha, Hx; ring). assert (E2 : y * (N * B) * A = M * A) by (rewrite <- Hy; ring).
    apply (Z.mul_reg_r _ _ B); [lia|]. replace ((x - y) * (N * A) * B) with (x * A * (N * B) - y * (N * B) * A) by ring. lia.
Qed.

(** ** The part of a number free of p *)
Lemma free_part : forall p, prime p -> forall x, 1 <= x -> exists j r, 0 <= j /\ x = p ^ j * r /\ ~ (p | r) /\ 1 <= r.
Proof.
  intros p Hp. pose proof (prime_ge_2 p Hp). assert (G : forall n x, 1 <= x <= Z.of_nat n -> exists j r, 0 <= j /\ x = p ^ j * r /\ ~ (p | r) /\ 1 <= r).
  { induction n as [|n IH]; intros x Hx; [lia|]. destruct (Zdivide_dec p x) as [[y ->]|N].
    - assert (1 <= y < y * p) by nia. destruct (IH y ltac:(lia)) as [j [r [Hj [E [Hr H1]]]]]. exists (j + 1), r. split; [lia|]. split; [|split; assumption]. rewrite E, Z.pow_add_r, Z.pow_1_r by lia. ring.
    - exists 0, x. split; [lia|]. split; [lia|]. split; [exact N | lia]. }
  intros x Hx. apply (G (Z.to_nat x)). lia.
Qed.
Lemma common_power : forall p e n, prime p -> 0 <= e -> Z.of_nat n < p ^ (e + 1) -> exists R, ~ (p | R) /\ common n (p ^ e * R).
Proof.
  intros p e n Hp He Hn. pose proof (prime_ge_2 p Hp). assert (G : forall k, (k <= n)%nat -> exists R, ~ (p | R) /\ common k (p ^ e * R)).
  { induction k as [|k IH]; intros Hk; [exists 1; split; [intros D; apply Z.divide_1_r_nonneg in D; lia | intros m Hm; lia]|].
    destruct (IH ltac:(lia)) as [R [HR HC]]. destruct (free_part p Hp (Z.of_nat (S k)) ltac:(lia)) as [j [r [Hj [E [Hr H1]]]]]. exists (R * r). split.
    - intros D. destruct (prime_mult p Hp _ _ D); contradiction.
    - intros m Hm. destruct (Z.eq_dec m (Z.of_nat (S k))) as [-> |N].
      + rewrite E. assert (Hje : j <= e).
        { destruct (Z.le_gt_cases j e) as [L|L]; [exact L|]. exfalso. assert (p ^ (e + 1) <= p ^ j) by (apply Z.pow_le_mono_r; lia). assert (0 < p ^ j) by (apply Z.pow_pos_nonneg; lia). nia. }
        replace (p ^ e) with (p ^ (e - j) * p ^ j) by (rewrite <- Z.pow_add_r by lia; f_equal; lia). exists (p ^ (e - j) * R). ring.
      + rewrite Z.mul_assoc. apply Z.divide_mul_l. apply HC. lia. }
  apply G. lia.
Qed.
(** a power of a prime dividing the central coefficient is at most 2n *)
Lemma central_power : forall p n f, prime p -> (1 <= n)%nat -> 0 <= f -> (p ^ f | central n) -> p ^ f <= 2 * Z.of_nat n.
Proof.
  intros p n f Hp Hn Hf D. pose proof (prime_ge_2 p Hp). destruct (Z.le_gt_cases (p ^ f) (2 * Z.of_nat n)) as [L|L]; [exact L|]. exfalso.
  assert (f <> 0) by (intros ->; rewrite Z.pow_0_r in L; lia).
  (* the largest exponent that fits *)
  assert (Ex : exists e, 0 <= e < f /\ 2 * Z.of_nat n < p ^ (e + 1) /\ p ^ e <= 2 * Z.of_nat n).
  { assert (G : forall k, 0 <= k -> 2 * Z.of_nat n < p ^ k -> exists e, 0 <= e < k /\ 2 * Z.of_nat n < p ^ (e + 1) /\ p ^ e <= 2 * Z.of_nat n).
    { intros k Hk. pattern k. apply natlike_ind; [rewrite Z.pow_0_r; lia| |exact Hk]. intros x Hx IH H1. destruct (Z.le_gt_cases (p ^ x) (2 * Z.of_nat n)) as [L1|L1].
      - exists x. split; [lia|]. split; assumption.
      - destruct (IH L1) as [e [He1 He2]]. exists e. split; [lia | exact He2]. }
    apply G; [lia | lia]. }
  destruct Ex as [e [He [H1 H2]]]. destruct (common_power p e (n + n) Hp ltac:(lia) ltac:(lia)) as [R [HR HC]].
  destruct n as [|n]; [lia|]. pose proof (leibniz n (S n + S n) _ HC ltac:(lia)) as D1.
  assert (D2 : (p ^ f | p ^ e * R)) by (eapply Z.divide_trans; [exact D|]; eapply Z.divide_trans; [|exact D1]; apply Z.divide_factor_r).
  replace f with (e + 1 + (f - e - 1)) in D2 by lia. rewrite Z.pow_add_r in D2 by lia. destruct D2 as [z Hz]. rewrite Z.pow_add_r, Z.pow_1_r in Hz by lia.
  assert (0 < p ^ e) by (apply Z.pow_pos_nonneg; lia). apply HR. exists (z * p ^ (f - e - 1)). apply (Z.mul_reg_l _ _ (p ^ e)); [lia|]. rewrite Hz. ring.
Qed.

(** ** Products over the primes up to n *)
Fixpoint pprod (B : Z -> Z) (n : nat) : Z :=
  match n with O => 1 | S k => if prime_dec (Z.of_nat n) then B (Z.of_nat n) * pprod B k else pprod B k end.
Lemma pprod_pos : forall B n, (forall p, prime p -> 1 <= B p) -> 1 <= pprod B n.
Proof. intros B n H. induction n as [|n IH]; [cbn; lia|]. cbn [pprod]. destruct (prime_dec (Z.of_nat (S n))) as [P|P]; [specialize (H _ P); nia | exact IH]. Qed.
Lemma pprod_bound : forall B n x, (forall p, prime p -> 1 <= B p) -> 1 <= x -> (forall p, prime p -> (p | x) -> p <= Z.of_nat n) ->
  (forall p f, prime p -> p <= Z.of_nat n -> 0 <= f -> (p ^ f | x) -> p ^ f <= B p) -> x <= pprod B n.
Proof.
  intros B n. induction n as [|n IH]; intros x HB Hx Hp Hf.
  - cbn [pprod]. destruct (Z.eq_dec x 1) as [-> |N]; [lia|]. destruct (prime_divisor_exists x ltac:(lia)) as [p [Pp D]]. specialize (Hp p Pp D). pose proof (prime_ge_2 p Pp). lia.
  - cbn [pprod]. destruct (prime_dec (Z.of_nat (S n))) as [P|P].
    + set (q := Z.of_nat (S n)) in *. destruct (free_part q P x Hx) as [j [r [Hj [E [Hr H1]]]]].
      assert (Hq : q ^ j <= B q) by (apply Hf; try assumption; [lia | exists r; lia]).
      assert (r <= pprod B n).
      { apply IH; [exact HB | exact H1 | |].
        - intros p Pp D. assert (D' : (p | x)) by (rewrite E; apply Z.divide_mul_r; exact D). pose proof (Hp p Pp D'). assert (p <> q) by (intros ->; contradiction). lia.
        - intros p f Pp Hle Hf0 D. apply Hf; [exact Pp | lia | exact Hf0 |]. rewrite E. apply Z.divide_mul_r. exact D. }
      rewrite E. pose proof (pprod_pos B n HB). assert (0 < q ^ j) by (apply Z.pow_pos_nonneg; lia). apply Z.mul_le_mono_nonneg; lia.
    + apply IH; [exact HB | exact Hx | |].
      * intros p Pp D. pose proof (Hp p Pp D). assert (p <> Z.of_nat (S n)) by (intros ->; contradiction). lia.
      * intros p f Pp Hle Hf0 D. apply Hf; try assumption. lia.
Qed.

(** ** The product of the primes up to n is at most 4^n *)
Lemma fac_divide : forall n m, (1 <= m <= n)%nat -> (Z.of_nat m | fac n).
Proof. induction n as [|n IH]; intros m Hm; [lia|]. cbn [fac]. destruct (Nat.eq_dec m (S n)) as [-> |N]; [apply Z.divide_factor_l | apply Z.divide_mul_r, IH; lia]. Qed.
Lemma fac_prime : forall p n, prime p -> (p | fac n) -> p <= Z.of_nat n.
Proof.
  intros p n Hp. pose proof (prime_ge_2 p Hp). induction n as [|n IH]; intros D; [apply Z.divide_1_r_nonneg in D; lia|]. cbn [fac] in D.
  destruct (prime_mult p Hp _ _ D) as [D1|D1]; [apply Z.divide_pos_le in D1; lia | specialize (IH D1); lia].
Qed.
Lemma pprod_range : forall X a j, (forall p, prime p -> Z.of_nat a < p <= Z.of_nat (a + j) -> (p | X)) ->
  exists Q, pprod (fun p => p) (a + j) = pprod (fun p => p) a * Q /\ (Q | X) /\ (forall p, prime p -> (p | Q) -> p <= Z.of_nat (a + j)) /\ 1 <= Q.
Proof.
  intros X a. induction j as [|j IH]; intros H.
  - exists 1. rewrite Nat.add_0_r. split; [lia|]. split; [apply Z.divide_1_l|]. split; [|lia]. intros p Hp D. pose proof (prime_ge_2 p Hp). apply Z.divide_1_r_nonneg in D; lia.
  - destruct IH as [Q [E [D [HQ H1]]]]; [intros p Hp Hr; apply H; [exact Hp | lia]|]. rewrite Nat.add_succ_r. cbn [pprod]. destruct (prime_dec (Z.of_nat (S (a + j)))) as [P|P].
    + set (q := Z.of_nat (S (a + j))) in *. exists (q * Q). split; [rewrite E; ring|]. split; [|split].
      * assert (R : rel_prime q Q) by (apply prime_rel_prime; [exact P|]; intros Dq; specialize (HQ q P Dq); lia).
        destruct D as [z Hz]. assert (Dq : (q | X)) by (apply H; [exact P | lia]). rewrite Hz in Dq. rewrite Z.mul_comm in Dq. apply Gauss in Dq; [|exact R]. destruct Dq as [y Hy]. exists y. rewrite Hz, Hy. ring.
      * intros p Hp Dp. destruct (prime_mult p Hp _ _ Dp) as [D1|D1]; [apply Z.divide_pos_le in D1; lia | specialize (HQ p Hp D1); lia].
      * nia.
    + exists Q. split; [exact E|]. split; [exact D|]. split; [|exact H1]. intros p Hp Dp. specialize (HQ p Hp Dp). lia.
Qed.
Lemma primorial_bound : forall n, pprod (fun p => p) n <= 4 ^ Z.of_nat n.
Proof.
  intros n. induction n as [n IH] using lt_wf_ind. destruct n as [|[|[|n]]]; [cbn; lia | cbn [pprod]; destruct (prime_dec (Z.of_nat 1)) as [P|P]; [apply prime_ge_2 in P; lia | cbn; lia] | |].
  - cbn [pprod]. destruct (prime_dec (Z.of_nat 1)) as [P|P]; [apply prime_ge_2 in P; lia|]. destruct (prime_dec (Z.of_nat 2)); cbn; lia.
  - destruct (Nat.Even_or_Odd n) as [[k E]|[k E]]; subst n.
    + (* odd: 2 (k+1) + 1 *)
      set (K := S k). replace (S (S (S (2 * k)))) with (S K + K)%nat by (unfold K; lia).
      destruct (pprod_range (binom (S (K + K)) K) (S K) K) as [Q [EQ [D [_ H1]]]].
      { intros p Hp Hr. pose proof (binom_fac K (S K)) as F. replace (K + S K)%nat with (S (K + K)) in F by lia.
        assert (Df : (p | fac (S (K + K)))) by (rewrite <- (Z2Nat.id p) by lia; apply fac_divide; lia). rewrite <- F in Df.
        destruct (prime_mult p Hp _ _ Df) as [D1|D1]; [|apply fac_prime in D1; [lia | exact Hp]]. destruct (prime_mult p Hp _ _ D1) as [D2|D2]; [exact D2 | apply fac_prime in D2; [lia | exact Hp]]. }
      rewrite EQ. pose proof (middle_upper K) as Hm. assert (Q <= 4 ^ Z.of_nat K) by (apply Z.divide_pos_le in D; [lia | apply binom_pos; lia]).
      specialize (IH (S K) ltac:(unfold K; lia)). assert (1 <= pprod (fun p => p) (S K)) by (apply pprod_pos; intros p Hp; pose proof (prime_ge_2 p Hp); lia).
      rewrite Nat2Z.inj_add, Z.pow_add_r by lia. apply Z.mul_le_mono_nonneg; lia.
    + (* even *)
      replace (S (S (S (2 * k + 1)))) with (S (2 * k + 3)) by lia. cbn [pprod]. destruct (prime_dec (Z.of_nat (S (2 * k + 3)))) as [P|P].
      * exfalso. assert (D : (2 | Z.of_nat (S (2 * k + 3)))) by (exists (Z.of_nat k + 2); lia). destruct (prime_divisors _ P _ D) as [|[|[|]]]; lia.
      * specialize (IH (2 * k + 3)%nat ltac:(lia)). rewrite (Nat2Z.inj_succ (2 * k + 3)), Z.pow_succ_r by lia. assert (0 < 4 ^ Z.of_nat (2 * k + 3)) by (apply Z.pow_pos_nonneg; lia). lia.
Qed.

(** ** No prime of (2n/3, n] divides the central coefficient *)
Lemma not_div : forall p x, p < x < 2 * p -> ~ (p | x).
Proof. intros p x H [k ->]. assert (k <= 1 \/ 2 <= k) as [K|K] by lia; nia. Qed.
Lemma not_div2 : forall p x, 2 * p < x < 3 * p -> ~ (p | x).
Proof. intros p x H [k ->]. assert (k <= 2 \/ 3 <= k) as [K|K] by lia; nia. Qed.
Lemma fac_once : forall q j, prime (Z.of_nat q) -> (j < q)%nat -> exists r, fac (q + j) = Z.of_nat q * r /\ ~ (Z.of_nat q | r).
Proof.
  intros q j Hq. induction j as [|j IH]; intros Hj.
  - destruct q as [|q]; [lia|]. exists (fac q). rewrite Nat.add_0_r. split; [reflexivity|]. intros D. apply fac_prime in D; [lia | exact Hq].
  - destruct (IH ltac:(lia)) as [r [E Hr]]. rewrite Nat.add_succ_r. cbn [fac]. exists (Z.of_nat (S (q + j)) * r). split; [rewrite E; ring|]. intros D.
    destruct (prime_mult _ Hq _ _ D) as [D1|D1]; [|contradiction]. revert D1. apply not_div. lia.
Qed.
Lemma fac_twice : forall q j, prime (Z.of_nat q) -> (3 <= q)%nat -> (j < q)%nat -> exists r, fac (q + q + j) = Z.of_nat q * Z.of_nat q * r /\ ~ (Z.of_nat q | r).
Proof.
  intros q j Hq H3. induction j as [|j IH]; intros Hj.
  - destruct (fac_once q (q - 1) Hq ltac:(lia)) as [r [E Hr]]. exists (2 * r). replace (q + q + 0)%nat with (S (q + (q - 1))) by lia. cbn [fac]. rewrite E. split; [rewrite Nat2Z.inj_succ; replace (Z.succ (Z.of_nat (q + (q - 1)))) with (2 * Z.of_nat q) by lia; ring|].
    intros D. destruct (prime_mult _ Hq _ _ D) as [D1|D1]; [apply Z.divide_pos_le in D1; lia | contradiction].
  - destruct (IH ltac:(lia)) as [r [E Hr]]. rewrite Nat.add_succ_r. cbn [fac]. exists (Z.of_nat (S (q + q + j)) * r). split; [rewrite E; ring|]. intros D.
    destruct (prime_mult _ Hq _ _ D) as [D1|D1]; [|contradiction]. revert D1. apply not_div2. lia.
Qed.
Lemma central_skip : forall p n, prime p -> 3 <= p <= Z.of_nat n -> 2 * Z.of_nat n < 3 * p -> ~ (p | central n).
Proof.
  intros p n Hp H3 Hn D. rewrite <- (Z2Nat.id p) in Hp, D by lia. set (q := Z.to_nat p) in *. assert (Eq : Z.of_nat q = p) by (unfold q; lia).
  destruct (fac_once q (n - q) Hp ltac:(lia)) as [r [E Hr]]. destruct (fac_twice q (2 * (n - q)) Hp ltac:(lia) ltac:(lia)) as [r' [E' Hr']].
  replace (q + (n - q))%nat with n in E by lia. replace (q + q + 2 * (n - q))%nat with (n + n)%nat in E' by lia.
  pose proof (binom_fac n n) as F. fold (central n) in F. rewrite E, E' in F. apply Hr'. rewrite Eq in *.
  assert (E2 : r' = central n * (r * r)). { apply (Z.mul_reg_l _ _ (p * p)); [nia|]. rewrite <- F. ring. }
  rewrite E2. apply Z.divide_mul_l. exact D.
Qed.

(** ** The estimate *)
Lemma pprod_split : forall N s n, 1 <= N -> 0 <= s -> pprod (fun p => if p <=? s then N else p) n <= N ^ (Z.min (Z.of_nat n) s) * pprod (fun p => p) n.
Proof.
  intros N s n HN Hs. induction n as [|n IH]; [cbn [pprod]; rewrite Z.min_l by lia; cbn; lia|].
  assert (P1 : 1 <= pprod (fun p => p) n) by (apply pprod_pos; intros p Hp; pose proof (prime_ge_2 p Hp); lia).
  assert (P2 : 1 <= pprod (fun p => if p <=? s then N else p) n) by (apply pprod_pos; intros p Hp; pose proof (prime_ge_2 p Hp); destruct (p <=? s); lia).
  assert (Q0 : 0 < N ^ Z.min (Z.of_nat n) s) by (apply Z.pow_pos_nonneg; lia).
  assert (Q1 : N ^ Z.min (Z.of_nat n) s <= N ^ Z.min (Z.of_nat (S n)) s) by (apply Z.pow_le_mono_r; lia).
  cbn [pprod]. destruct (prime_dec (Z.of_nat (S n))) as [P|P].
  - pose proof (prime_ge_2 _ P) as G2. destruct (Z.leb_spec (Z.of_nat (S n)) s) as [L|L].
    + rewrite (Z.min_l (Z.of_nat (S n)) s) by lia. rewrite (Z.min_l (Z.of_nat n) s) in * by lia. rewrite Nat2Z.inj_succ, Z.pow_succ_r by lia.
      assert (N * pprod (fun p => if p <=? s then N else p) n <= N * (N ^ Z.of_nat n * pprod (fun p => p) n)) by (apply Z.mul_le_mono_nonneg_l; lia).
      set (X := pprod (fun p => p) n) in *. set (Y := N ^ Z.of_nat n) in *. assert (N * Y * X <= N * Y * (Z.of_nat (S n) * X)) by (apply Z.mul_le_mono_nonneg_l; nia). rewrite Nat2Z.inj_succ in *. nia.
    + rewrite (Z.min_r (Z.of_nat (S n)) s) by lia. rewrite (Z.min_r (Z.of_nat n) s) in * by lia. set (X := pprod (fun p => p) n) in *. assert (Z.of_nat (S n) * pprod (fun p => if p <=? s then N else p) n <= Z.of_nat (S n) * (N ^ s * X)) by (apply Z.mul_le_mono_nonneg_l; lia). lia.
  - eapply Z.le_trans; [exact IH|]. apply Z.mul_le_mono_nonneg_r; lia.
Qed.
Lemma primes_between_dec : forall n, (exists p, prime p /\ Z.of_nat n < p <= 2 * Z.of_nat n) \/ ~ (exists p, prime p /\ Z.of_nat n < p <= 2 * Z.of_nat n).
Proof.
  intros n. assert (G : forall k, (exists p, prime p /\ Z.of_nat n < p <= Z.of_nat n + Z.of_nat k) \/ ~ (exists p, prime p /\ Z.of_nat n < p <= Z.of_nat n + Z.of_nat k)).
  { induction k as [|k [IH|IH]]; [right; intros [p [_ H]]; lia | left; destruct IH as [p [Hp H]]; exists p; split; [exact Hp | lia] |].
    destruct (prime_dec (Z.of_nat n + Z.of_nat (S k))) as [P|P]; [left; exists (Z.of_nat n + Z.of_nat (S k)); split; [exact P | lia]|].
    right. intros [p [Hp H]]. apply IH. exists p. split; [exact Hp|]. assert (p <> Z.of_nat n + Z.of_nat (S k)) by (intros ->; contradiction). lia. }
  destruct (G n) as [H|H]; [left | right]; [destruct H as [p [Hp H]]; exists p; split; [exact Hp | lia] | intros [p [Hp Hr]]; apply H; exists p; split; [exact Hp | lia]].
Qed.
Lemma bertrand_large : forall n, (2048 <= n)%nat -> exists p, prime p /\ Z.of_nat n < p <= 2 * Z.of_nat n.
Proof.
  intros n Hn. set (N := 2 * Z.of_nat n). assert (HN : 4096 <= N) by (unfold N; lia).
  destruct (primes_between_dec n) as [H|H]; [exact H|]. exfalso.
  set (s := Z.sqrt N). pose proof (Z.sqrt_spec N ltac:(lia)) as [S1 S2]. fold s in S1, S2. pose proof (Z.sqrt_nonneg N) as S0. fold s in S0. unfold Z.succ in S2.
  set (m := Z.to_nat (N / 3)). assert (Hm : 3 * Z.of_nat m <= N < 3 * Z.of_nat m + 3) by (unfold m; rewrite Z2Nat.id by (apply Z.div_pos; lia); pose proof (Z.div_mod N 3 ltac:(lia)); pose proof (Z.mod_pos_bound N 3 ltac:(lia)); lia).
  assert (Hb : central n <= pprod (fun p => if p <=? s then N else p) m).
  { apply pprod_bound; [intros p Hp; pose proof (prime_ge_2 p Hp); destruct (p <=? s); lia | pose proof (central_pos n); lia | |].
    - intros p Hp D. destruct (Z.le_gt_cases p (Z.of_nat m)) as [L|L]; [exact L|]. exfalso.
      pose proof (central_power p n 1 Hp ltac:(lia) ltac:(lia) ltac:(rewrite Z.pow_1_r; exact D)) as B. rewrite Z.pow_1_r in B. destruct (Z.le_gt_cases p (Z.of_nat n)) as [L2|L2].
      + apply (central_skip p n Hp); [lia | lia | exact D].
      + apply H. exists p. split; [exact Hp | lia].
    - intros p f Hp Hle Hf D. pose proof (central_power p n f Hp ltac:(lia) Hf D) as B. fold N in B. pose proof (prime_ge_2 p Hp). destruct (Z.leb_spec p s) as [L|L]; [exact B|].
      destruct (Z.le_gt_cases f 1) as [L1|L1]; [assert (p ^ f <= p ^ 1) by (apply Z.pow_le_mono_r; lia); rewrite Z.pow_1_r in *; lia|].
      assert (p ^ 2 <= p ^ f) by (apply Z.pow_le_mono_r; lia). rewrite Z.pow_2_r in *. nia. }
  pose proof (pprod_split N s m ltac:(lia) S0) as Hs. pose proof (primorial_bound m) as Hpm. pose proof (central_lower n ltac:(lia)) as Hl. fold N in Hl.
  set (L := Z.log2 N + 1). pose proof (Z.log2_spec N ltac:(lia)) as [L1 L2]. pose proof (Z.log2_nonneg N) as L0.
  assert (HL1 : 1 <= L) by (unfold L; lia). assert (HL : 0 <= L * (s + 1)) by (apply Z.mul_nonneg_nonneg; lia).
  assert (HNs : N ^ Z.min (Z.of_nat m) s <= N ^ s) by (apply Z.pow_le_mono_r; lia).
  assert (HNL : N ^ (s + 1) <= 2 ^ (L * (s + 1))) by (rewrite Z.pow_mul_r by (unfold L; lia); apply Z.pow_le_mono_l; unfold L, Z.succ in *; lia).
  assert (H4n : 4 ^ Z.of_nat n = 2 ^ N) by (change 4 with (2 ^ 2); rewrite <- Z.pow_mul_r by lia; reflexivity).
  assert (H4m : 4 ^ Z.of_nat m = 2 ^ (2 * Z.of_nat m)) by (change 4 with (2 ^ 2); rewrite <- Z.pow_mul_r by lia; reflexivity).
  assert (Hc : 2 ^ N <= 2 ^ (L * (s + 1) + 2 * Z.of_nat m)).
  { rewrite <- H4n, Z.pow_add_r by lia. rewrite <- H4m. eapply Z.le_trans; [exact Hl|]. assert (0 < N ^ s) by (apply Z.pow_pos_nonneg; lia). assert (0 < 4 ^ Z.of_nat m) by (apply Z.pow_pos_nonneg; lia).
    assert (central n <= N ^ s * 4 ^ Z.of_nat m).
    { eapply Z.le_trans; [exact Hb|]. eapply Z.le_trans; [exact Hs|]. apply Z.mul_le_mono_nonneg; [apply Z.pow_nonneg; lia | exact HNs | | exact Hpm]. assert (1 <= pprod (fun p => p) m) by (apply pprod_pos; intros p Hp; pose proof (prime_ge_2 p Hp); lia). lia. }
    rewrite Z.pow_add_r, Z.pow_1_r in HNL by lia. apply Z.le_trans with (N * (N ^ s * 4 ^ Z.of_nat m)); [apply Z.mul_le_mono_nonneg_l; lia|]. rewrite Z.mul_assoc, (Z.mul_comm N). apply Z.mul_le_mono_nonneg_r; lia. }
  assert (Hfin : N <= L * (s + 1) + 2 * Z.of_nat m).
  { apply Z.pow_le_mono_r_iff with (a := 2); [lia | lia | exact Hc]. }
  (* the logarithm is small against the root *)
  set (l := Z.log2 (s + 1)). assert (Hs63 : 64 <= s) by (destruct (Z.le_gt_cases 64 s) as [G|G]; [exact G|]; assert ((s + 1) * (s + 1) <= 64 * 64) by (apply Z.mul_le_mono_nonneg; lia); lia). pose proof (Z.log2_spec (s + 1) ltac:(lia)) as [M1 M2]. fold l in M1, M2. unfold Z.succ in M2.
  assert (Hl6 : 6 <= l) by (unfold l; change 6 with (Z.log2 64); apply Z.log2_le_mono; lia).
  assert (HLl : L <= 2 * l + 2).
  { unfold L. assert (Z.log2 N < 2 * l + 2); [|lia]. apply Z.log2_lt_pow2; [lia|]. replace (2 * l + 2) with (l + 1 + (l + 1)) by lia. rewrite Z.pow_add_r by lia. assert ((s + 1) * (s + 1) <= 2 ^ (l + 1) * 2 ^ (l + 1)) by (apply Z.mul_le_mono_nonneg; lia). lia. }
  assert (Hexp : 6 * l + 8 <= 2 ^ l).
  { clear - Hl6. revert Hl6. generalize l. intros x Hx. replace x with (6 + (x - 6)) by lia. set (y := x - 6). assert (Hy : 0 <= y) by (unfold y; lia). clearbody y. revert y Hy. apply natlike_ind; [vm_compute; discriminate|].
    intros y Hy IH. replace (6 + Z.succ y) with (Z.succ (6 + y)) by lia. rewrite Z.pow_succ_r by lia. lia. }
  assert (3 * L + 1 <= s) by lia. clear - Hfin Hm S1 H0 Hs63 L0. nia.
Qed.

Theorem bertrand : forall n, 1 <= n -> exists p, prime p /\ n < p <= 2 * n.
Proof.
  intros n Hn. destruct (Z.le_gt_cases 2048 n) as [L|L].
  { destruct (bertrand_large (Z.to_nat n) ltac:(lia)) as [p [Hp H]]. exists p. split; [exact Hp | lia]. }
  assert (K : n < 2 \/ 2 <= n < 3 \/ 3 <= n < 5 \/ 5 <= n < 7 \/ 7 <= n < 13 \/ 13 <= n < 23 \/ 23 <= n < 43 \/ 43 <= n < 83 \/ 83 <= n < 163 \/ 163 <= n < 317 \/ 317 <= n < 631 \/ 631 <= n < 1259 \/ 1259 <= n < 2503) by lia.
  destruct K as [K|[K|[K|[K|[K|[K|[K|[K|[K|[K|[K|[K|K]]]]]]]]]]]];
  [exists 2 | exists 3 | exists 5 | exists 7 | exists 13 | exists 23 | exists 43 | exists 83 | exists 163 | exists 317 | exists 631 | exists 1259 | exists 2503]; (split; [small_prime | lia]).
Qed.
(** 2n itself is only prime for n = 1 *)
Corollary bertrand_strict : forall n, 2 <= n -> exists p, prime p /\ n < p < 2 * n.
Proof.
  intros n Hn. destruct (bertrand n ltac:(lia)) as [p [Hp H]]. exists p. split; [exact Hp|]. assert (p <> 2 * n); [|lia]. intros E. assert (D : (2 | p)) by (exists n; lia).
  destruct (prime_divisors p Hp 2 D) as [|[|[|]]]; lia.
Qed.
