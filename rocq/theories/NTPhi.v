(** * Legendre's partial sieve function and the sums of the Meissel-Lehmer formula. *)
From Coq Require Import ZArith Znumtheory List Lia Bool.
From Verif Require Import Base Spec NT PBase PBuffer.
Import ListNotations.
Local Open Scope Z_scope.

(** ** Counting multiples *)
Lemma count_true : forall P n, (forall i, 1 <= i <= Z.of_nat n -> P i = true) -> count P n = Z.of_nat n.
Proof. intros P. induction n as [|n IH]; intros H; [reflexivity|]. cbn [count]. rewrite IH by (intros; apply H; lia). rewrite H by lia. lia. Qed.
Lemma count_S : forall P n, count P (S n) = count P n + (if P (Z.of_nat (S n)) then 1 else 0).
Proof. reflexivity. Qed.
Lemma count_multiples : forall P p x, 1 <= p -> 0 <= x ->
  count (fun n => P n && (n mod p =? 0)) (Z.to_nat x) = count (fun m => P (p * m)) (Z.to_nat (x / p)).
Proof.
  intros P p x Hp. apply (natlike_ind (fun x => count (fun n => P n && (n mod p =? 0)) (Z.to_nat x) = count (fun m => P (p * m)) (Z.to_nat (x / p)))).
  - rewrite Z.div_0_l by lia. reflexivity.
  - intros y Hy IH. replace (Z.to_nat (Z.succ y)) with (S (Z.to_nat y)) by lia. rewrite count_S, IH.
    replace (Z.of_nat (S (Z.to_nat y))) with (y + 1) by lia. unfold Z.succ.
    assert (H0 : 0 <= y / p) by (apply Z.div_pos; lia).
    pose proof (Z_div_mod_eq_full y p) as E. pose proof (Z.mod_pos_bound y p ltac:(lia)) as B.
    destruct (Z.eq_dec (y mod p) (p - 1)) as [Em|Em].
    + assert (Ed : (y + 1) / p = y / p + 1) by (symmetry; apply (Z.div_unique _ _ _ 0); nia).
      assert (Er : (y + 1) mod p = 0) by (apply mod0_divide; [lia|]; exists (y / p + 1); nia).
      rewrite Ed, Er. replace (Z.to_nat (y / p + 1)) with (S (Z.to_nat (y / p))) by lia. rewrite count_S.
      replace (p * Z.of_nat (S (Z.to_nat (y / p)))) with (y + 1) by nia. rewrite andb_true_r. reflexivity.
    + assert (Ed : (y + 1) / p = y / p) by (symmetry; apply (Z.div_unique _ _ _ (y mod p + 1)); nia).
      assert (Er : (y + 1) mod p = y mod p + 1) by (symmetry; apply (Z.mod_unique _ _ (y / p)); nia).
      rewrite Ed, Er. replace (y mod p + 1 =? 0) with false by (symmetry; apply Z.eqb_neq; lia). rewrite andb_false_r. lia.
Qed.

(** ** coprime_to_first *)
Lemma cop_spec : forall a n, 1 <= n -> (coprime_to_first a n = true <-> forall q, prime q -> prime_count q <= a -> ~ (q | n)).
Proof.
  intros a n Hn. unfold coprime_to_first. rewrite forallb_forall. split.
  - intros H q Hq Hc Hd. pose proof (prime_ge2 q Hq). pose proof (divide_pos_le q n ltac:(lia) Hd).
    specialize (H (Z.to_nat q)). rewrite Z2Nat.id in H by lia. rewrite (primeb_false q Hq) in H.
    apply mod0_divide in Hd; [|lia]. rewrite Hd in H. apply Z.leb_le in Hc. rewrite Hc in H. cbn in H.
    discriminate H. apply in_seq. lia.
  - intros H q Hq. apply in_seq in Hq. apply negb_true_iff. destruct (primeb (Z.of_nat q) && (prime_count (Z.of_nat q) <=? a) && (n mod Z.of_nat q =? 0)) eqn:E; [|reflexivity].
    exfalso. rewrite !andb_true_iff in E. destruct E as [[E1 E2] E3]. apply primeb_spec in E1. apply Z.leb_le in E2. apply Z.eqb_eq in E3. apply (H _ E1 E2). apply mod0_divide; [lia | exact E3].
Qed.
Lemma cop_false : forall a n, 1 <= n -> coprime_to_first a n = false -> exists q, prime q /\ prime_count q <= a /\ (q | n).
Proof.
  intros a n Hn H. unfold coprime_to_first in H. 
  assert (G : forall l, forallb (fun q : nat => negb (primeb (Z.of_nat q) && (prime_count (Z.of_nat q) <=? a) && (n mod Z.of_nat q =? 0))) l = false -> exists q, In q l /\ (primeb (Z.of_nat q) && (prime_count (Z.of_nat q) <=? a) && (n mod Z.of_nat q =? 0)) = true).
  { induction l as [|q l IH]; cbn [forallb]; [discriminate|]. intros E. apply andb_false_iff in E. destruct E as [E|E].
    - exists q. split; [left; reflexivity | apply negb_false_iff, E].
    - destruct (IH E) as [q' [A B]]. exists q'. split; [right; exact A | exact B]. }
  destruct (G _ H) as [q [A B]]. apply in_seq in A. rewrite !andb_true_iff in B. destruct B as [[B1 B2] B3]. exists (Z.of_nat q).
  split; [apply primeb_spec, B1|]. split; [apply Z.leb_le, B2|]. apply mod0_divide; [lia | apply Z.eqb_eq, B3].
Qed.
Lemma cop_iff : forall a n b, 1 <= n -> (coprime_to_first a n = b) <-> (if b then forall q, prime q -> prime_count q <= a -> ~ (q | n) else exists q, prime q /\ prime_count q <= a /\ (q | n)).
Proof.
  intros a n b Hn. destruct b; [apply cop_spec, Hn|]. split; [apply cop_false, Hn|].
  intros [q [A [B C]]]. destruct (coprime_to_first a n) eqn:E; [|reflexivity]. exfalso. exact (proj1 (cop_spec a n Hn) E q A B C).
Qed.
Lemma bool_iff : forall a b, (a = true <-> b = true) -> a = b.
Proof. intros [|] [|] [H1 H2]; auto. symmetry; auto. Qed.

(** ** Values of phi *)
Lemma phi_nonneg : forall x a, 0 <= legendre_phi x a.
Proof. intros. apply count_nonneg. Qed.
Lemma phi_le : forall x a, 0 <= x -> legendre_phi x a <= x.
Proof. intros x a H. unfold legendre_phi. pose proof (count_le (coprime_to_first a) (Z.to_nat x)). lia. Qed.

Lemma phi_rec : forall x a p, 0 <= x -> nth_prime_is a p ->
  legendre_phi x a = legendre_phi x (a - 1) - legendre_phi (x / p) (a - 1).
Proof.
  intros x a p Hx [Hp Hc]. pose proof (prime_ge2 p Hp) as Hp2. unfold legendre_phi.
  assert (E : count (coprime_to_first (a - 1)) (Z.to_nat x) =
              count (fun n => coprime_to_first a n || (coprime_to_first (a - 1) n && (n mod p =? 0))) (Z.to_nat x)).
  { apply count_ext. intros i Hi. apply bool_iff. rewrite orb_true_iff, andb_true_iff, Z.eqb_eq, mod0_divide by lia. rewrite !cop_spec by lia. split.
    - intros H. destruct (Zdivide_dec p i) as [D|D]; [right; auto|]. left. intros q Hq Hqc Hd.
      destruct (Z.eq_dec (prime_count q) a) as [Eq|Nq]; [|apply (H q Hq ltac:(lia) Hd)].
      assert (q = p) by (apply (nth_prime_unique a); split; assumption). subst q. contradiction.
    - intros [H|[H _]]; [|exact H]. intros q Hq Hqc. apply H; [exact Hq | lia]. }
  rewrite count_add in E.
  - rewrite count_multiples in E by lia. rewrite E.
    rewrite (count_ext (fun m => coprime_to_first (a - 1) (p * m)) (coprime_to_first (a - 1))); [ring|].
    intros m Hm. apply bool_iff. rewrite !cop_spec by nia. split; intros H q Hq Hqc Hd.
    + apply (H q Hq Hqc). apply Z.divide_mul_r, Hd.
    + apply prime_div_mul in Hd; [|exact Hq]. destruct Hd as [Hd|Hd]; [|exact (H q Hq Hqc Hd)].
      apply prime_divides_prime in Hd; auto. subst q. lia.
  - intros i Hi H1 H2. apply andb_true_iff in H2. destruct H2 as [_ H2]. apply Z.eqb_eq, mod0_divide in H2; [|lia].
    rewrite cop_spec in H1 by lia. apply (H1 p Hp ltac:(lia) H2).
Qed.

Lemma pc_2 : prime_count 2 = 1.
Proof. reflexivity. Qed.
Lemma pc_le0 : forall q, prime q -> 1 <= prime_count q.
Proof. exact pc_prime_pos. Qed.
Lemma phi_0 : forall x, 0 <= x -> legendre_phi x 0 = x.
Proof.
  intros x Hx. unfold legendre_phi. rewrite count_true; [lia|]. intros i Hi. apply cop_spec; [lia|]. intros q Hq Hc. pose proof (pc_le0 q Hq). lia.
Qed.
Lemma phi_1 : forall x, 0 <= x -> legendre_phi x 1 = (x + 1) / 2.
Proof.
  intros x Hx. assert (0 <= x / 2) by (apply Z.div_pos; lia). rewrite (phi_rec x 1 2 Hx); [|split; [apply prime_2 | reflexivity]]. change (1 - 1) with 0. rewrite !phi_0 by lia.
  pose proof (Z_div_mod_eq_full x 2) as E. pose proof (Z.mod_pos_bound x 2 ltac:(lia)) as B.
  apply (Z.div_unique _ _ _ (1 - x mod 2)); lia.
Qed.
Lemma phi_mono_a : forall x a a', a <= a' -> legendre_phi x a' <= legendre_phi x a.
Proof.
  intros x a a' Ha. unfold legendre_phi. induction (Z.to_nat x) as [|n IH]; [reflexivity|]. rewrite !count_S.
  destruct (coprime_to_first a' (Z.of_nat (S n))) eqn:E1; destruct (coprime_to_first a (Z.of_nat (S n))) eqn:E2; try lia.
  exfalso. rewrite cop_spec in E1 by lia. apply cop_false in E2; [|lia]. destruct E2 as [q [A [B C]]]. apply (E1 q A ltac:(lia) C).
Qed.

(** counting the primes among the first k *)
Lemma count_first : forall x k, 0 <= k <= prime_count x -> count (fun n => primeb n && (prime_count n <=? k)) (Z.to_nat x) = k.
Proof.
  intros x k. unfold prime_count at 1. intros Hk. revert k Hk. induction (Z.to_nat x) as [|n IH]; intros k Hk.
  - cbn [count] in *. lia.
  - rewrite count_S in *. set (y := Z.of_nat (S n)) in *.
    assert (Ey : prime_count y = count primeb n + (if primeb y then 1 else 0)).
    { unfold prime_count. replace (Z.to_nat y) with (S n) by lia. rewrite count_S. reflexivity. }
    destruct (primeb y) eqn:Ep; cbn [andb].
    + destruct (Z.eq_dec k (count primeb n + 1)) as [->|Nk].
      * replace (prime_count y <=? count primeb n + 1) with true by (symmetry; apply Z.leb_le; lia).
        rewrite (count_ext _ primeb); [reflexivity|]. intros i Hi. destruct (primeb i) eqn:Ei; [|reflexivity]. cbn [andb]. apply Z.leb_le.
        pose proof (count_mono primeb (Z.to_nat i) n ltac:(lia)). unfold prime_count. lia.
      * replace (prime_count y <=? k) with false by (symmetry; apply Z.leb_gt; lia). rewrite IH by lia. lia.
    + rewrite IH by lia. lia.
Qed.

(** below the square of the (k+1)-th prime only 1 and primes remain *)
Lemma phi_small : forall x k, 1 <= x -> 0 <= k <= prime_count x -> (forall q, prime q -> q * q <= x -> prime_count q <= k) ->
  legendre_phi x k = prime_count x - k + 1.
Proof.
  intros x k Hx Hk Hs. unfold legendre_phi.
  rewrite (count_ext _ (fun n => (n =? 1) || (primeb n && negb (prime_count n <=? k)))).
  - rewrite count_add.
    + assert (E1 : count (fun n => n =? 1) (Z.to_nat x) = 1).
      { assert (G : forall m, count (fun n => n =? 1) (S m) = 1).
        { induction m as [|m IH]; [reflexivity|]. rewrite count_S, IH. replace (Z.of_nat (S (S m)) =? 1) with false by (symmetry; apply Z.eqb_neq; lia). lia. }
        replace (Z.to_nat x) with (S (Z.to_nat x - 1)) by lia. apply G. }
      rewrite E1. assert (E2 : prime_count x = count (fun n => primeb n && (prime_count n <=? k)) (Z.to_nat x) + count (fun n => primeb n && negb (prime_count n <=? k)) (Z.to_nat x)).
      { rewrite <- count_add.
        - unfold prime_count at 1. apply count_ext. intros i Hi. destruct (primeb i); [|reflexivity]. cbn [andb]. destruct (prime_count i <=? k); reflexivity.
        - intros i Hi A B. apply andb_true_iff in A. apply andb_true_iff in B. destruct A as [_ A]. destruct B as [_ B]. rewrite A in B. discriminate. }
      rewrite count_first in E2 by lia. lia.
    + intros i Hi A B. apply Z.eqb_eq in A. subst i. cbn in B. discriminate.
  - intros i Hi. apply bool_iff. rewrite cop_spec by lia. rewrite orb_true_iff, andb_true_iff, negb_true_iff, Z.eqb_eq, Z.leb_gt, primeb_spec. split.
    + intros H. destruct (Z.eq_dec i 1) as [->|N1]; [left; reflexivity|]. right.
      assert (Pi : prime i).
      { destruct (primeb_reflect i) as [P|P]; [exact P|]. exfalso. destruct (composite_small_prime i ltac:(lia) P) as [q [Pq [Dq Sq]]].
        apply (H q Pq); [apply Hs; [exact Pq | nia] | exact Dq]. }
      split; [exact Pi|]. destruct (Z.lt_ge_cases k (prime_count i)) as [|L]; [assumption|]. exfalso. apply (H i Pi L). apply Z.divide_refl.
    + intros [->|[Pi Hc]] q Pq Hq Hd.
      * pose proof (prime_ge2 q Pq). apply divide_pos_le in Hd; lia.
      * apply prime_divides_prime in Hd; auto. subst q. lia.
Qed.

(** existence of the n-th prime below a bound *)
Lemma nth_prime_exists : forall n x, 1 <= n <= prime_count x -> exists p, nth_prime_is n p /\ p <= x.
Proof.
  intros n x H. pose proof (filter_primeb_list x) as L. pose proof (lists_primes_count _ _ L) as C.
  destruct (nth_error (filter primeb (range_from (Z.to_nat x) 1 1)) (Z.to_nat (n - 1))) as [p|] eqn:E; [|apply nth_error_None in E; lia].
  exists p. split; [|apply L; eapply nth_error_In, E].
  replace n with (Z.of_nat (Z.to_nat (n - 1)) + 1) by lia. eapply (lists_primes_nth _ (x + 1)); [|exact E].
  apply lists_primes_lt. replace (x + 1 - 1) with x by lia. exact L.
Qed.
Lemma nth_prime_le : forall n p x, nth_prime_is n p -> (p <= x <-> n <= prime_count x).
Proof.
  intros n p x [Hp Hc]. split; intros H; [rewrite <- Hc; apply pc_mono, H|]. destruct (Z.le_gt_cases p x) as [|L]; [assumption|].
  pose proof (pc_prime_lt x p Hp L). lia.
Qed.
Lemma nth_prime_mono : forall n p m q, nth_prime_is n p -> nth_prime_is m q -> n <= m -> p <= q.
Proof. intros n p m q Hp Hq H. apply (nth_prime_le n p q Hp). destruct Hq as [_ ->]. exact H. Qed.
Lemma pc_lt_self : forall x, 0 <= x -> prime_count x <= x.
Proof. intros x H. unfold prime_count. pose proof (count_le primeb (Z.to_nat x)). lia. Qed.
(** at most every second number is prime *)
Lemma even_not_prime : forall n, Z.even n = true -> 2 < n -> primeb n = false.
Proof.
  intros n E H. destruct (primeb_reflect n) as [P|P]; [|reflexivity]. exfalso. apply Z.even_spec in E. destruct E as [k ->].
  assert (D : (2 | 2 * k)) by (exists k; ring). apply prime_divides_prime in D; [lia | apply prime_2 | exact P].
Qed.
Lemma pc_half : forall x, 0 <= x -> prime_count x <= (x + 1) / 2.
Proof.
  assert (G : forall n : nat, prime_count (2 * Z.of_nat n + 1) <= Z.of_nat n + 1 /\ prime_count (2 * Z.of_nat n + 2) <= Z.of_nat n + 1).
  { induction n as [|n [IH1 IH2]]; [vm_compute; split; discriminate|].
    assert (E1 : prime_count (2 * Z.of_nat (S n) + 1) <= Z.of_nat (S n) + 1).
    { replace (2 * Z.of_nat (S n) + 1) with (2 * Z.of_nat n + 2 + 1) by lia. rewrite pc_step by lia. destruct (primeb _); lia. }
    split; [exact E1|]. replace (2 * Z.of_nat (S n) + 2) with (2 * Z.of_nat (S n) + 1 + 1) by lia. rewrite pc_step by lia.
    rewrite even_not_prime; [lia | | lia]. replace (2 * Z.of_nat (S n) + 1 + 1) with (2 * (Z.of_nat (S n) + 1)) by lia. apply Z.even_spec. eexists. reflexivity. }
  intros x Hx. destruct (Z.eq_dec x 0) as [->|N0]; [vm_compute; discriminate|].
  pose proof (Z_div_mod_eq_full (x - 1) 2) as E. pose proof (Z.mod_pos_bound (x - 1) 2 ltac:(lia)) as B. set (m := (x - 1) / 2) in *.
  assert (0 <= m) by (apply Z.div_pos; lia). destruct (G (Z.to_nat m)) as [G1 G2]. rewrite Z2Nat.id in * by lia.
  apply Z.div_le_lower_bound; [lia|]. clearbody m. assert (x = 2 * m + 1 \/ x = 2 * m + 2) as [Ex|Ex] by lia; rewrite Ex; lia.
Qed.

(** ** The running sums of the formula *)
(** sum_{i=a+1}^{b} (i-2) + (b-1) *)
Definition tri (b i : Z) : Z := (b + i - 2) * (b - i + 1) / 2.
Lemma tri_double : forall b i, 2 * tri b i = (b + i - 2) * (b - i + 1).
Proof.
  intros b i. unfold tri. assert (E : exists k, (b + i - 2) * (b - i + 1) = 2 * k).
  { destruct (Z.Even_or_Odd (b + i)) as [[k H]|[k H]].
    - exists ((k - 1) * (b - i + 1)). replace (b + i - 2) with (2 * (k - 1)) by lia. ring.
    - exists ((b + i - 2) * (k + 1 - i)). replace (b - i + 1) with (2 * (k + 1 - i)) by lia. ring. }
  destruct E as [k ->]. rewrite (Z.mul_comm 2 k), Z.div_mul by lia. ring.
Qed.
Lemma tri_step : forall b i, tri b (i - 1) = tri b i + (i - 2).
Proof. intros b i. pose proof (tri_double b i). pose proof (tri_double b (i - 1)). nia. Qed.
Lemma tri_end : forall b, tri b b = b - 1.
Proof. intros b. pose proof (tri_double b b). nia. Qed.

Definition S_ (x b i : Z) : Z := legendre_phi x i + tri b i.
Lemma S_step : forall x b i p, 0 <= x -> nth_prime_is i p -> S_ x b i = S_ x b (i - 1) - legendre_phi (x / p) (i - 1) - (i - 2).
Proof. intros x b i p Hx Hp. unfold S_. rewrite (phi_rec x i p Hx Hp), tri_step. ring. Qed.
(** at the end of the sum only primes are left *)
Lemma S_end : forall x b, 2 <= x -> b = prime_count (Z.sqrt x) -> S_ x b b = prime_count x.
Proof.
  intros x b Hx ->. unfold S_. rewrite tri_end.
  pose proof (Z.sqrt_spec x ltac:(lia)) as Hs. pose proof (Z.sqrt_nonneg x) as H0. rewrite phi_small; [ring | lia | |].
  - split; [apply pc_nonneg | apply pc_mono, Z.sqrt_le_lin; lia].
  - intros q Pq Hq. apply pc_mono. pose proof (prime_ge2 q Pq). apply Z.sqrt_le_square; lia.
Qed.
(** the term for p_i when p_i^3 > x *)
Lemma S_step_simple : forall x b i p, 0 <= x -> nth_prime_is i p -> p * p <= x -> x < p * p * p ->
  S_ x b i = S_ x b (i - 1) - prime_count (x / p).
Proof.
  intros x b i p Hx Hp H2 H3. rewrite (S_step x b i p Hx Hp). destruct Hp as [Pp Hc]. pose proof (prime_ge2 p Pp).
  assert (Hw : p <= x / p) by (apply Z.div_le_lower_bound; lia).
  rewrite phi_small; [ring | lia | |].
  - pose proof (pc_mono p (x / p) Hw). pose proof (pc_prime_pos p Pp). lia.
  - intros q Pq Hq. assert (q < p); [|pose proof (pc_prime_lt q p Pp ltac:(lia)); lia].
    assert (x / p < p * p) by (apply Z.div_lt_upper_bound; lia). pose proof (prime_ge2 q Pq). nia.
Qed.
Lemma S_nonneg : forall x b i, 1 <= b -> 1 <= i <= b -> 0 <= S_ x b i.
Proof. intros x b i Hb Hi. unfold S_. pose proof (phi_nonneg x i). pose proof (tri_double b i). nia. Qed.
