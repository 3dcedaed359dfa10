(** * Pocklington's criterion, and the Mersenne primes below 2^128. *)
From Coq Require Import ZArith Znumtheory Zpow_facts List Lia Bool.
From Verif Require Import Base Spec Ext NT PBase PTables.
Import ListNotations.
Local Open Scope Z_scope.

Lemma pow_gcd_one : forall p x a b, prime p -> 0 < a -> 0 < b -> x ^ a =[p]= 1 -> x ^ b =[p]= 1 -> x ^ (Z.gcd a b) =[p]= 1.
Proof.
  intros p x a b Hp Ha Hb Ea Eb. destruct (Z.gcd_bezout a b (Z.gcd a b) eq_refl) as [u [v E]].
  (* shift so that the coefficient of a is non-negative and that of b non-positive *)
  pose (t := Z.abs u + Z.abs v). assert (Hu : 0 <= u + t * b) by (unfold t; nia). assert (Hv : 0 <= t * a - v) by (unfold t; nia).
  assert (G : 0 <= Z.gcd a b) by apply Z.gcd_nonneg.
  assert (F : a * (u + t * b) = Z.gcd a b + b * (t * a - v)) by (rewrite <- E; ring).
  assert (A1 : x ^ (a * (u + t * b)) =[p]= 1).
  { rewrite Z.pow_mul_r by lia. eapply eqm_trans; [apply eqm_pow, Ea|]. rewrite Z.pow_1_l by lia. apply eqm_refl. }
  assert (Hw : 0 <= b * (t * a - v)) by (apply Z.mul_nonneg_nonneg; lia). rewrite F, Z.pow_add_r in A1 by assumption.
  assert (A2 : x ^ (b * (t * a - v)) =[p]= 1).
  { rewrite Z.pow_mul_r by lia. eapply eqm_trans; [apply eqm_pow, Eb|]. rewrite Z.pow_1_l by lia. apply eqm_refl. }
  eapply eqm_trans; [|exact A1]. apply eqm_sym. eapply eqm_trans; [apply eqm_mul; [apply eqm_refl | exact A2]|]. rewrite Z.mul_1_r. apply eqm_refl.
Qed.

(** The q-part of p - 1 for a prime divisor p of n. *)
Lemma pock_part : forall n p q e k a, prime p -> (p | n) -> 1 < n -> prime q -> 0 < e -> 0 < k -> n - 1 = q ^ e * k -> a ^ (n - 1) =[n]= 1 -> Z.gcd (a ^ ((n - 1) / q) - 1) n = 1 -> (q ^ e | p - 1).
Proof.
  intros n p q e k a Pp Dp Hn Pq He Hk En Fa Ga. pose proof (prime_ge2 p Pp) as P2. pose proof (prime_ge2 q Pq) as Q2.
  assert (Qe : 0 < q ^ e) by (apply Z.pow_pos_nonneg; lia). assert (Qe1 : 0 < q ^ (e - 1)) by (apply Z.pow_pos_nonneg; lia).
  assert (Eq : q ^ e = q * q ^ (e - 1)) by (rewrite <- Z.pow_succ_r by lia; f_equal; lia).
  assert (Dq : (n - 1) / q = k * q ^ (e - 1)) by (rewrite En, Eq; replace (q * q ^ (e - 1) * k) with ((k * q ^ (e - 1)) * q) by ring; apply Z.div_mul; lia).
  set (x := a ^ k). assert (X1 : x ^ (q ^ e) =[p]= 1).
  { unfold x. rewrite <- Z.pow_mul_r by lia. rewrite Z.mul_comm, <- En. apply (eqm_divide n p _ _ Dp Fa). }
  assert (X2 : ~ x ^ (q ^ (e - 1)) =[p]= 1).
  { unfold x. rewrite <- Z.pow_mul_r by lia. rewrite <- Dq. intros C. assert (D : (p | Z.gcd (a ^ ((n - 1) / q) - 1) n)) by (apply Z.gcd_greatest; [exact C | exact Dp]). rewrite Ga in D. apply divide_pos_le in D; lia. }
  assert (Hx : ~ (p | x)).
  { intros C. assert (D : (p | x ^ (q ^ e))). { replace (q ^ e) with (Z.succ (q ^ e - 1)) by lia. rewrite Z.pow_succ_r by lia. apply Z.divide_mul_l, C. }
    assert (D1 : (p | 1)). { replace 1 with (x ^ (q ^ e) - (x ^ (q ^ e) - 1)) by ring. apply Z.divide_sub_r; [exact D | exact X1]. } apply divide_pos_le in D1; lia. }
  pose proof (fermat p x Pp Hx) as X3. assert (P1 : 0 < p - 1) by lia.
  pose proof (pow_gcd_one p x (q ^ e) (p - 1) Pp Qe P1 X1 X3) as X4.
  destruct (Zdivide_power_2 (Z.gcd (q ^ e) (p - 1)) q e) as [j Ej]; [lia | apply Z.gcd_nonneg | exact Pq | apply Z.gcd_divide_l|].
  destruct (Z.lt_ge_cases j e) as [Lj|Lj].
  - exfalso. apply X2. destruct (Z.lt_ge_cases j 0) as [Nj|Nj].
    { rewrite (Z.pow_neg_r q j Nj) in Ej. apply Z.gcd_eq_0_l in Ej. lia. }
    rewrite Ej in X4. replace (q ^ (e - 1)) with (q ^ j * q ^ (e - 1 - j)) by (rewrite <- Z.pow_add_r by lia; f_equal; lia).
    rewrite Z.pow_mul_r by (try apply Z.pow_nonneg; lia). eapply eqm_trans; [apply eqm_pow, X4|]. rewrite Z.pow_1_l by (apply Z.pow_nonneg; lia). apply eqm_refl.
  - eapply Z.divide_trans; [|apply (Z.gcd_divide_r (q ^ e) (p - 1))]. rewrite Ej. exists (q ^ (j - e)). rewrite <- Z.pow_add_r by lia. f_equal. lia.
Qed.

Lemma pow_rel_prime : forall q r e k, prime q -> prime r -> q <> r -> 0 <= e -> 0 <= k -> rel_prime (q ^ e) (r ^ k).
Proof. intros q r e k Pq Pr N He Hk. apply rel_prime_Zpower; [lia | lia|]. apply prime_rel_prime; [exact Pq|]. intros C. apply N, prime_divides_prime; assumption. Qed.
Lemma prime_pow_rel_prod : forall m q e, prime q -> 0 <= e -> Forall (fun qe => prime (fst qe) /\ 0 <= snd qe) m -> ~ In q (map fst m) -> rel_prime (q ^ e) (prod_powers m).
Proof.
  induction m as [|[r k] m IH]; intros q e Pq He F N; cbn [prod_powers]; [apply rel_prime_sym, rel_prime_1|].
  inversion F as [|? ? [Fr Fk] F']; subst. cbn [fst snd map In] in *. apply rel_prime_mult; [apply pow_rel_prime; auto|]. apply IH; auto.
Qed.

Lemma gcd_eqm : forall n a b, a =[n]= b -> Z.gcd a n = Z.gcd b n.
Proof. intros n a b [k E]. replace a with (b + k * n) by lia. rewrite Z.gcd_comm, Z.gcd_add_mult_diag_r. apply Z.gcd_comm. Qed.

Lemma rel_prime_mul_divide : forall a b c, rel_prime a b -> (a | c) -> (b | c) -> (a * b | c).
Proof. intros a b c R A [k ->]. rewrite (Z.mul_comm k b). rewrite (Z.mul_comm k b) in A. apply Gauss in A; [|exact R]. rewrite Z.mul_comm. apply Z.mul_divide_mono_l, A. Qed.

(** A certificate: the prime powers of the factored part F of n - 1, each with its witness. *)
Definition pock_checks (n : Z) (c : list (Z * Z * Z)) : bool :=
  (1 <? n) &&
  (let F := prod_powers (map fst c) in (n <? F * F) && ((n - 1) mod F =? 0)) &&
  forallb (fun '(q, e, a) => (0 <? e) && (Zpow_mod a (n - 1) n =? 1) && (Z.gcd (Zpow_mod a ((n - 1) / q) n - 1) n =? 1)) c.

Theorem pocklington : forall n c, pock_checks n c = true -> NoDup (map fst (map fst c)) -> Forall (fun qea => prime (fst (fst qea))) c -> prime n.
Proof.
  intros n c H N P. unfold pock_checks in H. rewrite !andb_true_iff in H. destruct H as [[H1 [HF HD]] HC]. apply Z.ltb_lt in H1, HF. apply Z.eqb_eq in HD.
  set (F := prod_powers (map fst c)) in *.
  assert (QE : Forall (fun qe => prime (fst qe) /\ 0 <= snd qe) (map fst c)).
  { apply Forall_forall. intros [q e] Hin. apply in_map_iff in Hin. destruct Hin as [[[q' e'] a] [E Hin]]. cbn [fst] in E. injection E as -> ->. rewrite Forall_forall in P. specialize (P _ Hin). cbn [fst snd] in *.
    rewrite forallb_forall in HC. specialize (HC _ Hin). cbn beta iota in HC. rewrite !andb_true_iff in HC. destruct HC as [[He _] _]. apply Z.ltb_lt in He. split; [exact P | lia]. }
  assert (Fpos : 0 < F).
  { unfold F. clear -QE. induction (map fst c) as [|[q e] m IH]; cbn [prod_powers]; [lia|]. inversion QE as [|? ? [A B] C]; subst. cbn [fst snd] in *. pose proof (prime_ge2 q A). pose proof (Z.pow_pos_nonneg q e ltac:(lia) B). specialize (IH C). nia. }
  assert (DF : (F | n - 1)) by (apply Z.mod_divide; lia).
  apply prime_no_small_divisor; [lia|]. intros p Pp Hle Dp. pose proof (prime_ge2 p Pp) as P2.
  assert (G : forall l, incl l c -> NoDup (map fst (map fst l)) -> (prod_powers (map fst l) | p - 1)).
  { induction l as [|[[q e] a] l IH]; intros I ND; cbn [map fst prod_powers]; [apply Z.divide_1_l|]. cbn [map fst] in ND. inversion ND as [|? ? N1 N2]; subst.
    assert (Hin : In (q, e, a) c) by (apply I; left; reflexivity).
    rewrite forallb_forall in HC. pose proof (HC _ Hin) as Hc. cbn beta iota in Hc. rewrite !andb_true_iff in Hc. destruct Hc as [[He Hf] Hg]. apply Z.ltb_lt in He. apply Z.eqb_eq in Hf, Hg.
    rewrite Forall_forall in P. pose proof (P _ Hin) as Pq. cbn [fst] in Pq. pose proof (prime_ge2 q Pq) as Q2.
    assert (Dq : (q ^ e | n - 1)).
    { eapply Z.divide_trans; [|exact DF]. unfold F. clear - Hin. induction c as [|[[q' e'] a'] c IH]; [destruct Hin|]. cbn [map fst prod_powers]. destruct Hin as [E|Hin]; [injection E as -> -> ->; apply Z.divide_factor_l | apply Z.divide_mul_r, IH, Hin]. }
    destruct Dq as [k Ek]. assert (Hq : 0 < q ^ e) by (apply Z.pow_pos_nonneg; lia).
    rewrite !Zpow_mod_correct in * by lia.
    assert (Kpos : 0 < k) by (apply (Z.mul_pos_cancel_r k (q ^ e) Hq); lia).
    assert (D1 : (q ^ e | p - 1)).
    { apply (pock_part n p q e k a); try assumption; try lia.
      - apply eqm_mod_eq; [lia|]. rewrite Hf, Z.mod_1_l by lia. reflexivity.
      - etransitivity; [|exact Hg]. apply gcd_eqm, eqm_sub; [apply eqm_sym, eqm_mod; lia | apply eqm_refl]. }
    assert (QE' : Forall (fun qe => prime (fst qe) /\ 0 <= snd qe) (map fst l)).
    { apply Forall_forall. intros x Hx. rewrite Forall_forall in QE. apply QE. apply in_map_iff in Hx. destruct Hx as [y [<- Hy]]. apply in_map, I. right. exact Hy. }
    apply rel_prime_mul_divide; [apply prime_pow_rel_prod; auto; lia | exact D1 | apply IH; [intros y Hy; apply I; right; exact Hy | exact N2]]. }
  specialize (G c (incl_refl c) N). fold F in G. apply divide_pos_le in G; [|lia]. assert (F * F <= (p - 1) * (p - 1)) by (apply Z.mul_le_mono_nonneg; lia). lia.
Qed.

Ltac nodup := repeat (constructor; [cbn; intuition discriminate|]); constructor.
Ltac small_prime := apply fast_primeb_spec; vm_compute; reflexivity.
Lemma mersenne_61 : prime (2 ^ 61 - 1).
Proof. apply (pocklington _ [(1321, 1, 3); (331, 1, 3); (151, 1, 3); (61, 1, 2)]); [vm_compute; reflexivity | nodup|]. constructor; [small_prime|]. constructor; [small_prime|]. constructor; [small_prime|]. constructor; [small_prime|]. constructor. Qed.
Lemma prime_2931542417 : prime (2931542417).
Proof. apply (pocklington _ [(8707, 1, 3); (1913, 1, 3)]); [vm_compute; reflexivity | nodup|]. constructor; [small_prime|]. constructor; [small_prime|]. constructor. Qed.
Lemma mersenne_89 : prime (2 ^ 89 - 1).
Proof. apply (pocklington _ [(2931542417, 1, 3); (2113, 1, 3); (683, 1, 3)]); [vm_compute; reflexivity | nodup|]. constructor; [exact prime_2931542417|]. constructor; [small_prime|]. constructor; [small_prime|]. constructor. Qed.
Lemma prime_67254877 : prime (67254877).
Proof. apply (pocklington _ [(1097, 1, 2); (131, 1, 2)]); [vm_compute; reflexivity | nodup|]. constructor; [small_prime|]. constructor; [small_prime|]. constructor. Qed.
Lemma prime_28059810762433 : prime (28059810762433).
Proof. apply (pocklington _ [(67254877, 1, 3)]); [vm_compute; reflexivity | nodup|]. constructor; [exact prime_67254877|]. constructor. Qed.
Lemma prime_20394401 : prime (20394401).
Proof. apply (pocklington _ [(53, 1, 2); (37, 1, 3); (13, 1, 3)]); [vm_compute; reflexivity | nodup|]. constructor; [small_prime|]. constructor; [small_prime|]. constructor; [small_prime|]. constructor. Qed.
Lemma mersenne_107 : prime (2 ^ 107 - 1).
Proof. apply (pocklington _ [(28059810762433, 1, 3); (20394401, 1, 3)]); [vm_compute; reflexivity | nodup|]. constructor; [exact prime_28059810762433|]. constructor; [exact prime_20394401|]. constructor. Qed.
Lemma prime_77158673929 : prime (77158673929).
Proof. apply (pocklington _ [(699053, 1, 3)]); [vm_compute; reflexivity | nodup|]. constructor; [small_prime|]. constructor. Qed.
Lemma mersenne_127 : prime (2 ^ 127 - 1).
Proof. apply (pocklington _ [(77158673929, 1, 3); (649657, 1, 3); (92737, 1, 3)]); [vm_compute; reflexivity | nodup|]. constructor; [exact prime_77158673929|]. constructor; [small_prime|]. constructor; [small_prime|]. constructor. Qed.
