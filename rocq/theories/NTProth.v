(** * Proth's criterion, used to exhibit primes beyond 64 bits. *)
From Coq Require Import ZArith Znumtheory Zpow_facts List Lia Bool.
From Verif Require Import Base Spec Ext NT PBase PInteger POps PSprp.
Local Open Scope Z_scope.

Lemma pow_m1_order : forall p a d s, prime p -> Z.odd p = true -> 0 <= s -> 0 <= d -> a ^ (d * 2 ^ s) =[p]= -1 -> p =[2 ^ (s + 1)]= 1.
Proof.
  intros p a d s Hp Hpo Hs Hd C. pose proof (prime_ge2 p Hp). assert (H2 : 0 < 2 ^ s) by (apply Z.pow_pos_nonneg; lia).
  assert (Hds : 0 <= d * 2 ^ s) by (apply Z.mul_nonneg_nonneg; lia).
  assert (p3 : 3 <= p) by (destruct (Z.eq_dec p 2) as [->|]; [discriminate Hpo | lia]).
  assert (Hpa : ~ (p | a)).
  { intros Hpa. destruct (Z.eq_dec (d * 2 ^ s) 0) as [E|E].
    - rewrite E, Z.pow_0_r in C. apply (m1_neq_1 p); assumption.
    - assert (D : (p | -1)).
      { replace (-1) with (a ^ (d * 2 ^ s) - (a ^ (d * 2 ^ s) - -1)) by ring. apply Z.divide_sub_r; [|exact C].
        replace (d * 2 ^ s) with (Z.succ (d * 2 ^ s - 1)) by lia. rewrite Z.pow_succ_r by lia. apply Z.divide_mul_l. exact Hpa. }
      assert (D1 : (p | 1)) by (apply Z.divide_opp_r in D; exact D). apply divide_pos_le in D1; lia. }
  destruct (ztz_spec (p - 1)) as [Ht [e [Ee [He Hep]]]]; [lia|]. set (t := ztz (p - 1)) in *.
  destruct (Z.lt_ge_cases s t) as [Hst|Hst].
  - exists (2 ^ (t - (s + 1)) * e). rewrite Ee. replace t with (t - (s + 1) + (s + 1)) at 1 by lia. rewrite Z.pow_add_r by lia. ring.
  - exfalso. pose proof (fermat p a Hp Hpa) as F.
    assert (A1 : a ^ ((d * 2 ^ s) * e) =[p]= -1).
    { rewrite Z.pow_mul_r by lia. eapply eqm_trans; [apply eqm_pow; exact C|].
      destruct (Zodd_ex e) as [k Hk]; [apply Zodd_bool_iff; exact He|]. rewrite Hk.
      rewrite Z.pow_add_r, Z.pow_mul_r by lia. replace ((-1) ^ 2) with 1 by reflexivity. rewrite Z.pow_1_l by lia. apply eqm_refl. }
    assert (A2 : a ^ ((d * 2 ^ s) * e) =[p]= 1).
    { replace ((d * 2 ^ s) * e) with ((p - 1) * (2 ^ (s - t) * d)).
      - rewrite Z.pow_mul_r by nn.
        eapply eqm_trans; [apply eqm_pow; exact F|]. rewrite Z.pow_1_l; [apply eqm_refl|].
        apply Z.mul_nonneg_nonneg; [apply Z.pow_nonneg; lia | lia].
      - rewrite Ee. replace (2 ^ s) with (2 ^ t * 2 ^ (s - t)) by (rewrite <- Z.pow_add_r by lia; f_equal; lia). ring. }
    apply (m1_neq_1 p p3). eapply eqm_trans; [apply eqm_sym; exact A2 | exact A1].
Qed.

Theorem proth : forall n a d s, 0 <= s -> 1 <= d < 2 ^ (s + 1) -> n = d * 2 ^ (s + 1) + 1 -> a ^ (d * 2 ^ s) mod n = n - 1 -> prime n.
Proof.
  intros n a d s Hs Hd En Hm. assert (H2 : 2 <= 2 ^ (s + 1)) by (rewrite Z.pow_add_r by lia; pose proof (Z.pow_pos_nonneg 2 s ltac:(lia) Hs); lia).
  assert (Hn : 3 <= n) by nia. assert (Ho : Z.odd n = true).
  { rewrite En, Z.odd_add, Z.odd_mul, Z.odd_pow by lia. rewrite andb_false_r. reflexivity. }
  apply prime_no_small_divisor; [lia|]. intros p Hp Hle Hd'. pose proof (prime_ge2 p Hp).
  assert (C : a ^ (d * 2 ^ s) =[n]= -1).
  { apply eqm_mod_eq; [lia|]. rewrite Hm. apply (Z.mod_unique_pos _ _ (-1)); lia. }
  assert (O : p =[2 ^ (s + 1)]= 1) by (apply (pow_m1_order p a d s Hp (odd_divisor n p Ho Hd') Hs ltac:(lia) (eqm_divide n p _ _ Hd' C))).
  destruct O as [c O]. assert (1 <= c) by nia. assert (2 ^ (s + 1) + 1 <= p) by nia. nia.
Qed.

(** A prime of 65 bits. *)
Lemma prime_65 : prime 18446782556616523777.
Proof.
  apply (proth _ 5 16777251 39); [lia | | reflexivity |].
  - split; [lia | reflexivity].
  - rewrite <- (Zpow_mod_correct 5) by lia. vm_compute. reflexivity.
Qed.
