(** * Primality certificates on N - 1 (Pocklington) and N + 1 (Morrison), evaluated on the Bignums library. *)
From Coq Require Import ZArith Znumtheory Zpow_facts List Lia Bool.
From Verif Require Import Base Spec Ext NT PBase NTLegendre NTLucas NTPock PBig.
Import ListNotations.
Local Open Scope Z_scope.

(** ** Pocklington *)
Definition bpock_checks (n : Z) (c : list (Z * Z * Z)) : bool :=
  (1 <? n) &&
  (let F := prod_powers (map fst c) in (n <? F * F) && ((n - 1) mod F =? 0)) &&
  forallb (fun '(q, e, a) => (0 <? e) && (1 <=? (n - 1) / q) && (zbpow n a (n - 1) =? 1) && (Z.gcd (zbpow n a ((n - 1) / q) - 1) n =? 1)) c.
Theorem bpocklington : forall n c, bpock_checks n c = true -> NoDup (map fst (map fst c)) -> Forall (fun qea => prime (fst (fst qea))) c -> prime n.
Proof.
  intros n c H N P. apply (pocklington n c); try assumption. unfold bpock_checks in H. unfold pock_checks. rewrite !andb_true_iff in *. destruct H as [[H1 H2] H3]. split; [split; assumption|].
  rewrite forallb_forall in *. intros [[q e] a] Hin. specialize (H3 _ Hin). cbn beta iota in H3. rewrite !andb_true_iff in *. destruct H3 as [[[A B] C] D]. apply Z.leb_le in B. apply Z.ltb_lt in H1.
  rewrite zbpow_spec in C, D by lia. rewrite !Zpow_mod_correct by lia. auto.
Qed.

(** ** Morrison *)
Section Rank.
Variables P Q r : Z.
Notation U := (lucasU P Q).
Hypothesis Pr : prime r.
Hypothesis NQ : ~ (r | Q).
Lemma ndiv_pow : forall k, 0 <= k -> ~ (r | Q ^ k).
Proof. intros k Hk C. apply NQ. exact (prime_div_pow r Q k Pr Hk C). Qed.
Lemma U_gcd : forall a b, 0 < a -> 0 < b -> (r | U a) -> (r | U b) -> (r | U (Z.gcd a b)).
Proof.
  intros a b Ha Hb Da Db. destruct (Z.gcd_bezout a b (Z.gcd a b) eq_refl) as [u [v E]].
  pose (t := Z.abs u + Z.abs v). assert (Hu : 0 <= u + t * b) by (unfold t; nia). assert (Hv : 0 <= t * a - v) by (unfold t; nia).
  assert (G : 0 <= Z.gcd a b) by apply Z.gcd_nonneg. set (g := Z.gcd a b) in *.
  assert (F : a * (u + t * b) = g + b * (t * a - v)) by (rewrite <- E; ring).
  pose proof (U_divides P Q r a (u + t * b) ltac:(lia) Hu Da) as A. pose proof (U_divides P Q r b (t * a - v) ltac:(lia) Hv Db) as B. rewrite F in A.
  set (w := b * (t * a - v)) in *. assert (W : 0 <= w) by (unfold w; nia). rewrite U_add in A by lia.
  assert (C : (r | U g * U (w + 1))).
  { replace (U g * U (w + 1)) with ((U g * U (w + 1) + U w * U (g + 1) - P * U g * U w) - U w * (U (g + 1) - P * U g)) by ring. apply Z.divide_sub_r; [exact A | apply Z.divide_mul_l, B]. }
  destruct (prime_mult r Pr _ _ C) as [C1|C1]; [exact C1|]. exfalso. apply (ndiv_pow w W). rewrite <- (U_norm P Q w W).
  replace (U (w + 1) * U (w + 1) - P * U (w + 1) * U w + Q * U w * U w) with (U (w + 1) * (U (w + 1) - P * U w) + U w * (Q * U w)) by ring.
  apply Z.divide_add_r; apply Z.divide_mul_l; assumption.
Qed.
(** the part of the index that a prime power contributes *)
Lemma rank_part : forall N k q e, 0 < N -> 0 < k -> prime q -> 0 < e -> (q ^ e | N) -> (r | U N) -> (r | U k) -> ~ (r | U (N / q)) -> (q ^ e | k).
Proof.
  intros N k q e HN Hk Pq He Dq DN Dk ND. pose proof (prime_ge2 q Pq) as Q2. pose proof (U_gcd N k HN Hk DN Dk) as Dg. destruct (Z.gcd_divide_l N k) as [h Eh]. set (g := Z.gcd N k) in *.
  assert (Gp : 0 < g). { assert (0 <= g) by apply Z.gcd_nonneg. assert (g <> 0) by (intros C; rewrite C in Eh; lia). lia. }
  assert (Nh : ~ (q | h)).
  { intros [j Ej]. apply ND. replace (N / q) with (g * j). { apply U_divides; [lia | nia | exact Dg]. } rewrite Eh, Ej. replace (j * q * g) with (g * j * q) by ring. symmetry. apply Z.div_mul. lia. }
  assert (R : rel_prime (q ^ e) h). { apply rel_prime_sym. apply rel_prime_Zpower_r; [lia|]. apply rel_prime_sym, prime_rel_prime; assumption. }
  rewrite Eh in Dq. apply Gauss in Dq; [|exact R]. eapply Z.divide_trans; [exact Dq | apply Z.gcd_divide_r].
Qed.
End Rank.

Definition morrison_checks (n P Q : Z) (c : list (Z * Z)) : bool :=
  (3 <=? n) && Z.odd n && (Z.gcd Q n =? 1) &&
  (let F := prod_powers c in (2 <? F) && (n <? (F - 1) * (F - 1)) && ((n + 1) mod F =? 0)) && (zbluc n P Q (n + 1) =? 0) &&
  forallb (fun '(q, e) => (0 <? e) && (1 <=? (n + 1) / q) && (Z.gcd (zbluc n P Q ((n + 1) / q)) n =? 1)) c.
Theorem morrison : forall n P Q c, morrison_checks n P Q c = true -> NoDup (map fst c) -> Forall (fun qe => prime (fst qe)) c -> prime n.
Proof.
  intros n P Q c H ND PC. unfold morrison_checks in H. rewrite !andb_true_iff in H. destruct H as [[[[[H1 H2] H3] [[H4 H5] H6]] H7] HC]. apply Z.leb_le in H1. apply Z.eqb_eq in H3, H6, H7. apply Z.ltb_lt in H4, H5.
  set (F := prod_powers c) in *. rewrite zbluc_spec in H7 by lia. assert (DF : (F | n + 1)) by (apply Z.mod_divide; lia). apply Z.mod_divide in H7; [|lia].
  assert (QE : Forall (fun qe => prime (fst qe) /\ 0 <= snd qe) c).
  { apply Forall_forall. intros [q e] Hin. rewrite Forall_forall in PC. specialize (PC _ Hin). cbn [fst snd] in *. rewrite forallb_forall in HC. specialize (HC _ Hin). cbn beta iota in HC. rewrite !andb_true_iff in HC. destruct HC as [[He _] _]. apply Z.ltb_lt in He. split; [exact PC | lia]. }
  apply prime_no_small_divisor; [lia|]. intros r Pr Hle Dr. pose proof (prime_ge2 r Pr) as R2.
  assert (Or : Z.odd r = true). { destruct Dr as [k Ek]. rewrite Ek, Z.odd_mul in H2. apply andb_true_iff in H2. apply H2. }
  assert (NQ : ~ (r | Q)). { intros C. assert (D1 : (r | Z.gcd Q n)) by (apply Z.gcd_greatest; assumption). rewrite H3 in D1. apply divide_pos_le in D1; lia. }
  pose proof (U_prime_index P Q r Pr Or (or_introl NQ)) as DU. set (eps := legendre (P * P - 4 * Q) r) in *.
  assert (Be : -1 <= eps <= 1) by (unfold eps, legendre; repeat match goal with |- context [if ?b then _ else _] => destruct b end; lia).
  assert (G : forall l, incl l c -> NoDup (map fst l) -> (prod_powers l | r - eps)).
  { induction l as [|[q e] l IH]; intros I N; cbn [prod_powers]; [apply Z.divide_1_l|]. cbn [map fst] in N. inversion N as [|? ? N1 N2]; subst.
    assert (Hin : In (q, e) c) by (apply I; left; reflexivity). rewrite forallb_forall in HC. pose proof (HC _ Hin) as Hc. cbn beta iota in Hc. rewrite !andb_true_iff in Hc. destruct Hc as [[He Hq] Hg]. apply Z.ltb_lt in He. apply Z.leb_le in Hq. apply Z.eqb_eq in Hg.
    rewrite zbluc_spec in Hg by lia. rewrite Forall_forall in PC. pose proof (PC _ Hin) as Pq. cbn [fst] in Pq.
    assert (Dq : (q ^ e | n + 1)).
    { eapply Z.divide_trans; [|exact DF]. unfold F. clear - Hin. induction c as [|[q' e'] c IH]; [destruct Hin|]. cbn [prod_powers]. destruct Hin as [E|Hin]; [injection E as -> ->; apply Z.divide_factor_l | apply Z.divide_mul_r, IH, Hin]. }
    assert (D1 : (q ^ e | r - eps)).
    { apply (rank_part P Q r Pr NQ (n + 1) (r - eps) q e); try assumption; try lia; [exact (Z.divide_trans _ _ _ Dr H7)|].
      intros C. assert (D1 : (r | Z.gcd (lucasU P Q ((n + 1) / q) mod n) n)).
      { apply Z.gcd_greatest; [|exact Dr]. rewrite Z.mod_eq by lia. apply Z.divide_sub_r; [exact C | apply Z.divide_mul_l, Dr]. }
      rewrite Hg in D1. apply divide_pos_le in D1; lia. }
    assert (QE' : Forall (fun qe => prime (fst qe) /\ 0 <= snd qe) l) by (apply Forall_forall; intros x Hx; rewrite Forall_forall in QE; apply QE, I; right; exact Hx).
    apply rel_prime_mul_divide; [apply prime_pow_rel_prod; auto; lia | exact D1 | apply IH; [intros y Hy; apply I; right; exact Hy | exact N2]]. }
  specialize (G c (incl_refl c) ND). fold F in G. apply divide_pos_le in G; [|lia]. assert ((F - 1) * (F - 1) <= r * r) by (apply Z.mul_le_mono_nonneg; lia). lia.
Qed.
