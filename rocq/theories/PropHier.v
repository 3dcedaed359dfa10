(** * C69: the probable prime tests form a hierarchy. *)
From Coq Require Import ZArith Znumtheory List Lia Bool.
From Verif Require Import Base Spec Ext NT NTLegendre NTLucas PBase MInteger Ops POps MPrimality PSprp PropSprp PLucas PLucas2 PLucas3 PropLucas.
Import ListNotations.
Local Open Scope Z_scope.

Lemma strong_is_fermat : forall n a, 3 <= n -> strong_prp n a -> fermat_prp n a.
Proof.
  intros n a Hn [d [s [Hs [Hd [E C]]]]]. unfold fermat_prp. rewrite E.
  assert (D0 : 0 <= d) by (assert (0 < 2 ^ s) by (apply Z.pow_pos_nonneg; lia); nia). apply modN_eqm; [lia|].
  destruct C as [C|[r [Hr C]]]; apply modN_eqm in C; try lia.
  - rewrite Z.pow_mul_r by (try lia; apply Z.pow_nonneg; lia). eapply eqm_trans; [apply eqm_pow; exact C |]. rewrite Z.pow_1_l by (apply Z.pow_nonneg; lia). apply eqm_refl.
  - replace (2 ^ s) with (2 ^ r * (2 * 2 ^ (s - r - 1))) by (rewrite <- Z.pow_succ_r, <- Z.pow_add_r by lia; f_equal; lia).
    rewrite Z.mul_assoc. assert (P1 : 0 <= 2 ^ r) by (apply Z.pow_nonneg; lia). assert (P2 : 0 <= 2 ^ (s - r - 1)) by (apply Z.pow_nonneg; lia).
    rewrite Z.pow_mul_r by nia. eapply eqm_trans; [apply eqm_pow; exact C |].
    rewrite Z.pow_mul_r by lia. change ((-1) ^ 2) with 1. rewrite Z.pow_1_l by lia. apply eqm_refl.
Qed.
Lemma strong_is_lucas : forall n P Q, 3 <= n -> strong_lucas_prp n P Q -> lucas_prp n P Q.
Proof.
  intros n P Q Hn [d [s [Hs [Hd [E C]]]]]. unfold lucas_prp. rewrite E. pose proof (delta_pos n P Q Hn) as Hp. rewrite E in Hp.
  assert (D0 : 0 <= d) by (assert (0 < 2 ^ s) by (apply Z.pow_pos_nonneg; lia); nia). apply mod0_divide; [lia|].
  destruct C as [C|[r [Hr C]]]; apply mod0_divide in C; try lia.
  - apply U_divides; [exact D0 | apply Z.pow_nonneg; lia | exact C].
  - replace (2 ^ s) with (2 * 2 ^ r * 2 ^ (s - r - 1)) by (rewrite <- Z.pow_succ_r, <- Z.pow_add_r by lia; f_equal; lia).
    replace (d * (2 * 2 ^ r * 2 ^ (s - r - 1))) with (2 * (d * 2 ^ r) * 2 ^ (s - r - 1)) by ring. assert (P1 : 0 <= 2 ^ r) by (apply Z.pow_nonneg; lia).
    apply U_divides; [nia | apply Z.pow_nonneg; lia |]. rewrite U_double by nia. apply Z.divide_mul_r. exact C.
Qed.
Lemma extra_is_strong : forall n P, extra_strong_lucas_prp n P -> strong_lucas_prp n P 1.
Proof.
  intros n P [d [s [Hs [Hd [E C]]]]]. exists d, s. split; [exact Hs|]. split; [exact Hd|]. replace (P * P - 4 * 1) with (P * P - 4) by ring. split; [exact E|].
  destruct C as [[C _]|[r [Hr C]]]; [left; exact C | right; exists r; split; [lia | exact C]].
Qed.

(** A number passing the strong test to a base passes the Fermat test to that base. *)
Theorem C69_sprp_is_prp : forall f pf t n a, valid_ity t -> in_range t n -> in_range t a -> 3 <= n -> Z.odd n = true ->
  is_sprp (uops f pf t) n a = Ret true -> is_prp (uops f pf t) n a = Ret true.
Proof.
  intros f pf t n a Ht Hn Ha H3 Ho E. destruct (C16_is_sprp_exact f pf t n a Ht Hn Ha H3 Ho) as [b [E1 B]]. rewrite E1 in E. injection E as ->.
  destruct (C18_is_prp_exact f pf t n a Ht Hn Ha ltac:(lia)) as [c [-> Cc]]. f_equal. apply Cc, strong_is_fermat, B; [exact H3 | reflexivity].
Qed.
(** The strong Lucas test accepts no number the Lucas test with the same parameters rejects, the extra strong one
    none that the strong one rejects. *)
Theorem C69_slprp_is_lprp : forall f pf t fuel n P Q, valid_ity t -> in_range t n -> in_range t (n + 1) -> Z.odd n = true -> 3 <= n -> params_ok t P Q -> rel_prime (P * P - 4 * Q) n ->
  is_slprp pf (uops f pf t) fuel n (Some P) (Some Q) = Ret true -> is_lprp pf (uops f pf t) fuel n (Some P) (Some Q) = Ret true.
Proof.
  intros f pf t fuel n P Q Ht Hn Hn1 Ho H3 Hp Hr E. destruct (C22_slprp_exact f pf t fuel n P Q Ht Hn Hn1 Ho H3 Hp Hr) as [b [E1 B]]. rewrite E1 in E. injection E as ->.
  destruct (C22_lprp_exact f pf t fuel n P Q Ht Hn Hn1 Ho H3 Hp) as [c [-> Cc]]. f_equal. apply Cc, strong_is_lucas, B; [exact H3 | reflexivity].
Qed.
Theorem C69_eslprp_is_slprp : forall f pf t fuel n P, valid_ity t -> in_range t n -> in_range t (n + 1) -> Z.odd n = true -> 3 <= n -> params_ok t P 1 -> rel_prime (P * P - 4) n -> Z.log2 (n + 1) < 2 ^ 64 ->
  is_eslprp pf (uops f pf t) fuel n (Some P) = Ret true -> is_slprp pf (uops f pf t) fuel n (Some P) (Some 1) = Ret true.
Proof.
  intros f pf t fuel n P Ht Hn Hn1 Ho H3 Hp Hr Hl E. destruct (C22_eslprp_exact f pf t fuel n P Ht Hn Hn1 Ho H3 Hp Hr Hl) as [b [E1 B]]. rewrite E1 in E. injection E as ->.
  destruct (C22_slprp_exact f pf t fuel n P 1 Ht Hn Hn1 Ho H3 Hp) as [c [-> Cc]]; [replace (P * P - 4 * 1) with (P * P - 4) by ring; exact Hr|]. f_equal. apply Cc, extra_is_strong, B. reflexivity.
Qed.
(** With automatic parameters both tests choose the same discriminant, so the same holds for every odd number. *)
Theorem C69_slprp_is_lprp_auto : forall f pf t fuel n, valid_ity t -> in_range t n -> Z.odd n = true -> 1 <= n -> Z.of_nat fuel <= 2 ^ 61 \/ n < 2 ^ 120 ->
  is_slprp pf (uops f pf t) fuel n None None = Ret true -> is_lprp pf (uops f pf t) fuel n None None = Ret true.
Proof.
  intros f pf t fuel n Ht Hn Ho H1 Hf. destruct (self_at_exists n H1 Ho) as [e Ha]. assert (HV : UV t n n) by (split; auto).
  rewrite (is_lprp_auto pf _ t _ _ _ (uops_lawful f pf t) Ht fuel n n e None None HV ltac:(cbv beta; lia) Ho H1 Ha Hf (or_introl eq_refl)).
  rewrite (is_slprp_auto pf _ t _ _ _ (uops_lawful f pf t) Ht fuel n n e None None HV ltac:(cbv beta; lia) Ho H1 Ha Hf (or_introl eq_refl)).
  destruct (_ <=? _); [discriminate|]. unfold z_auto. destruct (usable n e) eqn:Eu; [|discriminate]. intros E. injection E as E. f_equal.
  assert (H3 : 3 <= n) by (eapply usable_3; eassumption). apply z_lprp_spec, strong_is_lucas; [exact H3|].
  apply z_slprp_spec; [exact H3 | exact Ho | | exact E]. pose proof Ha as [Oe _]. rewrite (self_Q_D e Oe), (self_usable n e Ha Eu). lia.
Qed.
(** None of the implications can be reversed. *)
Theorem C69_converse_refuted : forall f pf,
  (is_prp (uops f pf u64) 341 2 = Ret true /\ is_sprp (uops f pf u64) 341 2 = Ret false) /\
  (is_lprp pf (uops f pf u64) 100 323 None None = Ret true /\ is_slprp pf (uops f pf u64) 100 323 None None = Ret false) /\
  (is_slprp pf (uops f pf u64) 100 35 (Some 6) (Some 1) = Ret true /\ is_eslprp pf (uops f pf u64) 100 35 (Some 6) = Ret false).
Proof. intros [|] [|]; vmc. Qed.
Example C69_case : is_sprp (uops BigTable Debug u64) 2047 2 = Ret true /\ is_prp (uops BigTable Debug u64) 2047 2 = Ret true /\ is_slprp Debug (uops BigTable Debug u64) 100 5459 None None = Ret true /\
  is_lprp Debug (uops BigTable Debug u64) 100 5459 None None = Ret true /\ is_eslprp Debug (uops BigTable Debug u64) 100 989 (Some 4) = Ret true /\ params_ok u64 4 1.
Proof. do 5 (split; [vmc|]). unfold params_ok, u64. cbn [in_range]. change (Z.abs 1) with 1. change (Z.abs (4 * 4 - 4 * 1)) with 12. repeat split; lia. Qed.

Print Assumptions C69_sprp_is_prp.
Print Assumptions C69_slprp_is_lprp.
Print Assumptions C69_eslprp_is_slprp.
Print Assumptions C69_slprp_is_lprp_auto.
Print Assumptions C69_converse_refuted.
