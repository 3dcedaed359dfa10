(** * C23: the probable prime tests on Montgomery-wrapped integers (SmallMint) agree with plain integers.
    A value enters the wrapped type in its plain form, [ML n]. *)
From Coq Require Import ZArith Znumtheory List Lia Bool.
From Verif Require Import Base Spec Ext NT NTLegendre PBase MInteger Ops POps MPrimality PSprp PropSprp PLucas PLucas2 PLucas3.
Import ListNotations.
Local Open Scope Z_scope.

Section Agree.
Variables (f : feature) (pf : profile) (t : ity) (n : Z).
Hypotheses (Ht : valid_ity t) (Hn : in_range t n) (H3 : 3 <= n) (Ho : Z.odd n = true).
Let okU : (fun N => 1 <= N) n. Proof. cbv beta. lia. Qed.
Let okM : (fun N => 1 <= N /\ Z.odd N = true) n. Proof. split; [lia | exact Ho]. Qed.
Let vU : UV t n n. Proof. split; auto. Qed.
Let vM : MV t (ML n) n. Proof. split; auto. Qed.

Lemma agree_prp : forall a, in_range t a -> is_prp (mops pf t) (ML n) (ML a) = is_prp (uops f pf t) n a.
Proof.
  intros a Ha. rewrite (is_prp_law _ _ _ _ _ (uops_lawful f pf t) (valid_one t Ht) n a n a) by (assumption || (split; auto) || lia).
  apply (is_prp_law _ _ _ _ _ (mops_lawful pf t) (valid_one t Ht)); (assumption || (split; auto) || lia).
Qed.
Lemma agree_sprp : forall a, in_range t a -> is_sprp (mops pf t) (ML n) (ML a) = is_sprp (uops f pf t) n a.
Proof.
  intros a Ha. rewrite (is_sprp_law _ _ _ _ _ (uops_lawful f pf t) (valid_one t Ht) n a n a) by (assumption || (split; auto) || lia).
  apply (is_sprp_law _ _ _ _ _ (mops_lawful pf t) (valid_one t Ht)); (assumption || (split; auto) || lia).
Qed.
Lemma agree_test_sprp : forall a, in_range t a -> exists o, test_sprp (uops f pf t) n a = Ret o /\
  test_sprp (mops pf t) (ML n) (ML a) = Ret (match o with inl b => inl b | inr g => inr (ML g) end).
Proof.
  intros a Ha.
  destruct (test_sprp_law _ _ _ _ _ (uops_lawful f pf t) (valid_one t Ht) n a n a) as [o [E Hs]]; [assumption | split; auto | assumption | lia|].
  destruct (test_sprp_law _ _ _ _ _ (mops_lawful pf t) (valid_one t Ht) (ML n) (ML a) n a) as [o' [E' Hs']]; [assumption | split; auto | assumption | lia|].
  exists o. split; [exact E|]. rewrite E'. f_equal. destruct o as [b|g], (z_test_sprp n a) as [b1|g1]; cbn [sumrel] in Hs; try contradiction;
    destruct o' as [b'|g']; cbn [sumrel] in Hs'; try contradiction.
  - subst. reflexivity.
  - destruct Hs as [-> _]. destruct Hs' as [-> _]. reflexivity.
Qed.
Lemma agree_lprp : forall fuel P Q, in_range t (n + 1) -> params_ok t P Q ->
  is_lprp pf (mops pf t) fuel (ML n) (Some P) (Some Q) = is_lprp pf (uops f pf t) fuel n (Some P) (Some Q).
Proof.
  intros fuel P Q H1 Hpar.
  rewrite (is_lprp_explicit pf _ t _ _ _ (uops_lawful f pf t) (valid_one t Ht) fuel n n P Q) by assumption.
  apply (is_lprp_explicit pf _ t _ _ _ (mops_lawful pf t) (valid_one t Ht)); assumption.
Qed.
Lemma agree_slprp : forall fuel P Q, in_range t (n + 1) -> params_ok t P Q ->
  is_slprp pf (mops pf t) fuel (ML n) (Some P) (Some Q) = is_slprp pf (uops f pf t) fuel n (Some P) (Some Q).
Proof.
  intros fuel P Q H1 Hpar.
  rewrite (is_slprp_explicit pf _ t _ _ _ (uops_lawful f pf t) (valid_one t Ht) fuel n n P Q) by assumption.
  apply (is_slprp_explicit pf _ t _ _ _ (mops_lawful pf t) (valid_one t Ht)); assumption.
Qed.
Lemma agree_auto : forall fuel, (Z.of_nat fuel <= 2 ^ 61 \/ n < 2 ^ 120) ->
  is_lprp pf (mops pf t) fuel (ML n) None None = is_lprp pf (uops f pf t) fuel n None None /\
  is_slprp pf (mops pf t) fuel (ML n) None None = is_slprp pf (uops f pf t) fuel n None None.
Proof.
  intros fuel Hf. destruct (self_at_exists n ltac:(lia) Ho) as [e Ha]. assert (H1 : 1 <= n) by lia. split.
  - rewrite (is_lprp_auto pf _ t _ _ _ (uops_lawful f pf t) Ht fuel n n e None None); auto.
    apply (is_lprp_auto pf _ t _ _ _ (mops_lawful pf t) Ht); auto.
  - rewrite (is_slprp_auto pf _ t _ _ _ (uops_lawful f pf t) Ht fuel n n e None None); auto.
    apply (is_slprp_auto pf _ t _ _ _ (mops_lawful pf t) Ht); auto.
Qed.
End Agree.

Theorem C23_prp_agrees : forall f pf t n a, valid_ity t -> in_range t n -> in_range t a -> 3 <= n -> Z.odd n = true ->
  is_prp (mops pf t) (ML n) (ML a) = is_prp (uops f pf t) n a /\ is_sprp (mops pf t) (ML n) (ML a) = is_sprp (uops f pf t) n a.
Proof. intros. split; [apply agree_prp | apply agree_sprp]; assumption. Qed.
Theorem C23_test_sprp_agrees : forall f pf t n a, valid_ity t -> in_range t n -> in_range t a -> 3 <= n -> Z.odd n = true ->
  exists o, test_sprp (uops f pf t) n a = Ret o /\
    test_sprp (mops pf t) (ML n) (ML a) = Ret (match o with inl b => inl b | inr g => inr (ML g) end).
Proof. intros. apply agree_test_sprp; assumption. Qed.
Theorem C23_lucas_agrees : forall f pf t n fuel, valid_ity t -> in_range t n -> 3 <= n -> Z.odd n = true ->
  (Z.of_nat fuel <= 2 ^ 61 \/ n < 2 ^ 120) ->
  is_lprp pf (mops pf t) fuel (ML n) None None = is_lprp pf (uops f pf t) fuel n None None /\
  is_slprp pf (mops pf t) fuel (ML n) None None = is_slprp pf (uops f pf t) fuel n None None.
Proof. intros. apply agree_auto; assumption. Qed.
Theorem C23_lucas_explicit_agrees : forall f pf t n fuel P Q, valid_ity t -> in_range t n -> in_range t (n + 1) -> 3 <= n -> Z.odd n = true ->
  params_ok t P Q ->
  is_lprp pf (mops pf t) fuel (ML n) (Some P) (Some Q) = is_lprp pf (uops f pf t) fuel n (Some P) (Some Q) /\
  is_slprp pf (mops pf t) fuel (ML n) (Some P) (Some Q) = is_slprp pf (uops f pf t) fuel n (Some P) (Some Q).
Proof. intros. split; [apply agree_lprp | apply agree_slprp]; assumption. Qed.
(** The extra strong Lucas test mixes residues with the plain constant 2: it hits
    [unreachable!()] on the wrapped type, e.g. at the primes 7 and 61. *)
Theorem C23_eslprp_refuted : forall pf, is_eslprp pf (mops pf u64) 20 (ML 7) None = Panic /\ is_eslprp pf (uops BigTable pf u64) 20 7 None = Ret true
  /\ is_eslprp pf (mops pf u64) 20 (ML 61) None = Panic /\ is_eslprp pf (uops BigTable pf u64) 20 61 None = Ret true.
Proof. intros [|]; vmc. Qed.
Example C23_case : is_sprp (mops Debug u64) (ML 2047) (ML 2) = Ret true /\ test_sprp (mops Debug u64) (ML 341) (ML 2) = Ret (inr (ML 31))
  /\ is_slprp Debug (mops Debug u64) 20 (ML 5459) None None = Ret true /\ is_lprp Debug (mops Debug u64) 20 (ML 323) None None = Ret true
  /\ is_prp (mops Debug u64) (ML 561) (ML 2) = Ret true.
Proof. vmc. Qed.

Print Assumptions C23_prp_agrees.
Print Assumptions C23_test_sprp_agrees.
Print Assumptions C23_lucas_agrees.
Print Assumptions C23_lucas_explicit_agrees.
Print Assumptions C23_eslprp_refuted.
