(** * C16-C18: Fermat and strong probable prime tests. *)
From Coq Require Import ZArith Znumtheory List Lia Bool.
From Verif Require Import Base Spec Ext NT PBase MInteger Ops POps MPrimality PSprp.
Import ListNotations.
Local Open Scope Z_scope.

Lemma valid_one : forall t, valid_ity t -> in_range t 1.
Proof. intros [w|] H; cbn [in_range valid_ity] in *; [|lia]. destruct H as [->|[->|[->|[->| ->]]]]; lia. Qed.

(** C16: is_sprp(n, a) decides exactly the strong probable prime definition. *)
Theorem C16_is_sprp_exact : forall f pf t n a, valid_ity t -> in_range t n -> in_range t a ->
  3 <= n -> Z.odd n = true ->
  exists b, is_sprp (uops f pf t) n a = Ret b /\ (b = true <-> strong_prp n a).
Proof.
  intros f pf t n a Ht Hn Ha H3 Ho. exists (z_sprp n a). split; [|apply z_sprp_spec; assumption].
  apply (is_sprp_law _ _ _ _ _ (uops_lawful f pf t) (valid_one t Ht)); [split; auto | split; auto | lia | lia].
Qed.

(** Even n >= 4: it tests a^(n-1) = +-1 (mod n); n = 2: a is odd. *)
Theorem C16_is_sprp_even : forall f pf t n a, valid_ity t -> in_range t n -> in_range t a ->
  2 <= n -> Z.odd n = false ->
  exists b, is_sprp (uops f pf t) n a = Ret b /\
    (b = true <-> a ^ (n - 1) mod n = 1 mod n \/ a ^ (n - 1) mod n = (-1) mod n).
Proof.
  intros f pf t n a Ht Hn Ha H2 Ho. exists (z_sprp n a). split.
  - apply (is_sprp_law _ _ _ _ _ (uops_lawful f pf t) (valid_one t Ht)); [split; auto | split; auto | lia | lia].
  - assert (Hz : ztz (n - 1) = 0).
    { assert (O1 : Z.odd (n - 1) = true) by (replace (n - 1) with (n + -1) by lia; rewrite Z.odd_add, Ho; reflexivity).
      destruct (n - 1) as [|p|p]; [reflexivity | destruct p; [reflexivity | discriminate O1 | reflexivity] | destruct p; [reflexivity | discriminate O1 | reflexivity]]. }
    unfold z_sprp, z_test_sprp. cbv zeta. rewrite Hz, Z.shiftr_0_r. change (Z.to_nat 0) with O. cbn [z_sprp_loop].
    destruct (Z.eqb_spec (a ^ (n - 1) mod n) (1 mod n)) as [E|E]; [cbn [orb]; tauto|].
    destruct (Z.eqb_spec (a ^ (n - 1) mod n) ((-1) mod n)) as [E1|E1]; cbn [orb]; [tauto|].
    split; [discriminate | tauto].
Qed.

Theorem C16_prime_passes_every_base : forall f pf t p a, valid_ity t -> in_range t p -> in_range t a ->
  prime p -> 3 <= p -> ~ (p | a) -> is_sprp (uops f pf t) p a = Ret true.
Proof.
  intros f pf t p a Ht Hn Ha Hp H3 Hd.
  assert (Ho : Z.odd p = true).
  { destruct (Z.odd p) eqn:E; [reflexivity|]. exfalso. assert (2 | p).
    { apply mod0_divide; [lia|]. rewrite Zmod_odd, E. reflexivity. }
    pose proof (prime_divides_prime 2 p prime_2 Hp H). lia. }
  destruct (C16_is_sprp_exact f pf t p a Ht Hn Ha H3 Ho) as [b [E H]].
  assert (b = true) as <- by (apply H, prime_strong_prp; assumption). exact E.
Qed.

(** n = 0 is rejected; n = 1 panics in debug builds on machine integers. *)
Theorem C16_zero_rejected : forall f pf t a, valid_ity t -> is_sprp (uops f pf t) 0 a = Ret false.
Proof.
  intros f pf t a Ht. unfold is_sprp, test_sprp, o_one, o_const. cbn [uops o_from o_ltb].
  rewrite from_prim_ok by (apply valid_one, Ht). reflexivity.
Qed.
Theorem C16_one_panics_debug : forall f w a, valid_ity (U w) -> is_sprp (uops f Debug (U w)) 1 a = Panic.
Proof.
  intros f w a Ht. cbn [valid_ity] in Ht. destruct Ht as [->|[->|[->|[->| ->]]]]; reflexivity.
Qed.

Example C16_case : is_sprp (uops BigTable Debug u64) 2047 2 = Ret true /\ is_sprp (uops BigTable Debug u64) 2047 3 = Ret false
  /\ strong_prp 2047 2 /\ ~ prime 2047.
Proof.
  split; [vm_compute; reflexivity|]. split; [vm_compute; reflexivity|]. split.
  - destruct (C16_is_sprp_exact BigTable Debug u64 2047 2) as [b [E H]]; try rng; try reflexivity; [cbn; tauto|].
    apply H. vm_compute in E. injection E as <-. reflexivity.
  - intros C. apply primeb_spec in C. vm_compute in C. discriminate.
Qed.

(** C17: a factor reported by test_sprp is a proper divisor. *)
Theorem C17_test_sprp_factor : forall f pf t n a g, valid_ity t -> in_range t n -> in_range t a -> 2 <= n ->
  test_sprp (uops f pf t) n a = Ret (inr g) -> (g | n) /\ 1 < g < n.
Proof.
  intros f pf t n a g Ht Hn Ha H2 E.
  destruct (test_sprp_law _ _ _ _ _ (uops_lawful f pf t) (valid_one t Ht) n a n a) as [o [E' Hs]];
    [split; auto | split; auto | lia | lia |].
  rewrite E in E'. injection E' as <-. destruct (z_test_sprp n a) as [b|g'] eqn:Ez; cbn [sumrel] in Hs; [contradiction|].
  destruct Hs as [-> _]. apply (z_test_sprp_right n a g' H2 Ez).
Qed.
(** Its verdict without a factor is the strong test; a factor is only reported when that test fails. *)
Theorem C17_test_sprp_verdict : forall f pf t n a, valid_ity t -> in_range t n -> in_range t a -> 3 <= n -> Z.odd n = true ->
  exists o, test_sprp (uops f pf t) n a = Ret o /\
    match o with inl b => b = true <-> strong_prp n a | inr _ => ~ strong_prp n a /\ ~ prime n end.
Proof.
  intros f pf t n a Ht Hn Ha H3 Ho.
  destruct (test_sprp_law _ _ _ _ _ (uops_lawful f pf t) (valid_one t Ht) n a n a) as [o [E' Hs]];
    [split; auto | split; auto | lia | lia |].
  exists o. split; [exact E'|]. pose proof (z_test_sprp_spec n a H3 Ho) as HL.
  destruct o as [b|g], (z_test_sprp n a) as [b'|g']; cbn [sumrel] in Hs; try contradiction; [subst; exact HL|].
  destruct HL as [A [B C]]. split; [exact C|]. intros Hp. apply prime_divisors with (a := g') in Hp; [lia | exact A].
Qed.
Example C17_case : test_sprp (uops BigTable Release u64) 65 8 = Ret (inl true) /\ test_sprp (uops BigTable Release u64) 341 2 = Ret (inr 31)
  /\ test_sprp (uops BigTable Release u64) 561 2 = Ret (inr 33).
Proof. vmc. Qed.

(** C18: is_prp is the Fermat test. *)
Theorem C18_is_prp_exact : forall f pf t n a, valid_ity t -> in_range t n -> in_range t a -> 2 <= n ->
  exists b, is_prp (uops f pf t) n a = Ret b /\ (b = true <-> fermat_prp n a).
Proof.
  intros f pf t n a Ht Hn Ha H2. exists (z_prp n a). split.
  - apply (is_prp_law _ _ _ _ _ (uops_lawful f pf t) (valid_one t Ht)); [split; auto | split; auto | lia | lia].
  - unfold z_prp, fermat_prp. rewrite (Z.mod_small 1) by lia. apply Z.eqb_eq.
Qed.
Theorem C18_prime_passes_every_base : forall f pf t p a, valid_ity t -> in_range t p -> in_range t a ->
  prime p -> ~ (p | a) -> is_prp (uops f pf t) p a = Ret true.
Proof.
  intros f pf t p a Ht Hn Ha Hp Hd. pose proof (prime_ge2 p Hp) as H2.
  destruct (C18_is_prp_exact f pf t p a Ht Hn Ha H2) as [b [E H]]. assert (b = true) as <-; [|exact E].
  apply H. unfold fermat_prp. apply modN_eqm; [lia|]. apply fermat; assumption.
Qed.
Example C18_case : is_prp (uops BigTable Debug u64) 561 2 = Ret true /\ is_prp (uops BigTable Debug u64) 561 3 = Ret false
  /\ is_prp (uops BigTable Debug u64) 4294967291 7 = Ret true.
Proof. vmc. Qed.

Print Assumptions C16_is_sprp_exact.
Print Assumptions C16_is_sprp_even.
Print Assumptions C16_prime_passes_every_base.
Print Assumptions C16_zero_rejected.
Print Assumptions C16_one_panics_debug.
Print Assumptions C17_test_sprp_factor.
Print Assumptions C17_test_sprp_verdict.
Print Assumptions C18_is_prp_exact.
Print Assumptions C18_prime_passes_every_base.
