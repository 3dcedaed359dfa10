(** * The assertions of the crate's own unit tests, concluded (C68): the Lucas tests below 10000. *)
From Coq Require Import ZArith Znumtheory List Lia Bool.
From Verif Require Import Base Tables Spec Ext NT PBase PTables MInteger PInteger Ops POps MPrimality MTraits PSprp NTRecip PFast PTests PLucas PropTests PropSmall MIsPrime PIsPrime PExact PropLucas PropHier.
Import ListNotations.
Local Open Scope Z_scope.

(** ** src/primality.rs:511-629 lucas_prp_test. Every loop of the test looks at random numbers below 10000 and skips
    the ones that pass strong tests to base 2 and 3; here all odd numbers are decided, primes included. *)
Lemma even_lprp : forall f pf t lf n p q, valid_ity t -> in_range t n -> Z.even n = true ->
  is_lprp pf (uops f pf t) lf n p q = Ret false /\ is_slprp pf (uops f pf t) lf n p q = Ret false /\ is_eslprp pf (uops f pf t) lf n p = Ret false.
Proof.
  intros f pf t lf n p q Ht Hn He. unfold is_lprp, is_slprp, is_eslprp. cbn [uops o_is_even]. rewrite He.
  assert (E : o_one (uops f pf t) = Ret 1) by (unfold o_one, o_const; cbn [uops o_from]; rewrite from_prim_ok by (destruct t as [w|]; cbn [valid_ity in_range] in *; [decompose [or] Ht; subst w; lia | lia]); reflexivity). rewrite E. cbn [bind uops o_ltb].
  destruct (n <? 1); repeat split; reflexivity.
Qed.
Definition says (r : res bool) (b : bool) : bool := match r with Ret x => Bool.eqb x b | _ => false end.
Lemma says_eq : forall r b, says r b = true -> r = Ret b.
Proof. intros [x| |] b H; try discriminate. cbn in H. apply Bool.eqb_prop in H. congruence. Qed.
(** all odd numbers from [z] on, [n] of them *)
Fixpoint all_odd (n : nat) (z : Z) (P : Z -> bool) : bool := match n with O => true | S n' => P z && all_odd n' (z + 2) P end.
Lemma all_odd_spec : forall n z P, all_odd n z P = true -> Z.odd z = true -> forall x, Z.odd x = true -> z <= x < z + 2 * Z.of_nat n -> P x = true.
Proof.
  induction n as [|n IH]; intros z P H Oz x Ox Hx; [lia|]. cbn [all_odd] in H. apply andb_true_iff in H. destruct H as [H1 H2].
  destruct (Z.eq_dec x z) as [->|N]; [exact H1|]. apply (IH (z + 2) P H2); [rewrite Z.odd_add, Oz; reflexivity | exact Ox|].
  assert (x <> z + 1) by (intros ->; rewrite Z.odd_add, Oz in Ox; discriminate). lia.
Qed.
Definition F16 := fops BigTable Debug (U 16).
Definition lpsp : list Z := [323; 377; 1159; 1829; 3827; 5459; 5777; 9071; 9179].
Definition slpsp : list Z := [5459; 5777].
Definition eslpsp : list Z := [989; 3239; 5777].
Definition expect (l : list Z) (n : Z) : bool := same_bool (is_prime64 BigTable Debug n) true || existsb (Z.eqb n) l.
Lemma expect_spec : forall l n, n < 2 ^ 20 -> expect l n = true <-> prime n \/ In n l.
Proof.
  intros l n Hn. unfold expect. destruct (exact64 BigTable Debug n Hn) as [b [-> B]]. rewrite orb_true_iff, existsb_exists. cbn [same_bool].
  assert (X : Bool.eqb b true = true <-> prime n) by (rewrite <- B; destruct b; cbn; tauto). rewrite X. split; intros [H|H]; auto; right.
  - destruct H as [x [Hx E]]. apply Z.eqb_eq in E. subst x. exact Hx.
  - exists n. split; [exact H | apply Z.eqb_refl].
Qed.
(** Primes pass by C21; the composites are evaluated. A composite rejected by is_lprp is rejected by is_slprp (C69). *)
Definition composite_check (test : Z -> res bool) (l : list Z) (n : Z) : bool := same_bool (is_prime64 BigTable Debug n) true || says (test n) (existsb (Z.eqb n) l).
Lemma both_check : all_odd 4999 3 (fun n => same_bool (is_prime64 BigTable Debug n) true || says (is_lprp Debug F16 120 n None None) (existsb (Z.eqb n) lpsp) && says (is_eslprp Debug F16 120 n None) (existsb (Z.eqb n) eslpsp)) = true.
Proof. vmc. Qed.
Lemma both_checked : forall n, Z.odd n = true -> 3 <= n < 10001 -> composite_check (fun n => is_lprp Debug F16 120 n None None) lpsp n = true /\ composite_check (fun n => is_eslprp Debug F16 120 n None) eslpsp n = true.
Proof.
  intros n Ho Hn. pose proof (all_odd_spec _ _ _ both_check eq_refl n Ho ltac:(lia)) as C. cbv beta in C. unfold composite_check.
  destruct (same_bool _ _); [split; reflexivity|]. cbn [orb] in *. apply andb_true_iff. exact C.
Qed.
Lemma slprp_check : forallb (composite_check (fun n => is_slprp Debug F16 120 n None None) slpsp) lpsp = true.
Proof. vmc. Qed.
Lemma in_list : forall l n, existsb (Z.eqb n) l = true <-> In n l.
Proof.
  intros l n. rewrite existsb_exists. split.
  - intros [x [Hx E]]. apply Z.eqb_eq in E. subst x. exact Hx.
  - intros H. exists n. split; [exact H | apply Z.eqb_refl].
Qed.
Lemma composite_checked : forall test l n, n < 2 ^ 20 -> composite_check test l n = true -> (prime n -> test n = Ret true) -> exists b, test n = Ret b /\ (b = true <-> prime n \/ In n l).
Proof.
  intros test l n Hn C T. unfold composite_check in C. destruct (exact64 BigTable Debug n Hn) as [b [E B]]. rewrite E in C. cbn [same_bool] in C.
  destruct b; cbn [Bool.eqb orb] in C.
  - exists true. split; [apply T, B; reflexivity | split; [intros _; left; apply B; reflexivity | reflexivity]].
  - apply says_eq in C. rewrite C. eexists. split; [reflexivity|]. rewrite in_list. split; [auto|]. intros [P|I]; [apply B in P; discriminate | exact I].
Qed.
(** Below 10000 the Lucas tests with automatic parameters accept exactly the primes and the listed pseudoprimes,
    which are those of OEIS A217120, A217255 and A217719. *)
Theorem C68_lucas_pseudoprimes : forall f pf n, 3 <= n < 10001 -> Z.odd n = true ->
  (exists b, is_lprp pf (uops f pf (U 16)) 120 n None None = Ret b /\ (b = true <-> prime n \/ In n [323; 377; 1159; 1829; 3827; 5459; 5777; 9071; 9179])) /\
  (exists b, is_slprp pf (uops f pf (U 16)) 120 n None None = Ret b /\ (b = true <-> prime n \/ In n [5459; 5777])) /\
  (exists b, is_eslprp pf (uops f pf (U 16)) 120 n None = Ret b /\ (b = true <-> prime n \/ In n [989; 3239; 5777])).
Proof.
  intros f pf n Hn Ho. assert (V : valid_ity (U 16)) by (cbn; lia). assert (R : in_range (U 16) n) by (cbn [in_range]; lia).
  destruct (lprp_same f pf BigTable Debug (U 16) 120 n V R Ho ltac:(lia) ltac:(lia)) as [E1 E2].
  pose proof (eslprp_same f pf BigTable Debug (U 16) 120 n V R Ho ltac:(lia) ltac:(pose proof (Z.log2_lt_lin (n + 1)); lia) ltac:(lia)) as E3.
  pose proof (fun P => C21_lprp_accepts_primes f pf (U 16) 120 n V R P ltac:(lia)) as A1. pose proof (fun P => C21_slprp_accepts_primes f pf (U 16) 120 n V R P ltac:(lia)) as A2. pose proof (fun P => C21_eslprp_accepts_primes f pf (U 16) 120 n V R P ltac:(lia)) as A3.
  pose proof (C69_slprp_is_lprp_auto BigTable Debug (U 16) 120 n V R Ho ltac:(lia) ltac:(left; lia)) as HI.
  rewrite E1 in *. rewrite E2 in *. rewrite E3 in *. rewrite <- fast_lprp, <- fast_slprp, <- fast_eslprp in *. fold F16 in *.
  assert (Q : 6 + Z.sqrt n <= Z.of_nat 120 /\ 8 + Z.sqrt n <= Z.of_nat 120) by (assert (Z.sqrt n <= 100) by (apply Z.lt_succ_r, Z.sqrt_lt_square; lia); lia). destruct Q as [Q1 Q2].
  destruct (both_checked n Ho Hn) as [C1 C3].
  apply composite_checked in C1; [| lia | intros P; apply A1; assumption]. apply composite_checked in C3; [| lia | intros P; apply A3; assumption].
  split; [exact C1|]. split; [|exact C3]. destruct (in_dec Z.eq_dec n lpsp) as [I|I].
  - pose proof slprp_check as C2. rewrite forallb_forall in C2. specialize (C2 n I). apply composite_checked in C2; [exact C2 | lia | intros P; apply A2; assumption].
  - destruct C1 as [b [B1 B2]]. destruct (C22_slprp_auto BigTable Debug (U 16) 120 n V R Ho ltac:(lia) Q1) as [c [ES _]]. rewrite <- fast_slprp in ES. fold F16 in ES.
    exists c. split; [exact ES|]. destruct c.
    + split; [intros _ | reflexivity]. specialize (HI ES). rewrite B1 in HI. injection HI as ->. destruct (proj1 B2 eq_refl) as [P|J]; [left; exact P | exfalso; exact (I J)].
    + split; [discriminate|]. intros [P|J]; exfalso; [rewrite (A2 P Q1) in ES; discriminate|]. apply I. unfold lpsp. cbn [In] in *. tauto.
Qed.
(** 521-568: explicit parameters (P, -1). The limit itself passes; below it no composite with Jacobi(P^2 + 4 | n) = -1
    does, and no even number. *)
Definition limit_check (strong : bool) (P l : Z) : bool :=
  let test n := if strong then is_slprp Debug F16 120 n (Some P) (Some (-1)) else is_lprp Debug F16 120 n (Some P) (Some (-1)) in
  says (test l) true && all_odd (Z.to_nat (l / 2) - 1) 3 (fun n => same_bool (is_prime64 BigTable Debug n) true || negb (fast_jacobi (P * P + 4) n =? -1) || says (test n) false).
Lemma limit_checked : forallb (fun '(P, l) => limit_check false P l) [(1, 323); (2, 35); (3, 119); (4, 9); (5, 9)] && forallb (fun '(P, l) => limit_check true P l) [(1, 4181); (2, 169); (3, 119)] = true.
Proof. vmc. Qed.
Theorem C68_lucas_limits : forall f pf (strong : bool) P l, In (P, l) (if strong then [(1, 4181); (2, 169); (3, 119)] else [(1, 323); (2, 35); (3, 119); (4, 9); (5, 9)]) ->
  let test n := if strong then is_slprp pf (uops f pf (U 16)) 120 n (Some P) (Some (-1)) else is_lprp pf (uops f pf (U 16)) 120 n (Some P) (Some (-1)) in
  test l = Ret true /\ forall n, 3 < n < l -> ~ prime n -> (Z.odd n = true -> jacobi (P * P + 4) n = -1) -> test n = Ret false.
Proof.
  intros f pf strong P l Hin test.
  assert (HP : 1 <= P <= 5 /\ 9 <= l <= 4181 /\ Z.odd l = true) by (destruct strong; cbn [In] in Hin; decompose [or] Hin; try contradiction; match goal with H : _ = (P, l) |- _ => injection H as <- <- end; (split; [lia | split; [lia | reflexivity]])).
  destruct HP as [HP [Hl Ol]].
  assert (LC : limit_check strong P l = true).
  { pose proof limit_checked as C. apply andb_true_iff in C. destruct C as [C1 C2]. rewrite forallb_forall in C1, C2. destruct strong; [exact (C2 _ Hin) | exact (C1 _ Hin)]. }
  assert (V : valid_ity (U 16)) by (cbn; lia).
  assert (S : forall n, 3 <= n <= 4181 -> Z.odd n = true -> test n = if strong then is_slprp Debug F16 120 n (Some P) (Some (-1)) else is_lprp Debug F16 120 n (Some P) (Some (-1))).
  { intros n Hn On. unfold test, F16. rewrite fast_slprp, fast_lprp. assert (R : in_range (U 16) n) by (cbn [in_range]; lia). assert (HV : UV (U 16) n n) by (split; auto).
    assert (I1 : in_range (U 16) 1) by (cbn [in_range]; lia). assert (R1 : in_range (U 16) (n + 1)) by (cbn [in_range]; lia). assert (PO : params_ok (U 16) P (-1)) by (assert (1 <= P * P <= 25) by nia; unfold params_ok; cbn [in_range]; change (Z.abs (-1)) with 1; repeat split; lia).
    destruct strong.
    - rewrite (is_slprp_explicit pf _ (U 16) _ _ _ (uops_lawful f pf (U 16)) I1 120 n n P (-1) HV ltac:(cbv beta; lia) On ltac:(lia) R1 PO).
      rewrite (is_slprp_explicit Debug _ (U 16) _ _ _ (uops_lawful BigTable Debug (U 16)) I1 120 n n P (-1) HV ltac:(cbv beta; lia) On ltac:(lia) R1 PO). reflexivity.
    - rewrite (is_lprp_explicit pf _ (U 16) _ _ _ (uops_lawful f pf (U 16)) I1 120 n n P (-1) HV ltac:(cbv beta; lia) On ltac:(lia) R1 PO).
      rewrite (is_lprp_explicit Debug _ (U 16) _ _ _ (uops_lawful BigTable Debug (U 16)) I1 120 n n P (-1) HV ltac:(cbv beta; lia) On ltac:(lia) R1 PO). reflexivity. }
  unfold limit_check in LC. cbv zeta in LC. apply andb_true_iff in LC. destruct LC as [L1 L2]. split.
  - rewrite S by (assumption || lia). destruct strong; apply says_eq, L1.
  - intros n Hn Np J. destruct (Z.odd n) eqn:On.
    + rewrite S by (assumption || lia). specialize (J eq_refl).
      assert (Hr : 3 <= n < 3 + 2 * Z.of_nat (Z.to_nat (l / 2) - 1)).
      { assert (Hd : l = 2 * (l / 2) + 1) by (rewrite (Z.div_mod l 2) at 1 by lia; rewrite Zmod_odd, Ol; reflexivity). assert (Hn2 : n = 2 * (n / 2) + 1) by (rewrite (Z.div_mod n 2) at 1 by lia; rewrite Zmod_odd, On; reflexivity). lia. }
      pose proof (all_odd_spec _ _ _ L2 eq_refl n On Hr) as C. apply orb_true_iff in C. destruct C as [C|C].
      * exfalso. apply orb_true_iff in C. destruct C as [C|C].
        -- destruct (exact64 BigTable Debug n ltac:(lia)) as [b [E B]]. rewrite E in C. cbn [same_bool] in C. apply Np, B. destruct b; [reflexivity | discriminate].
        -- rewrite fast_jacobi_eq, J in C. discriminate.
      * destruct strong; apply says_eq, C.
    + assert (He : Z.even n = true) by (rewrite <- Z.negb_odd, On; reflexivity). destruct (even_lprp f pf (U 16) 120 n (Some P) (Some (-1)) V ltac:(cbn [in_range]; lia) He) as [A [B _]]. unfold test. destruct strong; assumption.
Qed.
(** 513-518: known cases *)
Theorem C68_lucas_known : forall f pf, is_lprp pf (uops f pf (U 8)) 120 19 (Some 3) (Some (-1)) = Ret true /\ is_lprp pf (uops f pf (U 8)) 120 5 None None = Ret true /\
  is_lprp pf (uops f pf (U 8)) 120 7 None None = Ret true /\ is_lprp pf (uops f pf (U 8)) 120 9 None None = Ret false /\ is_lprp pf (uops f pf (U 16)) 120 5719 None None = Ret false /\ is_eslprp pf (uops f pf (U 16)) 120 1239 None = Ret false.
Proof. intros f pf. rewrite <- !fast_lprp, <- fast_eslprp. destruct f, pf; vmc. Qed.

Example C68_case : prime 9973 /\ is_lprp Debug (uops BigTable Debug (U 16)) 120 9179 None None = Ret true /\ 67 * 137 = 9179 /\ jacobi (1 * 1 + 4) 4177 = -1.
Proof.
  split; [destruct (proj1 (expect_spec [] 9973 ltac:(lia)) ltac:(vmc)) as [H|[]]; exact H | ]. rewrite <- fast_lprp, <- fast_jacobi_eq. vmc.
Qed.

Print Assumptions C68_lucas_pseudoprimes.
Print Assumptions C68_lucas_limits.
Print Assumptions C68_lucas_known.
