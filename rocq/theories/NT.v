(** * Elementary number theory over Z (proofs only). *)
From Coq Require Import ZArith Znumtheory List Lia Bool Sorted Wellfounded Permutation FinFun.
From Verif Require Import Spec.
Import ListNotations.
Local Open Scope Z_scope.

(** ** primeb decides prime *)

Lemma prime_ge2 : forall p, prime p -> 2 <= p.
Proof. intros p Hp. apply prime_ge_2; assumption. Qed.

Lemma primeb_true : forall n, primeb n = true -> prime n.
Proof.
  intros n H. unfold primeb in H. apply andb_true_iff in H as [H2 H].
  apply Z.leb_le in H2. rewrite forallb_forall in H.
  apply prime_alt. split; [lia|].
  intros d Hd [q Hq].
  assert (Hin : In (Z.to_nat d) (seq 2 (Z.to_nat n - 2))) by (apply in_seq; lia).
  specialize (H _ Hin). rewrite Z2Nat.id in H by lia.
  apply negb_true_iff in H. apply Z.eqb_neq in H. apply H.
  subst n. apply Z_mod_mult.
Qed.

Lemma primeb_false : forall n, prime n -> primeb n = true.
Proof.
  intros n Hp. pose proof (prime_ge2 _ Hp) as H2.
  unfold primeb. apply andb_true_iff; split; [apply Z.leb_le; lia|].
  apply forallb_forall. intros d Hd. apply in_seq in Hd.
  apply negb_true_iff. apply Z.eqb_neq. intros Hm.
  apply prime_alt in Hp. destruct Hp as [_ Hp].
  apply (Hp (Z.of_nat d)); [lia|]. apply Z.mod_divide; lia.
Qed.

Lemma primeb_spec : forall n, primeb n = true <-> prime n.
Proof. split; [apply primeb_true | apply primeb_false]. Qed.

Lemma primeb_reflect : forall n, reflect (prime n) (primeb n).
Proof.
  intros n. destruct (primeb n) eqn:E; constructor.
  - apply primeb_true; exact E.
  - intros H. apply primeb_false in H. congruence.
Qed.

Lemma not_prime_lt2 : forall n, n < 2 -> ~ prime n.
Proof. intros n H Hp. apply prime_ge2 in Hp. lia. Qed.

(** ** Divisors *)

Lemma mod0_divide : forall a b, b <> 0 -> (a mod b = 0 <-> (b | a)).
Proof. intros. split; [apply Z.mod_divide; auto | apply Z.mod_divide; auto]. Qed.

Lemma divide_pos_le : forall a b, 0 < b -> (a | b) -> a <= b.
Proof. intros. apply Z.divide_pos_le; auto. Qed.

Lemma composite_divisor : forall n, 2 <= n -> ~ prime n -> exists d, 1 < d < n /\ (d | n).
Proof.
  intros n H2 Hn. destruct (primeb n) eqn:E; [apply primeb_true in E; contradiction|].
  unfold primeb in E. assert (L : (2 <=? n) = true) by (apply Z.leb_le; lia).
  rewrite L in E. simpl in E.
  assert (exists d, In d (seq 2 (Z.to_nat n - 2)) /\ negb (n mod Z.of_nat d =? 0) = false) as (d & Hin & Hd).
  { clear -E. induction (seq 2 (Z.to_nat n - 2)) as [|a l IH]; simpl in E; [discriminate|].
    apply andb_false_iff in E as [E|E].
    - exists a; split; [left; auto | exact E].
    - destruct (IH E) as (d & ? & ?). exists d; split; [right; auto|auto]. }
  apply in_seq in Hin. apply negb_false_iff in Hd. apply Z.eqb_eq in Hd.
  exists (Z.of_nat d). split; [lia|]. apply Z.mod_divide; lia.
Qed.

Lemma smallest_prime_divisor : forall n, 2 <= n ->
  exists p, prime p /\ (p | n) /\ forall q, prime q -> (q | n) -> p <= q.
Proof.
  intros n. 
  assert (H0 : forall k : nat, forall n, 2 <= n -> n <= Z.of_nat k -> exists p, prime p /\ (p | n)).
  { induction k as [|k IH]; intros m H2 Hk; [lia|].
    destruct (primeb m) eqn:E.
    - exists m. split; [apply primeb_true; auto | apply Z.divide_refl].
    - assert (~ prime m) by (intros Hp; apply primeb_false in Hp; congruence).
      destruct (composite_divisor m H2 H) as (d & Hd & Hdiv).
      destruct (IH d) as (p & Hp & Hpd); [lia|lia|].
      exists p; split; auto. eapply Z.divide_trans; eauto. }
  intros H2.
  (* least such p *)
  assert (H1 : forall k : nat, forall p, prime p -> (p | n) -> p <= Z.of_nat k ->
     exists p, prime p /\ (p | n) /\ forall q, prime q -> (q | n) -> p <= q).
  { induction k as [|k IH]; intros p Hp Hd Hk.
    - apply prime_ge2 in Hp; lia.
    - assert (D : (exists q, prime q /\ (q | n) /\ q < p) \/ (forall q, prime q -> (q | n) -> p <= q)).
      { pose (l := filter (fun q => primeb (Z.of_nat q) && (n mod Z.of_nat q =? 0)) (seq 1 (Z.to_nat p - 1))).
        destruct l as [|a l'] eqn:El.
        - right. intros q Hq Hqd. destruct (Z_le_gt_dec p q) as [|Hgt]; auto. exfalso.
          pose proof (prime_ge2 _ Hq).
          assert (In (Z.to_nat q) l).
          { apply filter_In. split; [apply in_seq; lia|]. rewrite Z2Nat.id by lia.
            apply andb_true_iff; split; [apply primeb_false; auto|].
            apply Z.eqb_eq. apply Z.mod_divide; [lia|auto]. }
          rewrite El in H1. inversion H1.
        - left. assert (Ha : In a l) by (rewrite El; left; auto).
          apply filter_In in Ha as [Ha1 Ha2]. apply in_seq in Ha1.
          apply andb_true_iff in Ha2 as [Ha2 Ha3]. apply primeb_true in Ha2. apply Z.eqb_eq in Ha3.
          pose proof (prime_ge2 _ Ha2).
          exists (Z.of_nat a). split; [auto|]. split; [apply Z.mod_divide; lia | lia]. }
      destruct D as [(q & Hq & Hqd & Hlt)|D].
      + apply (IH q); auto. lia.
      + exists p; auto. }
  destruct (H0 (Z.to_nat n) n H2) as (p & Hp & Hd); [lia|].
  apply (H1 (Z.to_nat p) p); auto. apply prime_ge2 in Hp. lia.
Qed.

Lemma prime_divisor_exists : forall n, 2 <= n -> exists p, prime p /\ (p | n).
Proof. intros n H. destruct (smallest_prime_divisor n H) as (p & ? & ? & ?). exists p; auto. Qed.

(** A composite has a prime divisor whose square does not exceed it. *)
Lemma composite_small_prime : forall n, 2 <= n -> ~ prime n ->
  exists p, prime p /\ (p | n) /\ p * p <= n.
Proof.
  intros n H2 Hn. destruct (smallest_prime_divisor n H2) as (p & Hp & Hd & Hmin).
  exists p. split; [auto|split; [auto|]].
  destruct Hd as [q Hq]. pose proof (prime_ge2 _ Hp).
  assert (q <> 1). { intros ->. apply Hn. rewrite Hq. rewrite Z.mul_1_l. auto. }
  assert (2 <= q) by nia.
  destruct (prime_divisor_exists q H1) as (r & Hr & Hrd).
  assert (p <= r). { apply Hmin; auto. rewrite Hq. apply Z.divide_mul_l; auto. }
  assert (r <= q) by (apply Z.divide_pos_le; [lia|auto]).
  nia.
Qed.

Lemma prime_no_small_divisor : forall n, 2 <= n ->
  (forall p, prime p -> p * p <= n -> ~ (p | n)) -> prime n.
Proof.
  intros n H2 H. destruct (primeb_reflect n) as [|Hn]; auto.
  destruct (composite_small_prime n H2 Hn) as (p & Hp & Hd & Hle). exfalso. eapply H; eauto.
Qed.

Lemma prime_divides_prime : forall p q, prime p -> prime q -> (p | q) -> p = q.
Proof.
  intros p q Hp Hq Hd. pose proof (prime_ge2 _ Hp).
  destruct (prime_divisors q Hq p Hd) as [|[|[|]]]; pose proof (prime_ge2 _ Hq); lia.
Qed.

Lemma prime_div_mul : forall p a b, prime p -> (p | a * b) -> (p | a) \/ (p | b).
Proof. intros. apply prime_mult; auto. Qed.

Lemma prime_div_pow : forall p a e, prime p -> 0 <= e -> (p | a ^ e) -> (p | a).
Proof.
  intros p a e Hp He. revert e He. apply (natlike_ind (fun e => (p | a ^ e) -> (p | a))).
  - rewrite Z.pow_0_r. intros H. apply Z.divide_1_r in H. apply prime_ge2 in Hp. lia.
  - intros e He IH H. rewrite Z.pow_succ_r in H by lia.
    apply prime_div_mul in H as [|]; auto.
Qed.

Lemma prime_rel_prime : forall p a, prime p -> ~ (p | a) -> rel_prime p a.
Proof. intros. apply prime_rel_prime; auto. Qed.

(** Infinitely many primes. *)
Fixpoint zfact (n : nat) : Z := match n with O => 1 | S k => Z.of_nat (S k) * zfact k end.

Lemma zfact_pos : forall n, 0 < zfact n.
Proof. induction n; cbn [zfact]; [lia|]. apply Z.mul_pos_pos; lia. Qed.

Lemma zfact_divide : forall n k, 1 <= k <= Z.of_nat n -> (k | zfact n).
Proof.
  induction n; intros k Hk; [lia|]. cbn [zfact].
  destruct (Z.eq_dec k (Z.of_nat (S n))) as [->|].
  - apply Z.divide_factor_l.
  - apply Z.divide_mul_r. apply IHn. lia.
Qed.

Lemma primes_infinite : forall n, exists p, prime p /\ n < p.
Proof.
  intros n. set (m := Z.to_nat n).
  destruct (prime_divisor_exists (zfact m + 1)) as (p & Hp & Hd).
  { pose proof (zfact_pos m). lia. }
  exists p. split; auto. destruct (Z_lt_le_dec n p); auto. exfalso.
  pose proof (prime_ge2 _ Hp).
  assert (p | zfact m). { apply zfact_divide. unfold m. lia. }
  assert (p | 1). { replace 1 with (zfact m + 1 - zfact m) by lia. apply Z.divide_sub_r; auto. }
  apply Z.divide_1_r in H1. lia.
Qed.

(** ** Products of primes *)

Lemma prod_app : forall a b, prod (a ++ b) = prod a * prod b.
Proof. induction a; intros; cbn [prod app]; [lia|]. rewrite IHa. lia. Qed.

Lemma prime_div_prod : forall p l, prime p -> (p | prod l) -> exists x, In x l /\ (p | x).
Proof.
  induction l as [|x l IH]; simpl; intros Hp Hd.
  - apply Z.divide_1_r in Hd. apply prime_ge2 in Hp. lia.
  - apply prime_div_mul in Hd as [Hd|Hd]; auto.
    + exists x; auto.
    + destruct (IH Hp Hd) as (y & ? & ?). exists y; auto.
Qed.

Lemma prime_div_prod_powers : forall p m, prime p -> (forall q e, In (q,e) m -> 0 <= e) ->
  (p | prod_powers m) -> exists q e, In (q,e) m /\ (p | q).
Proof.
  induction m as [|[q e] m IH]; simpl; intros Hp He Hd.
  - apply Z.divide_1_r in Hd. apply prime_ge2 in Hp. lia.
  - apply prime_div_mul in Hd as [Hd|Hd]; auto.
    + exists q, e. split; auto. apply prime_div_pow in Hd; auto. eapply He; eauto.
    + destruct IH as (q' & e' & ? & ?); auto. { intros; eapply He; eauto. } exists q', e'; auto.
Qed.

(** ** Congruences *)

Definition eqm (n a b : Z) : Prop := (n | a - b).
Notation "a =[ n ]= b" := (eqm n a b) (at level 70, n at level 99, no associativity).

Lemma eqm_refl : forall n a, a =[n]= a.
Proof. intros. unfold eqm. replace (a - a) with 0 by lia. apply Z.divide_0_r. Qed.
Lemma eqm_sym : forall n a b, a =[n]= b -> b =[n]= a.
Proof. unfold eqm. intros n a b H. replace (b - a) with (-(a-b)) by lia. apply Z.divide_opp_r; auto. Qed.
Lemma eqm_trans : forall n a b c, a =[n]= b -> b =[n]= c -> a =[n]= c.
Proof. unfold eqm. intros n a b c H1 H2. replace (a - c) with ((a-b)+(b-c)) by lia. apply Z.divide_add_r; auto. Qed.
Lemma eqm_add : forall n a b c d, a =[n]= b -> c =[n]= d -> a + c =[n]= b + d.
Proof. unfold eqm. intros. replace (a + c - (b + d)) with ((a-b)+(c-d)) by lia. apply Z.divide_add_r; auto. Qed.
Lemma eqm_opp : forall n a b, a =[n]= b -> - a =[n]= - b.
Proof. unfold eqm. intros. replace (- a - - b) with (-(a-b)) by lia. apply Z.divide_opp_r; auto. Qed.
Lemma eqm_sub : forall n a b c d, a =[n]= b -> c =[n]= d -> a - c =[n]= b - d.
Proof. intros. unfold Z.sub. apply eqm_add; auto. apply eqm_opp; auto. Qed.
Lemma eqm_mul : forall n a b c d, a =[n]= b -> c =[n]= d -> a * c =[n]= b * d.
Proof.
  unfold eqm. intros. replace (a * c - b * d) with ((a-b)*c + b*(c-d)) by lia.
  apply Z.divide_add_r; [apply Z.divide_mul_l|apply Z.divide_mul_r]; auto.
Qed.
Lemma eqm_pow : forall n a b e, a =[n]= b -> a ^ e =[n]= b ^ e.
Proof.
  intros n a b e H. destruct (Z_lt_le_dec e 0).
  - rewrite !Z.pow_neg_r by lia. apply eqm_refl.
  - revert e l. apply natlike_ind.
    + apply eqm_refl.
    + intros. rewrite !Z.pow_succ_r by lia. apply eqm_mul; auto.
Qed.
Lemma eqm_mod_eq : forall n a b, n <> 0 -> (a =[n]= b <-> a mod n = b mod n).
Proof.
  intros n a b Hn. split.
  - intros [k Hk]. replace a with (b + k * n) by lia. apply Z_mod_plus_full.
  - intros H. exists (a / n - b / n).
    pose proof (Z_div_mod_eq_full a n). pose proof (Z_div_mod_eq_full b n). nia.
Qed.
Lemma eqm_mod : forall n a, n <> 0 -> a mod n =[n]= a.
Proof. intros. apply eqm_mod_eq; auto. apply Z.mod_mod; auto. Qed.
Lemma eqm_divide : forall n m a b, (m | n) -> a =[n]= b -> a =[m]= b.
Proof. unfold eqm. intros. eapply Z.divide_trans; eauto. Qed.
Lemma eqm_0 : forall n a, a =[n]= 0 <-> (n | a).
Proof. unfold eqm. intros. rewrite Z.sub_0_r. tauto. Qed.
Lemma eqm_small : forall n a b, 0 <= a < n -> 0 <= b < n -> a =[n]= b -> a = b.
Proof.
  intros n a b Ha Hb H. apply eqm_mod_eq in H; [|lia].
  rewrite !Z.mod_small in H by lia. auto.
Qed.

From Coq Require Import Setoid Morphisms RelationClasses.
Global Instance eqm_equiv n : Equivalence (eqm n).
Proof. split; red; [apply eqm_refl|intros; apply eqm_sym; auto|intros; eapply eqm_trans; eauto]. Qed.
Global Instance eqm_add_m n : Proper (eqm n ==> eqm n ==> eqm n) Z.add.
Proof. repeat red; intros; apply eqm_add; auto. Qed.
Global Instance eqm_sub_m n : Proper (eqm n ==> eqm n ==> eqm n) Z.sub.
Proof. repeat red; intros; apply eqm_sub; auto. Qed.
Global Instance eqm_mul_m n : Proper (eqm n ==> eqm n ==> eqm n) Z.mul.
Proof. repeat red; intros; apply eqm_mul; auto. Qed.
Global Instance eqm_opp_m n : Proper (eqm n ==> eqm n) Z.opp.
Proof. repeat red; intros; apply eqm_opp; auto. Qed.
Global Instance eqm_pow_m n : Proper (eqm n ==> eq ==> eqm n) Z.pow.
Proof. repeat red; intros; subst; apply eqm_pow; auto. Qed.

Lemma eqm_prime_mul_0 : forall p a b, prime p -> a * b =[p]= 0 -> a =[p]= 0 \/ b =[p]= 0.
Proof. intros p a b Hp H. rewrite !eqm_0 in *. apply prime_div_mul; auto. Qed.

Lemma eqm_cancel_l : forall n a b c, rel_prime n a -> a * b =[n]= a * c -> b =[n]= c.
Proof.
  unfold eqm. intros n a b c Hr H. replace (a * b - a * c) with (a * (b - c)) in H by lia.
  eapply Gauss; eauto.
Qed.

(** Square roots of 1 modulo a prime. *)
Lemma sqrt1_prime : forall p x, prime p -> x * x =[p]= 1 -> x =[p]= 1 \/ x =[p]= -1.
Proof.
  intros p x Hp H. unfold eqm in *.
  replace (x * x - 1) with ((x - 1) * (x - -1)) in H by lia.
  apply prime_div_mul in H; auto.
Qed.

(** ** Fermat's little theorem, via the permutation of residues. *)

(** Binomials mod p (Frobenius) are developed in NTRing.v; here Fermat via Euler's argument:
    prod_{i=1}^{p-1} (a*i) = prod (i) mod p. *)
Lemma prod_permutation : forall l l', Permutation.Permutation l l' -> prod l = prod l'.
Proof. induction 1; cbn [prod]; lia. Qed.

Lemma prod_eqm : forall n l l', Forall2 (eqm n) l l' -> prod l =[n]= prod l'.
Proof. induction 1; cbn [prod]; [apply eqm_refl|]. apply eqm_mul; auto. Qed.

Lemma prod_map_mul : forall a l, prod (map (fun x => a * x) l) = a ^ Z.of_nat (length l) * prod l.
Proof.
  induction l as [|x l IH]; [reflexivity|]. cbn [map prod length].
  rewrite IH, Nat2Z.inj_succ, Z.pow_succ_r by lia. lia.
Qed.

Definition residues (p : Z) : list Z := map Z.of_nat (seq 1 (Z.to_nat p - 1)).

Lemma residues_in : forall p x, In x (residues p) <-> 1 <= x < p.
Proof.
  intros. unfold residues. rewrite in_map_iff. split.
  - intros (y & <- & Hy). apply in_seq in Hy. lia.
  - intros. exists (Z.to_nat x). split; [lia|]. apply in_seq. lia.
Qed.

Lemma residues_NoDup : forall p, NoDup (residues p).
Proof.
  intros. unfold residues. apply FinFun.Injective_map_NoDup.
  - intros x y H. apply Nat2Z.inj; auto.
  - apply seq_NoDup.
Qed.

Lemma residues_length : forall p, 1 <= p -> Z.of_nat (length (residues p)) = p - 1.
Proof. intros. unfold residues. rewrite map_length, seq_length. lia. Qed.

Lemma rel_prime_prod_residues : forall p l, prime p -> (forall x, In x l -> 1 <= x < p) -> rel_prime p (prod l).
Proof.
  intros p l Hp H. apply prime_rel_prime; auto. intros Hd.
  apply prime_div_prod in Hd as (x & Hx & Hd); auto. apply H in Hx.
  apply Z.divide_pos_le in Hd; lia.
Qed.

Theorem fermat : forall p a, prime p -> ~ (p | a) -> a ^ (p - 1) =[p]= 1.
Proof.
  intros p a Hp Ha. pose proof (prime_ge2 _ Hp) as H2.
  set (f := fun x => (a * x) mod p).
  assert (Hf : forall x, In x (residues p) -> In (f x) (residues p)).
  { intros x Hx. apply residues_in in Hx. apply residues_in. unfold f.
    pose proof (Z.mod_pos_bound (a * x) p ltac:(lia)).
    assert ((a * x) mod p <> 0); [|lia].
    intros Hm. apply Z.mod_divide in Hm; [|lia]. apply prime_div_mul in Hm as [|Hm]; auto.
    apply Z.divide_pos_le in Hm; lia. }
  assert (Hinj : forall x y, In x (residues p) -> In y (residues p) -> f x = f y -> x = y).
  { intros x y Hx Hy E. apply residues_in in Hx. apply residues_in in Hy. unfold f in E.
    apply (eqm_small p); [lia|lia|]. apply (eqm_cancel_l p a).
    - apply prime_rel_prime; auto.
    - apply eqm_mod_eq; [lia|auto]. }
  assert (Hnd : NoDup (map f (residues p))).
  { assert (G : forall l, NoDup l -> (forall x, In x l -> In x (residues p)) -> NoDup (map f l)).
    { induction l as [|x l IH]; intros Hn Hs; simpl; constructor.
      - inversion Hn; subst. intros Hi. apply in_map_iff in Hi as (y & E & Hy).
        apply Hinj in E; [subst; contradiction| |]; apply Hs; simpl; auto.
      - inversion Hn; subst. apply IH; auto. intros; apply Hs; simpl; auto. }
    apply G; auto. apply residues_NoDup. }
  assert (Hperm : Permutation.Permutation (map f (residues p)) (residues p)).
  { apply Permutation.NoDup_Permutation_bis; auto.
    - rewrite map_length. lia.
    - intros y Hy. apply in_map_iff in Hy as (x & <- & Hx). auto. }
  apply prod_permutation in Hperm.
  assert (E : prod (map f (residues p)) =[p]= prod (map (fun x => a * x) (residues p))).
  { apply prod_eqm. clear. induction (residues p); simpl; constructor; auto.
    - unfold f. destruct (Z.eq_dec p 0) as [->|]; [rewrite Zmod_0_r; apply eqm_refl|apply eqm_mod; auto]. }
  rewrite Hperm, prod_map_mul, residues_length in E by lia.
  apply (eqm_cancel_l p (prod (residues p))).
  - apply rel_prime_prod_residues; auto. intros x Hx. apply residues_in in Hx. auto.
  - rewrite Z.mul_1_r. symmetry. rewrite Z.mul_comm. exact E.
Qed.

Corollary fermat_all : forall p a, prime p -> a ^ p =[p]= a.
Proof.
  intros p a Hp. pose proof (prime_ge2 _ Hp).
  destruct (Zdivide_dec p a) as [Hd|Hd].
  - assert (a =[p]= 0) by (apply eqm_0; auto).
    rewrite H0. rewrite Z.pow_0_l by lia. reflexivity.
  - assert (E : a ^ p = a * a ^ (p - 1)).
    { rewrite <- Z.pow_succ_r by lia. f_equal; lia. }
    rewrite E. rewrite (fermat p a Hp Hd). rewrite Z.mul_1_r. reflexivity.
Qed.

(** ** count *)

Lemma count_nonneg : forall P n, 0 <= count P n.
Proof. induction n; cbn [count]; [lia|]. destruct (P _); lia. Qed.
Lemma count_le : forall P n, count P n <= Z.of_nat n.
Proof. induction n; cbn [count]; [lia|]. destruct (P _); lia. Qed.
Lemma count_mono : forall P n m, (n <= m)%nat -> count P n <= count P m.
Proof. induction 1; [lia|]. cbn [count]. destruct (P _); lia. Qed.
Lemma count_ext : forall P Q n, (forall i, 1 <= i <= Z.of_nat n -> P i = Q i) -> count P n = count Q n.
Proof.
  induction n; intros H; [reflexivity|]. cbn [count]. rewrite IHn.
  - rewrite H by lia. auto.
  - intros; apply H; lia.
Qed.
Lemma count_add : forall P Q n, (forall i, 1 <= i <= Z.of_nat n -> P i = true -> Q i = true -> False) ->
  count (fun i => P i || Q i) n = count P n + count Q n.
Proof.
  induction n; intros H; [reflexivity|]. cbn [count]. rewrite IHn by (intros; eapply H; eauto; lia).
  specialize (H (Z.of_nat (S n)) ltac:(lia)).
  destruct (P _), (Q _); simpl; try lia; exfalso; auto.
Qed.

(** ** prime_count *)

Lemma pc_nonneg : forall x, 0 <= prime_count x.
Proof. intros; apply count_nonneg. Qed.
Lemma pc_mono : forall x y, x <= y -> prime_count x <= prime_count y.
Proof. intros. apply count_mono. lia. Qed.
Lemma pc_step : forall x, 0 <= x -> prime_count (x + 1) = prime_count x + (if primeb (x + 1) then 1 else 0).
Proof.
  intros. unfold prime_count. replace (Z.to_nat (x + 1)) with (S (Z.to_nat x)) by lia.
  cbn [count]. replace (Z.of_nat (S (Z.to_nat x))) with (x + 1) by lia. reflexivity.
Qed.
Lemma pc_lt2 : forall x, x < 2 -> prime_count x = 0.
Proof.
  intros. destruct (Z_lt_le_dec x 1).
  - unfold prime_count. replace (Z.to_nat x) with O by lia. reflexivity.
  - assert (x = 1) as -> by lia. reflexivity.
Qed.
Lemma pc_prime_lt : forall x p, prime p -> x < p -> prime_count x < prime_count p.
Proof.
  intros x p Hp Hx. pose proof (prime_ge2 _ Hp).
  assert (prime_count x <= prime_count (p - 1)) by (apply pc_mono; lia).
  pose proof (pc_step (p - 1) ltac:(lia)). replace (p - 1 + 1) with p in H1 by lia.
  rewrite (primeb_false _ Hp) in H1. lia.
Qed.
Lemma pc_no_prime : forall x y, x <= y -> (forall q, prime q -> x < q <= y -> False) ->
  prime_count y = prime_count x.
Proof.
  intros x y Hxy Hn. destruct (Z_lt_le_dec y 2) as [|Hy].
  { rewrite !pc_lt2 by lia. auto. }
  destruct (Z_lt_le_dec x 0) as [Hx|Hx].
  { exfalso. apply (Hn 2); [apply prime_2|lia]. }
  assert (G : forall k : nat, (forall q, prime q -> x < q <= x + Z.of_nat k -> False) ->
     prime_count (x + Z.of_nat k) = prime_count x).
  { induction k; intros H.
    - rewrite Z.add_0_r. auto.
    - replace (x + Z.of_nat (S k)) with (x + Z.of_nat k + 1) by lia.
      rewrite pc_step by lia. rewrite IHk by (intros; eapply H; eauto; lia).
      destruct (primeb_reflect (x + Z.of_nat k + 1)); [|lia].
      exfalso. eapply H; eauto. lia. }
  replace y with (x + Z.of_nat (Z.to_nat (y - x))) by lia. apply G.
  intros; eapply Hn; eauto. lia.
Qed.
Lemma nth_prime_unique : forall n p q, nth_prime_is n p -> nth_prime_is n q -> p = q.
Proof.
  intros n p q [Hp Ep] [Hq Eq]. destruct (Z.lt_trichotomy p q) as [H|[H|H]]; auto.
  - apply (pc_prime_lt _ _ Hq) in H. lia.
  - apply (pc_prime_lt _ _ Hp) in H. lia.
Qed.
