(** * The Rabin-Monier bound: an odd composite n passes the strong test for at most a quarter of the
    bases 1..n-1. *)
From Coq Require Import ZArith Znumtheory Zpow_facts List Lia Bool.
From Verif Require Import Spec NT NTLegendre NTPock PSprp.
Import ListNotations.
Local Open Scope Z_scope.

(** ** Counting *)
Lemma count_filter : forall P n, count P n = Z.of_nat (length (filter P (map Z.of_nat (seq 1 n)))).
Proof.
  induction n as [|n IH]; [reflexivity|]. cbn [count]. rewrite seq_S, map_app, filter_app, app_length, Nat2Z.inj_add, <- IH.
  cbn [map filter plus]. destruct (P (Z.of_nat (S n))); reflexivity.
Qed.
Lemma count_residues : forall P n, count P (Z.to_nat (n - 1)) = Z.of_nat (length (filter P (residues n))).
Proof. intros P n. rewrite count_filter. unfold residues. do 5 f_equal. lia. Qed.

Lemma pow_one_rel : forall n y m, 1 <= m -> y ^ m =[n]= 1 -> rel_prime n y.
Proof.
  intros n y m Hm H. apply rel_prime_sym, bezout_rel_prime. destruct H as [k Hk].
  apply (Bezout_intro _ _ _ (y ^ (m - 1)) (- k)). replace m with (Z.succ (m - 1)) in Hk by lia. rewrite Z.pow_succ_r in Hk by lia. lia.
Qed.
Lemma pow_pm1_rel : forall n y m, 1 <= m -> y ^ m =[n]= 1 \/ y ^ m =[n]= -1 -> rel_prime n y.
Proof.
  intros n y m Hm H. apply (pow_one_rel n y (m * 2)); [lia|]. rewrite Z.pow_mul_r, Z.pow_2_r by lia.
  destruct H as [H|H]; rewrite H; apply eqm_refl.
Qed.

Fixpoint apart (n E : Z) (g : list Z) : Prop :=
  match g with
  | [] => True
  | x :: g' => (forall y, In y g' -> ~ x ^ E =[n]= y ^ E /\ ~ x ^ E =[n]= - y ^ E) /\ apart n E g'
  end.
Definition coset (n : Z) (P : Z -> bool) (x : Z) : list Z := map (fun a => (x * a) mod n) (filter P (residues n)).

Lemma NoDup_app_disj : forall (A : Type) (l l' : list A), NoDup l -> NoDup l' -> (forall x, In x l -> In x l' -> False) -> NoDup (l ++ l').
Proof.
  intros A l l' H. induction H as [|x l Hx H IH]; intros H' D; [exact H'|]. cbn [app]. constructor.
  - rewrite in_app_iff. intros [C|C]; [contradiction|]. apply (D x); [left; reflexivity | exact C].
  - apply IH; [exact H'|]. intros y Hy. apply D. right. exact Hy.
Qed.

Lemma cosets : forall n E g P, 2 <= n -> 1 <= E -> (forall x, In x g -> rel_prime n x) -> apart n E g ->
  (forall a, 1 <= a < n -> P a = true -> a ^ E =[n]= 1 \/ a ^ E =[n]= -1) ->
  Z.of_nat (length g) * count P (Z.to_nat (n - 1)) <= n - 1.
Proof.
  intros n E g P Hn HE Hg Ha HP. rewrite count_residues.
  assert (Hin : forall a, In a (filter P (residues n)) -> 1 <= a < n /\ (a ^ E =[n]= 1 \/ a ^ E =[n]= -1)).
  { intros a Hi. apply filter_In in Hi. destruct Hi as [Hi Hp]. apply residues_in in Hi. split; [exact Hi|]. apply HP; assumption. }
  assert (ND : NoDup (flat_map (coset n P) g)).
  { clear - Hn HE Hg Ha Hin. induction g as [|x g IH]; [constructor|]. cbn [flat_map]. destruct Ha as [H1 H2]. apply NoDup_app_disj.
    - unfold coset. apply NoDup_map_in; [|apply NoDup_filter, residues_NoDup].
      intros a b A B Eq. apply Hin in A, B. apply eqm_mod_eq in Eq; [|lia]. apply eqm_cancel_l in Eq; [|apply Hg; left; reflexivity].
      apply (eqm_small n); [lia | lia | exact Eq].
    - apply IH; [intros y Hy; apply Hg; right; exact Hy | exact H2].
    - intros z Hz Hz'. unfold coset in Hz. apply in_map_iff in Hz. destruct Hz as [a [Ea A]]. apply in_flat_map in Hz'.
      destruct Hz' as [y [Hy Hz']]. apply in_map_iff in Hz'. destruct Hz' as [b [Eb B]]. rewrite <- Ea in Eb. clear z Ea.
      apply Hin in A, B. destruct A as [_ A], B as [_ B]. apply eqm_mod_eq in Eb; [|lia].
      assert (C : y ^ E * b ^ E =[n]= x ^ E * a ^ E) by (rewrite <- !Z.pow_mul_l; apply eqm_pow; exact Eb).
      destruct (H1 y Hy) as [N1 N2].
      destruct A as [A|A], B as [B|B]; rewrite A, B in C.
      + apply N1. rewrite !Z.mul_1_r in C. apply eqm_sym, C.
      + apply N2. replace (- y ^ E) with (y ^ E * -1) by ring. rewrite C. rewrite Z.mul_1_r. reflexivity.
      + apply N2. replace (x ^ E) with (- (x ^ E * -1)) by ring. rewrite <- C. rewrite Z.mul_1_r. reflexivity.
      + apply N1. replace (x ^ E) with (- (x ^ E * -1)) by ring. rewrite <- C. replace (- (y ^ E * -1)) with (y ^ E) by ring. reflexivity. }
  assert (IC : incl (flat_map (coset n P) g) (residues n)).
  { intros z Hz. apply in_flat_map in Hz. destruct Hz as [x [Hx Hz]]. apply in_map_iff in Hz. destruct Hz as [a [<- A]].
    apply Hin in A. destruct A as [_ A]. apply residues_in. pose proof (Z.mod_pos_bound (x * a) n ltac:(lia)) as Bd.
    assert ((x * a) mod n <> 0); [|lia]. intros C. apply mod0_divide in C; [|lia].
    pose proof (rel_prime_mult _ _ _ (Hg x Hx) (pow_pm1_rel n a E HE A)) as R.
    destruct R as [_ _ R]. specialize (R n (Z.divide_refl n) C). apply Z.divide_1_r_nonneg in R; lia. }
  pose proof (NoDup_incl_length ND IC) as L.
  assert (LL : length (flat_map (coset n P) g) = (length g * length (filter P (residues n)))%nat).
  { clear. induction g as [|x g IH]; [reflexivity|]. cbn [flat_map length]. rewrite app_length, IH. unfold coset. rewrite map_length. reflexivity. }
  rewrite LL in L. apply inj_le in L. rewrite Nat2Z.inj_mul, residues_length in L by lia. exact L.
Qed.

(** ** Chinese remainders *)
Lemma crt2 : forall A B u v, rel_prime A B -> exists x, x =[A]= u /\ x =[B]= v.
Proof.
  intros A B u v R. destruct (rel_prime_bezout _ _ R) as [a b Hab].
  exists (u * (b * B) + v * (a * A)). split; unfold eqm.
  - exists (a * (v - u)). replace (b * B) with (1 - a * A) by lia. ring.
  - exists (b * (u - v)). replace (a * A) with (1 - b * B) by lia. ring.
Qed.
Lemma eqm_mul_mod : forall A B x y, rel_prime A B -> x =[A]= y -> x =[B]= y -> x =[A * B]= y.
Proof. intros A B x y R HA HB. unfold eqm in *. apply rel_prime_mul_divide; assumption. Qed.

(** ** First binomial terms *)
Lemma binom2 : forall m b x, exists c, (b + x) ^ Z.of_nat (S m) = b ^ Z.of_nat (S m) + Z.of_nat (S m) * b ^ Z.of_nat m * x + c * (x * x).
Proof.
  intros m b x. induction m as [|m [c IH]].
  - exists 0. change (Z.of_nat 1) with 1. change (Z.of_nat 0) with 0. rewrite !Z.pow_1_r, Z.pow_0_r. ring.
  - rewrite (Nat2Z.inj_succ (S m)), !Z.pow_succ_r by lia. rewrite IH.
    exists (Z.of_nat (S m) * b ^ Z.of_nat m + c * (b + x)).
    rewrite (Nat2Z.inj_succ m), Z.pow_succ_r by lia. unfold Z.succ. ring.
Qed.
Lemma pow_lift : forall p a b j, 1 <= p -> 1 <= j -> a =[p ^ j]= b -> a ^ p =[p ^ (j + 1)]= b ^ p.
Proof.
  intros p a b j Hp Hj [t Ht]. assert (Ea : a = b + t * p ^ j) by lia. subst a. clear Ht.
  destruct (binom2 (Z.to_nat (p - 1)) b (t * p ^ j)) as [c Hc].
  replace (Z.of_nat (S (Z.to_nat (p - 1)))) with p in Hc by lia. rewrite Hc. unfold eqm.
  rewrite Z.pow_add_r, Z.pow_1_r by lia.
  assert (Ej : p ^ j = p * p ^ (j - 1)) by (rewrite <- Z.pow_succ_r by lia; f_equal; lia).
  exists (b ^ Z.of_nat (Z.to_nat (p - 1)) * t + c * t * t * p ^ (j - 1)). rewrite Ej. ring.
Qed.
Lemma pow_lift_all : forall p a b j, 1 <= p -> a =[p]= b -> a ^ (p ^ Z.of_nat j) =[p ^ (Z.of_nat j + 1)]= b ^ (p ^ Z.of_nat j).
Proof.
  intros p a b j Hp H. induction j as [|j IH].
  - change (Z.of_nat 0) with 0. change (0 + 1) with 1. rewrite Z.pow_0_r, !Z.pow_1_r. exact H.
  - rewrite Nat2Z.inj_succ. rewrite Z.pow_succ_r by lia. rewrite (Z.mul_comm p), !Z.pow_mul_r by (try apply Z.pow_nonneg; lia).
    replace (Z.succ (Z.of_nat j) + 1) with ((Z.of_nat j + 1) + 1) by lia. apply pow_lift; [lia | lia | exact IH].
Qed.

(** ** Prime powers *)
Lemma prime_power_liars : forall p e P, prime p -> 3 <= p -> 2 <= e ->
  (forall a, 1 <= a < p ^ e -> P a = true -> a ^ (p ^ e - 1) =[p ^ e]= 1) ->
  4 * count P (Z.to_nat (p ^ e - 1)) <= p ^ e - 1.
Proof.
  intros p e P Hp H3 He HP. set (n := p ^ e) in *.
  assert (Hn : p * p <= n). { unfold n. replace e with (2 + (e - 2)) by lia. rewrite Z.pow_add_r, Z.pow_2_r by lia. pose proof (Z.pow_pos_nonneg p (e - 2) ltac:(lia) ltac:(lia)). nia. }
  assert (Hpn : (p | n)). { unfold n. replace e with (Z.succ (e - 1)) by lia. rewrite Z.pow_succ_r by lia. apply Z.divide_mul_l, Z.divide_refl. }
  assert (n1 : 1 <= n - 1) by nia.
  rewrite count_residues.
  assert (Hin : forall a, In a (filter P (residues n)) -> 1 <= a < n /\ a ^ (n - 1) =[n]= 1).
  { intros a Hi. apply filter_In in Hi. destruct Hi as [Hi Hq]. apply residues_in in Hi. split; [exact Hi|]. apply HP; assumption. }
  assert (ND : NoDup (map (fun a => a mod p) (filter P (residues n)))).
  { apply NoDup_map_in; [|apply NoDup_filter, residues_NoDup]. intros a b A B Eq. apply Hin in A, B. destruct A as [A1 A2], B as [B1 B2].
    apply eqm_mod_eq in Eq; [|lia]. apply (pow_lift_all p a b (Z.to_nat (e - 1))) in Eq; [|lia]. rewrite Z2Nat.id in Eq by lia.
    replace (e - 1 + 1) with e in Eq by lia. fold n in Eq. apply (eqm_pow n _ _ p) in Eq. rewrite <- !Z.pow_mul_r in Eq by (try apply Z.pow_nonneg; lia).
    assert (En : p ^ (e - 1) * p = Z.succ (n - 1)).
    { unfold n. rewrite Z.mul_comm, <- Z.pow_succ_r by lia. replace (Z.succ (e - 1)) with e by lia. lia. }
    rewrite En, !Z.pow_succ_r, A2, B2, !Z.mul_1_r in Eq by lia. apply (eqm_small n); [lia | lia | exact Eq]. }
  assert (IC : incl (map (fun a => a mod p) (filter P (residues n))) (residues p)).
  { intros z Hz. apply in_map_iff in Hz. destruct Hz as [a [<- A]]. apply Hin in A. destruct A as [_ A]. apply residues_in.
    pose proof (Z.mod_pos_bound a p ltac:(lia)). assert (a mod p <> 0); [|lia]. intros C. apply mod0_divide in C; [|lia].
    pose proof (pow_one_rel n a (n - 1) n1 A) as R. destruct R as [_ _ R]. specialize (R p Hpn C). apply Z.divide_1_r_nonneg in R; lia. }
  pose proof (NoDup_incl_length ND IC) as L. rewrite map_length in L. apply inj_le in L. rewrite residues_length in L by lia. nia.
Qed.

(** ** Fermat witnesses for a product of two prime powers *)
Lemma carmichael_square : forall p n c, prime p -> 3 <= p -> 1 < n -> (p * p | n) -> c =[p * p]= 1 + p -> ~ c ^ (n - 1) =[n]= 1.
Proof.
  intros p n c Hp H3 Hn Hd Hc C. apply (eqm_divide _ _ _ _ Hd) in C. rewrite Hc in C.
  destruct (binom2 (Z.to_nat (n - 2)) 1 p) as [q Hq]. replace (Z.of_nat (S (Z.to_nat (n - 2)))) with (n - 1) in Hq by lia.
  rewrite Hq, !Z.pow_1_l in C by lia. destruct C as [k Hk], Hd as [l Hl].
  assert (D : p * (p * (l * p + q - k)) = p * 1) by (rewrite Hl in Hk; lia). apply Z.mul_reg_l in D; [|lia].
  assert (F : (p | 1)) by (exists (l * p + q - k); lia). apply Z.divide_1_r_nonneg in F; lia.
Qed.
Lemma power_not_one : forall q m, prime q -> 1 <= m < q - 1 -> exists c, 1 <= c < q /\ ~ c ^ m =[q]= 1.
Proof.
  intros q m Hq Hm. destruct (forallb (fun c => (c ^ m - 1) mod q =? 0) (residues q)) eqn:E.
  - exfalso. rewrite forallb_forall in E.
    assert (L : (length (residues q) <= Z.to_nat m)%nat).
    { apply (lagrange_roots q Hq (Z.to_nat m) (xn1 (Z.to_nat m))).
      - destruct (xn1_length (Z.to_nat m)); [assumption | lia].
      - rewrite xn1_last by lia. intros C. apply divide_pos_le in C; lia.
      - apply residues_NoDup.
      - intros x Hx. pose proof (proj1 (residues_in q x) Hx). split; [lia|]. rewrite xn1_eval by lia. rewrite Z2Nat.id by lia.
        specialize (E x Hx). apply Z.eqb_eq in E. apply mod0_divide in E; [exact E | lia]. }
    apply inj_le in L. rewrite residues_length in L by lia. lia.
  - assert (X : exists c, In c (residues q) /\ ((c ^ m - 1) mod q =? 0) = false).
    { clear - E. induction (residues q) as [|c l IH]; [discriminate E|]. cbn [forallb] in E. destruct ((c ^ m - 1) mod q =? 0) eqn:Ec.
      - destruct (IH E) as [c' [H1 H2]]. exists c'. split; [right; exact H1 | exact H2].
      - exists c. split; [left; reflexivity | exact Ec]. }
    destruct X as [c [Hc Ec]]. apply residues_in in Hc. exists c. split; [exact Hc|]. intros C. apply Z.eqb_neq in Ec. apply Ec. apply mod0_divide; [lia | exact C].
Qed.
Lemma semiprime_witness : forall p q, prime p -> prime q -> 3 <= p -> p < q -> exists c, rel_prime (p * q) c /\ ~ c ^ (p * q - 1) =[p * q]= 1.
Proof.
  intros p q Hp Hq H3 Hlt.
  assert (R : rel_prime p q) by (apply prime_rel_prime; [exact Hp|]; intros C; apply prime_divides_prime in C; try assumption; lia).
  destruct (power_not_one q (p - 1) Hq ltac:(lia)) as [c0 [Hc0 Nc]].
  destruct (crt2 p q 1 c0 R) as [c [C1 C2]]. exists c. split.
  - apply rel_prime_sym. apply rel_prime_mult; apply rel_prime_sym.
    + apply (pow_one_rel p c 1); [lia|]. rewrite Z.pow_1_r. exact C1.
    + apply (pow_one_rel q c (q - 1)); [lia|]. rewrite C2. apply fermat; [exact Hq|]. intros D. apply divide_pos_le in D; lia.
  - intros C. apply (eqm_divide _ q) in C; [|apply Z.divide_mul_r, Z.divide_refl]. rewrite C2 in C. apply Nc.
    replace (p * q - 1) with ((q - 1) * p + (p - 1)) in C by ring. rewrite Z.pow_add_r, Z.pow_mul_r in C by nia.
    rewrite (fermat q c0) in C; [|exact Hq|intros D; apply divide_pos_le in D; lia]. rewrite Z.pow_1_l, Z.mul_1_l in C by lia. exact C.
Qed.

(** ** The largest exponent with a root of -1 *)
Definition has_root (n i : Z) : Prop := exists a, a ^ (2 ^ i) =[n]= -1.
Lemma has_root_dec : forall n i, 2 <= n -> 0 <= i -> has_root n i \/ ~ has_root n i.
Proof.
  intros n i Hn Hi. destruct (existsb (fun a => (a ^ (2 ^ i) + 1) mod n =? 0) (0 :: residues n)) eqn:E.
  - left. apply existsb_exists in E. destruct E as [a [_ Ea]]. exists a. apply Z.eqb_eq in Ea. apply mod0_divide in Ea; [|lia].
    unfold eqm. replace (a ^ 2 ^ i - -1) with (a ^ 2 ^ i + 1) by ring. exact Ea.
  - right. intros [a Ha]. rewrite <- not_true_iff_false in E. apply E. apply existsb_exists. exists (a mod n). split.
    + pose proof (Z.mod_pos_bound a n ltac:(lia)). destruct (Z.eq_dec (a mod n) 0) as [->|]; [left; reflexivity|]. right. apply residues_in. lia.
    + apply Z.eqb_eq, mod0_divide; [lia|]. replace ((a mod n) ^ 2 ^ i + 1) with ((a mod n) ^ 2 ^ i - -1) by ring.
      change ((a mod n) ^ 2 ^ i =[n]= -1). rewrite eqm_mod by lia. exact Ha.
Qed.
Lemma largest_root : forall n s, 2 <= n -> exists i, 0 <= i < Z.of_nat (S s) /\ has_root n i /\ forall r, i < r < Z.of_nat (S s) -> ~ has_root n r.
Proof.
  intros n s Hn. induction s as [|s [i [Hi [Hr Hm]]]].
  - exists 0. split; [lia|]. split; [|intros; lia]. exists (-1). rewrite Z.pow_0_r, Z.pow_1_r. reflexivity.
  - destruct (has_root_dec n (Z.of_nat (S s)) Hn ltac:(lia)) as [H|H].
    + exists (Z.of_nat (S s)). split; [lia|]. split; [exact H | intros; lia].
    + exists i. split; [lia|]. split; [exact Hr|]. intros r Hrr. destruct (Z.eq_dec r (Z.of_nat (S s))) as [->|]; [exact H|]. apply Hm. lia.
Qed.
Lemma odd_part_unique : forall d s d' s', Z.odd d = true -> Z.odd d' = true -> 0 <= s -> 0 <= s' -> d * 2 ^ s = d' * 2 ^ s' -> d = d' /\ s = s'.
Proof.
  assert (W : forall d s d' s', Z.odd d = true -> Z.odd d' = true -> 0 <= s <= s' -> d * 2 ^ s = d' * 2 ^ s' -> d = d' /\ s = s').
  { intros d s d' s' Hd Hd' Hs E. replace s' with (s + (s' - s)) in E by lia. rewrite Z.pow_add_r in E by lia.
    pose proof (Z.pow_pos_nonneg 2 s ltac:(lia) ltac:(lia)) as P.
    assert (E2 : d = d' * 2 ^ (s' - s)) by nia. destruct (Z.eq_dec s' s) as [->|Ns].
    - rewrite Z.sub_diag, Z.pow_0_r in E2. lia.
    - exfalso. replace (s' - s) with (Z.succ (s' - s - 1)) in E2 by lia. rewrite Z.pow_succ_r in E2 by lia.
      rewrite E2, !Z.odd_mul in Hd. cbn [Z.odd andb] in Hd. rewrite andb_false_r in Hd. discriminate Hd. }
  intros d s d' s' Hd Hd' Hs Hs' E. destruct (Z.le_ge_cases s s') as [L|L]; [apply W; auto; lia|].
  symmetry in E. apply W in E; auto; lia.
Qed.
Lemma pow_odd_m1 : forall d, Z.odd d = true -> 0 <= d -> (-1) ^ d = -1.
Proof.
  intros d Ho Hd. apply Zodd_bool_iff in Ho. destruct (Zodd_ex d Ho) as [k ->]. rewrite Z.pow_add_r, Z.pow_mul_r by lia.
  change ((-1) ^ 2) with 1. rewrite Z.pow_1_l by lia. reflexivity.
Qed.
Lemma liar_group : forall n d s i a, 3 <= n -> n - 1 = d * 2 ^ s -> Z.odd d = true -> 0 <= i < s ->
  (forall r, i < r < s -> ~ has_root n r) -> strong_prp n a -> a ^ (d * 2 ^ i) =[n]= 1 \/ a ^ (d * 2 ^ i) =[n]= -1.
Proof.
  intros n d s i a Hn En Hd Hi Hm [d' [s' [Hs' [Hd' [En' H]]]]].
  destruct (odd_part_unique d s d' s' Hd Hd' ltac:(lia) Hs' ltac:(lia)) as [<- <-].
  assert (P : 0 <= d). { pose proof (Z.pow_pos_nonneg 2 s ltac:(lia) ltac:(lia)). nia. }
  assert (Q : forall r, 0 <= r -> 0 <= 2 ^ r) by (intros; apply Z.pow_nonneg; lia).
  rewrite Z.pow_mul_r by (try apply Q; lia). destruct H as [H|[r [Hr H]]].
  - left. apply modN_eqm in H; [|lia]. apply pow2_1; [lia | exact H].
  - apply modN_eqm in H; [|lia]. rewrite Z.pow_mul_r in H by (try apply Q; lia).
    assert (r <= i) by (destruct (Z.le_gt_cases r i); [assumption|]; exfalso; apply (Hm r ltac:(lia)); exists (a ^ d); exact H).
    destruct (Z.eq_dec r i) as [->|Nr]; [right; exact H|]. left. replace i with (r + (1 + (i - r - 1))) by lia.
    rewrite Z.pow_add_r, Z.pow_mul_r by (try apply Q; lia). rewrite H. rewrite Z.pow_add_r, Z.pow_1_r, Z.pow_mul_r by (try apply Q; lia).
    change ((-1) ^ 2) with 1. rewrite Z.pow_1_l by (apply Q; lia). reflexivity.
Qed.

(** ** The two coset arguments *)
Section Cosets.
Variables (n E a0 : Z).
Hypothesis HE : 1 <= E.
Hypothesis Ha0 : a0 ^ E =[n]= -1.

Lemma part : forall A B, n = A * B -> rel_prime A B -> exists x, x ^ E =[A]= -1 /\ x ^ E =[B]= 1.
Proof.
  intros A B En R. destruct (crt2 A B a0 1 R) as [x [H1 H2]]. exists x. split.
  - rewrite H1. apply (eqm_divide n); [exists B; lia | exact Ha0].
  - rewrite H2, Z.pow_1_l by lia. reflexivity.
Qed.
Lemma part_rel : forall A B x, n = A * B -> rel_prime A B -> x ^ E =[A]= -1 -> x ^ E =[B]= 1 -> rel_prime n x.
Proof.
  intros A B x En R H1 H2. apply (pow_one_rel n x (E * 2)); [lia|]. rewrite Z.pow_mul_r, Z.pow_2_r by lia. rewrite En.
  apply eqm_mul_mod; [exact R | rewrite H1; reflexivity | rewrite H2; reflexivity].
Qed.

Lemma three_parts : forall A B C P, n = A * B * C -> 3 <= A -> 3 <= B -> 3 <= C ->
  rel_prime A B -> rel_prime A C -> rel_prime B C ->
  (forall a, 1 <= a < n -> P a = true -> a ^ E =[n]= 1 \/ a ^ E =[n]= -1) ->
  4 * count P (Z.to_nat (n - 1)) <= n - 1.
Proof.
  intros A B C P En A3 B3 C3 RAB RAC RBC HP.
  assert (R1 : rel_prime A (B * C)) by (apply rel_prime_mult; assumption).
  assert (R2 : rel_prime B (A * C)) by (apply rel_prime_mult; [apply rel_prime_sym|]; assumption).
  assert (R3 : rel_prime C (A * B)) by (apply rel_prime_mult; apply rel_prime_sym; assumption).
  destruct (part A (B * C)) as [x [X1 X2]]; [lia | exact R1 |]. destruct (part B (A * C)) as [y [Y1 Y2]]; [lia | exact R2 |].
  destruct (part C (A * B)) as [z [Z1 Z2]]; [lia | exact R3 |].
  assert (XB : x ^ E =[B]= 1) by (apply (eqm_divide (B * C)); [exists C; ring | exact X2]).
  assert (XC : x ^ E =[C]= 1) by (apply (eqm_divide (B * C)); [exists B; ring | exact X2]).
  assert (YA : y ^ E =[A]= 1) by (apply (eqm_divide (A * C)); [exists C; ring | exact Y2]).
  assert (YC : y ^ E =[C]= 1) by (apply (eqm_divide (A * C)); [exists A; ring | exact Y2]).
  assert (ZA : z ^ E =[A]= 1) by (apply (eqm_divide (A * B)); [exists B; ring | exact Z2]).
  assert (ZB : z ^ E =[B]= 1) by (apply (eqm_divide (A * B)); [exists A; ring | exact Z2]).
  assert (DA : (A | n)) by (exists (B * C); lia). assert (DB : (B | n)) by (exists (A * C); lia). assert (DC : (C | n)) by (exists (A * B); lia).
  pose proof (m1_neq_1 A A3) as NA. pose proof (m1_neq_1 B B3) as NB. pose proof (m1_neq_1 C C3) as NC.
  change 4 with (Z.of_nat (length [1; x; y; z])). apply (cosets n E); [nia | exact HE | | | exact HP].
  - intros g [<-|[<-|[<-|[<-|[]]]]].
    + apply rel_prime_sym, rel_prime_1.
    + apply (part_rel A (B * C)); auto; lia.
    + apply (part_rel B (A * C)); auto; lia.
    + apply (part_rel C (A * B)); auto; lia.
  - assert (one : 1 ^ E = 1) by (apply Z.pow_1_l; lia).
    cbn [apart]. repeat split; intros; cbn [In] in *;
    repeat match goal with H : _ \/ _ |- _ => destruct H as [H|H] | H : False |- _ => destruct H end; subst; rewrite ?one; intros Q;
    pose proof (eqm_divide _ _ _ _ DA Q) as QA; pose proof (eqm_divide _ _ _ _ DB Q) as QB; pose proof (eqm_divide _ _ _ _ DC Q) as QC;
    rewrite ?X1, ?YA, ?ZA in QA; rewrite ?XB, ?Y1, ?ZB in QB; rewrite ?XC, ?YC, ?Z1 in QC;
    first [apply NA; exact QA | apply NB; exact QB | apply NC; exact QC | apply NA; apply eqm_sym; exact QA | apply NB; apply eqm_sym; exact QB | apply NC; apply eqm_sym; exact QC].
Qed.

Lemma two_parts : forall A B c P k, n = A * B -> 3 <= A -> 3 <= B -> rel_prime A B ->
  0 <= k -> n - 1 = E * 2 * k -> rel_prime n c -> ~ c ^ (n - 1) =[n]= 1 ->
  (forall a, 1 <= a < n -> P a = true -> a ^ E =[n]= 1 \/ a ^ E =[n]= -1) ->
  4 * count P (Z.to_nat (n - 1)) <= n - 1.
Proof.
  intros A B c P k En A3 B3 R Hk Ek Rc Nc HP.
  destruct (part A B En R) as [x [X1 X2]].
  assert (Rx : rel_prime n x) by (apply (part_rel A B); auto).
  assert (DA : (A | n)) by (exists B; lia). assert (DB : (B | n)) by (exists A; lia).
  pose proof (m1_neq_1 A A3) as NA. pose proof (m1_neq_1 B B3) as NB.
  assert (Xx : x ^ E * x ^ E =[n]= 1) by (rewrite En; apply eqm_mul_mod; [exact R | rewrite X1; reflexivity | rewrite X2; reflexivity]).
  assert (Nx1 : ~ 1 =[n]= x ^ E) by (intros Q; apply (eqm_divide _ _ _ _ DA) in Q; rewrite X1 in Q; contradiction).
  assert (Nx2 : ~ 1 =[n]= - x ^ E) by (intros Q; apply (eqm_divide _ _ _ _ DB) in Q; rewrite X2 in Q; contradiction).
  assert (Nsq : ~ c ^ E * c ^ E =[n]= 1).
  { intros Q. apply Nc. rewrite Ek. rewrite !Z.pow_mul_r by lia. rewrite Z.pow_2_r, Q. rewrite Z.pow_1_l by lia. reflexivity. }
  assert (RcE : rel_prime n (c ^ E)) by (apply rel_prime_Zpower_r; [lia | exact Rc]).
  change 4 with (Z.of_nat (length [1; x; c; c * x])). apply (cosets n E); [nia | exact HE | | | exact HP].
  - intros g [<-|[<-|[<-|[<-|[]]]]]; [apply rel_prime_sym, rel_prime_1 | exact Rx | exact Rc | apply rel_prime_mult; assumption].
  - assert (one : 1 ^ E = 1) by (apply Z.pow_1_l; lia).
    assert (SQ : forall u v, u =[n]= v \/ u =[n]= - v -> u * u =[n]= v * v).
    { intros u v [H|H]; rewrite H; [reflexivity|]. replace (- v * - v) with (v * v) by ring. reflexivity. }
    assert (CX : (c * x) ^ E * (c * x) ^ E =[n]= c ^ E * c ^ E).
    { rewrite Z.pow_mul_l. replace (c ^ E * x ^ E * (c ^ E * x ^ E)) with (c ^ E * c ^ E * (x ^ E * x ^ E)) by ring. rewrite Xx, Z.mul_1_r. reflexivity. }
    cbn [apart]. repeat split; intros; cbn [In] in *;
    repeat match goal with H : _ \/ _ |- _ => destruct H as [H|H] | H : False |- _ => destruct H end; subst y; rewrite ?one; intros Q.
    all: try (apply Nx1; exact Q). all: try (apply Nx2; exact Q).
    all: try (apply Nsq; pose proof (SQ _ _ (or_introl Q)) as S; rewrite ?CX, ?Xx in S; rewrite <- S; reflexivity).
    all: try (apply Nsq; pose proof (SQ _ _ (or_intror Q)) as S; rewrite ?CX, ?Xx in S; rewrite <- S; reflexivity).
    + rewrite Z.pow_mul_l in Q. apply Nx1. apply (eqm_cancel_l n (c ^ E)); [exact RcE|]. rewrite Z.mul_1_r. exact Q.
    + rewrite Z.pow_mul_l in Q. apply Nx2. apply (eqm_cancel_l n (c ^ E)); [exact RcE|]. rewrite Z.mul_1_r.
      replace (c ^ E * - x ^ E) with (- (c ^ E * x ^ E)) by ring. exact Q.
Qed.
End Cosets.

Lemma split_prime : forall p n, prime p -> 1 <= n -> exists e m, 0 <= e /\ n = p ^ e * m /\ 1 <= m /\ ~ (p | m).
Proof.
  intros p n Hp Hn. pose proof (prime_ge2 p Hp) as P2. revert n Hn. apply pos_ind_strong. intros n Hn IH.
  destruct (Zdivide_dec p n) as [[k Hk]|Nd].
  - destruct (IH k) as [e [m [He [Em [Hm Nm]]]]]; [nia|]. exists (e + 1), m. split; [lia|]. split; [|auto].
    rewrite Z.pow_add_r, Z.pow_1_r by lia. rewrite Hk, Em. ring.
  - exists 0, n. split; [lia|]. split; [rewrite Z.pow_0_r; ring|]. auto.
Qed.
Lemma odd_of_ndiv : forall d, ~ (2 | d) -> Z.odd d = true.
Proof.
  intros d H. destruct (Z.odd d) eqn:E; [reflexivity|]. exfalso. apply H. apply mod0_divide; [lia|]. rewrite Zmod_odd, E. reflexivity.
Qed.
Lemma pow_ge_base : forall p e, 3 <= p -> 1 <= e -> 3 <= p ^ e.
Proof. intros p e Hp He. replace e with (Z.succ (e - 1)) by lia. rewrite Z.pow_succ_r by lia. pose proof (Z.pow_pos_nonneg p (e - 1) ltac:(lia) ltac:(lia)). nia. Qed.
Lemma odd_prime_ge3 : forall p n, Z.odd n = true -> prime p -> (p | n) -> 3 <= p.
Proof.
  intros p n Ho Hp Hd. pose proof (prime_ge2 p Hp). destruct (Z.eq_dec p 2) as [->|]; [|lia]. exfalso. apply (odd_not_div2 n Ho Hd).
Qed.
Lemma square_witness : forall p e B n, prime p -> 3 <= p -> 2 <= e -> 1 <= B -> n = p ^ e * B -> rel_prime (p ^ e) B ->
  exists c, rel_prime n c /\ ~ c ^ (n - 1) =[n]= 1.
Proof.
  intros p e B n Hp H3 He HB En R. destruct (crt2 (p ^ e) B (1 + p) 1 R) as [c [C1 C2]].
  assert (Dp : (p * p | p ^ e)). { replace e with (2 + (e - 2)) by lia. rewrite Z.pow_add_r, Z.pow_2_r by lia. apply Z.divide_mul_l, Z.divide_refl. }
  pose proof (Z.pow_pos_nonneg p e ltac:(lia) ltac:(lia)) as Pe. pose proof (pow_ge_base p e H3 ltac:(lia)) as Pe3.
  exists c. split.
  - rewrite En. apply rel_prime_sym, rel_prime_mult; apply rel_prime_sym.
    + apply rel_prime_sym, rel_prime_Zpower_r; [lia|]. apply rel_prime_sym, (pow_one_rel p c 1); [lia|]. rewrite Z.pow_1_r.
      apply (eqm_trans _ _ (1 + p)).
      * apply (eqm_divide (p ^ e)); [|exact C1]. apply (Z.divide_trans _ (p * p)); [exists p; ring | exact Dp].
      * exists 1. ring.
    + apply (pow_one_rel B c 1); [lia|]. rewrite Z.pow_1_r. exact C2.
  - apply (carmichael_square p); [exact Hp | exact H3 | nia | | apply (eqm_divide (p ^ e)); assumption].
    rewrite En. apply Z.divide_mul_l, Dp.
Qed.

Theorem rabin_monier : forall n P, 3 <= n -> Z.odd n = true -> ~ prime n ->
  (forall a, 1 <= a < n -> P a = true -> strong_prp n a) ->
  4 * count P (Z.to_nat (n - 1)) <= n - 1.
Proof.
  intros n P H3 Ho Np HP.
  destruct (split_prime 2 (n - 1) prime_2 ltac:(lia)) as [s [d [Hs [En [Hd Nd]]]]]. apply odd_of_ndiv in Nd.
  assert (S1 : 1 <= s).
  { destruct (Z.eq_dec s 0) as [->|]; [|lia]. exfalso. rewrite Z.pow_0_r, Z.mul_1_l in En. rewrite <- En in Nd.
    replace (n - 1) with (n + -1) in Nd by lia. rewrite Z.odd_add, Ho in Nd. discriminate Nd. }
  rewrite Z.mul_comm in En.
  destruct (largest_root n (Z.to_nat (s - 1)) ltac:(lia)) as [i [Hi [[b0 Hb0] Hm]]]. rewrite Nat2Z.inj_succ, Z2Nat.id in Hi, Hm by lia.
  replace (Z.succ (s - 1)) with s in Hi, Hm by lia.
  set (E := d * 2 ^ i). pose proof (Z.pow_pos_nonneg 2 i ltac:(lia) ltac:(lia)) as P2i.
  assert (HE : 1 <= E) by (unfold E; nia).
  assert (HG : forall a, 1 <= a < n -> P a = true -> a ^ E =[n]= 1 \/ a ^ E =[n]= -1).
  { intros a Ha Hp. apply (liar_group n d s i a H3 En Nd Hi Hm). apply HP; assumption. }
  assert (Ha0 : b0 ^ E =[n]= -1).
  { unfold E. rewrite (Z.mul_comm d), Z.pow_mul_r by lia. rewrite Hb0. rewrite pow_odd_m1 by (auto; lia). reflexivity. }
  assert (Ek : exists k, 0 <= k /\ n - 1 = E * 2 * k).
  { exists (2 ^ (s - i - 1)). split; [apply Z.pow_nonneg; lia|]. rewrite En. unfold E. assert (Es : 2 ^ s = 2 ^ (i + (1 + (s - i - 1)))) by (f_equal; lia). rewrite Es.
    rewrite !Z.pow_add_r, Z.pow_1_r by lia. ring. }
  destruct Ek as [k [Hk Ek]].
  destruct (prime_divisor_exists n ltac:(lia)) as [p [Hp Dp]]. pose proof (odd_prime_ge3 p n Ho Hp Dp) as P3.
  destruct (split_prime p n Hp ltac:(lia)) as [e [m [He [Em [Hm1 Nm]]]]].
  assert (He1 : 1 <= e). { destruct (Z.eq_dec e 0) as [->|]; [|lia]. exfalso. rewrite Z.pow_0_r, Z.mul_1_l in Em. subst m. contradiction. }
  pose proof (pow_ge_base p e P3 He1) as A3.
  assert (RA : rel_prime (p ^ e) m) by (apply rel_prime_sym, rel_prime_Zpower_r; [lia|]; apply rel_prime_sym, prime_rel_prime; assumption).
  destruct (Z.eq_dec m 1) as [M1|M1].
  - assert (e <> 1) by (intros ->; apply Np; rewrite Em, M1, Z.pow_1_r, Z.mul_1_r; exact Hp).
    assert (Q : n = p ^ e) by lia. rewrite Q. apply prime_power_liars; [exact Hp | exact P3 | lia |]. rewrite <- Q.
    intros a Ha Hpa. destruct (HG a Ha Hpa) as [Hg|Hg]; rewrite Ek, !Z.pow_mul_r by lia; rewrite Hg; change (1 ^ 2) with 1; change ((-1) ^ 2) with 1; rewrite Z.pow_1_l by lia; reflexivity.
  - destruct (prime_divisor_exists m ltac:(lia)) as [q [Hq Dq]].
    assert (Dqn : (q | n)) by (rewrite Em; apply Z.divide_mul_r, Dq). pose proof (odd_prime_ge3 q n Ho Hq Dqn) as Q3.
    assert (Npq : p <> q) by (intros ->; contradiction).
    destruct (split_prime q m Hq ltac:(lia)) as [e' [l [He' [El [Hl Nl]]]]].
    assert (He1' : 1 <= e'). { destruct (Z.eq_dec e' 0) as [->|]; [|lia]. exfalso. rewrite Z.pow_0_r, Z.mul_1_l in El. subst l. contradiction. }
    pose proof (pow_ge_base q e' Q3 He1') as B3.
    assert (RB : rel_prime (q ^ e') l) by (apply rel_prime_sym, rel_prime_Zpower_r; [lia|]; apply rel_prime_sym, prime_rel_prime; assumption).
    destruct (Z.eq_dec l 1) as [L1|L1].
    + subst l. rewrite Z.mul_1_r in El. subst m.
      assert (W : exists c, rel_prime n c /\ ~ c ^ (n - 1) =[n]= 1).
      { destruct (Z.eq_dec e 1) as [->|Ne]; [|apply (square_witness p e (q ^ e') n); auto; lia].
        destruct (Z.eq_dec e' 1) as [->|Ne']; [|apply (square_witness q e' (p ^ 1) n); auto; [lia | lia | lia | apply rel_prime_sym, RA]].
        rewrite !Z.pow_1_r in Em. rewrite Em. destruct (Z.lt_total p q) as [L|[L|L]]; [apply semiprime_witness; auto | contradiction |].
        rewrite Z.mul_comm. apply semiprime_witness; auto. }
      destruct W as [c [Rc Nc]]. apply (two_parts n E b0 HE Ha0 (p ^ e) (q ^ e') c P k); auto.
    + assert (L3 : 3 <= l).
      { assert (Dl : (l | n)) by (rewrite Em, El; exists (p ^ e * q ^ e'); ring). pose proof (odd_divisor n l Ho Dl) as Ol.
        destruct (Z.eq_dec l 2) as [->|]; [discriminate Ol | lia]. }
      assert (RAq : rel_prime (p ^ e) (q ^ e')) by (apply rel_prime_sym; apply (rel_prime_div m); [apply rel_prime_sym, RA | exists l; lia]).
      assert (RAl : rel_prime (p ^ e) l) by (apply rel_prime_sym; apply (rel_prime_div m); [apply rel_prime_sym, RA | exists (q ^ e'); lia]).
      apply (three_parts n E b0 HE Ha0 (p ^ e) (q ^ e') l P); auto. rewrite Em, El. ring.
Qed.
