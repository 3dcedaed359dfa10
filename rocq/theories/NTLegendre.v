(** * Legendre and Jacobi symbols: Euler's criterion, multiplicativity, factor lists. *)
From Coq Require Import ZArith Znumtheory Zpow_facts List Lia Bool Permutation.
From Verif Require Import Spec NT.
Import ListNotations.
Local Open Scope Z_scope.

(** ** Roots of polynomials modulo a prime (Lagrange).
    A polynomial is its list of coefficients, constant term first. *)
Fixpoint peval (f : list Z) (x : Z) : Z :=
  match f with [] => 0 | c :: f' => c + x * peval f' x end.
(** quotient of f - f(r) by X - r *)
Fixpoint pdiv (f : list Z) (r : Z) : list Z :=
  match f with [] => [] | c :: f' => match f' with [] => [] | _ => peval f' r :: pdiv f' r end end.
Lemma pdiv_spec : forall f r x, peval f x - peval f r = (x - r) * peval (pdiv f r) x.
Proof.
  induction f as [|c f IH]; intros r x; cbn [peval pdiv]; [ring|]. destruct f as [|c' f]; [cbn; ring|].
  cbn [peval] in *. set (F := c' + x * peval f x) in *. set (G := c' + r * peval f r) in *.
  replace (c + x * F - (c + r * G)) with ((x - r) * G + x * (F - G)) by ring. unfold F at 1. unfold G at 2. rewrite IH. ring.
Qed.
Lemma pdiv_length : forall f r, length (pdiv f r) = pred (length f).
Proof. induction f as [|c f IH]; intros r; [reflexivity|]. cbn [pdiv]. destruct f; [reflexivity|]. cbn [length] in *. rewrite IH. reflexivity. Qed.
Lemma pdiv_last : forall f r, (2 <= length f)%nat -> last (pdiv f r) 0 = last f 0.
Proof.
  induction f as [|c f IH]; intros r H; [cbn in H; lia|]. destruct f as [|c' f]; [cbn in H; lia|].
  destruct f as [|c'' f]; [cbn; ring|].
  change (pdiv (c :: c' :: c'' :: f) r) with (peval (c' :: c'' :: f) r :: pdiv (c' :: c'' :: f) r).
  change (last (c :: c' :: c'' :: f) 0) with (last (c' :: c'' :: f) 0). rewrite <- (IH r) by (cbn; lia).
  destruct (pdiv (c' :: c'' :: f) r) eqn:E; [|reflexivity].
  pose proof (pdiv_length (c' :: c'' :: f) r) as H1. rewrite E in H1. cbn in H1. lia.
Qed.

Lemma lagrange_roots : forall p, prime p -> forall n f roots, length f = S n -> ~ (p | last f 0) ->
  NoDup roots -> (forall x, In x roots -> 0 <= x < p /\ (p | peval f x)) -> (length roots <= n)%nat.
Proof.
  intros p Hp. pose proof (prime_ge2 p Hp). induction n as [|n IH]; intros f roots Hf Hl Hn Hr.
  - destruct f as [|c [|]]; cbn in Hf; try lia. cbn [last] in Hl. destruct roots as [|x roots]; [cbn; lia|].
    exfalso. apply Hl. destruct (Hr x) as [_ C]; [left; reflexivity|]. cbn [peval] in C. rewrite Z.mul_0_r, Z.add_0_r in C. exact C.
  - destruct roots as [|r roots]; [cbn; lia|]. cbn [length]. apply le_n_S. inversion Hn as [|? ? Hnr Hn']; subst.
    apply (IH (pdiv f r)); [rewrite pdiv_length, Hf; reflexivity | rewrite pdiv_last by lia; exact Hl | exact Hn' |].
    intros x Hx. destruct (Hr x) as [Hxr Hxd]; [right; exact Hx|]. destruct (Hr r) as [Hrr Hrd]; [left; reflexivity|].
    split; [exact Hxr|]. assert (D : (p | (x - r) * peval (pdiv f r) x)) by (rewrite <- pdiv_spec; apply Z.divide_sub_r; assumption).
    apply prime_div_mul in D; [|exact Hp]. destruct D as [D|D]; [|exact D]. exfalso.
    assert (x = r) by (apply (eqm_small p); assumption). subst. contradiction.
Qed.

(** The polynomial X^n - 1. *)
Definition xn1 (n : nat) : list Z := match n with O => [0] | S m => (-1) :: repeat 0 m ++ [1] end.
Lemma peval_repeat0 : forall m x, peval (repeat 0 m ++ [1]) x = x ^ Z.of_nat m.
Proof.
  induction m as [|m IH]; intros x; [cbn [repeat app peval]; change (Z.of_nat 0) with 0; rewrite Z.pow_0_r; ring|]. cbn [repeat app peval]. rewrite IH, Nat2Z.inj_succ, Z.pow_succ_r by lia. ring.
Qed.
Lemma xn1_eval : forall n x, (1 <= n)%nat -> peval (xn1 n) x = x ^ Z.of_nat n - 1.
Proof.
  intros [|m] x H; [lia|]. cbn [xn1 peval]. rewrite peval_repeat0, Nat2Z.inj_succ, Z.pow_succ_r by lia. ring.
Qed.
Lemma last_app1 : forall (l : list Z) a, last (l ++ [a]) 0 = a.
Proof. intros l a. apply last_last. Qed.
Lemma xn1_length : forall n, length (xn1 n) = S n \/ n = O.
Proof. intros [|m]; [right; reflexivity|]. left. cbn [xn1 length]. rewrite app_length, repeat_length. cbn. lia. Qed.
Lemma xn1_last : forall n, (1 <= n)%nat -> last (xn1 n) 0 = 1.
Proof. intros [|m] H; [lia|]. cbn [xn1]. change ((-1) :: repeat 0 m ++ [1]) with (((-1) :: repeat 0 m) ++ [1]). apply last_app1. Qed.

Lemma NoDup_map_in : forall A B (f : A -> B) l, (forall x y, In x l -> In y l -> f x = f y -> x = y) -> NoDup l -> NoDup (map f l).
Proof.
  intros A B f l H Hn. induction Hn as [|x l Hx Hn IH]; cbn [map]; constructor.
  - rewrite in_map_iff. intros [y [E Hy]]. assert (y = x) by (apply H; [right; exact Hy | left; reflexivity | exact E]). subst. contradiction.
  - apply IH. intros a b Ha Hb. apply H; right; assumption.
Qed.

(** ** Euler's criterion *)
Lemma legendre_cases : forall a p, 1 <= p ->
  (legendre a p = 0 /\ (p | a)) \/
  (legendre a p = 1 /\ ~ (p | a) /\ exists x, 1 <= x < p /\ x * x =[p]= a) \/
  (legendre a p = -1 /\ ~ (p | a) /\ ~ exists x, x * x =[p]= a).
Proof.
  intros a p Hp. unfold legendre. destruct (Z.eqb_spec (a mod p) 0) as [E|E].
  { left. split; [reflexivity|]. apply mod0_divide in E; [exact E | lia]. }
  assert (Ha : ~ (p | a)) by (intros C; apply E, mod0_divide; [lia | exact C]).
  destruct (existsb _ _) eqn:Ex.
  - right. left. split; [reflexivity|]. split; [exact Ha|]. apply existsb_exists in Ex. destruct Ex as [x [Hx Hm]].
    apply in_seq in Hx. exists (Z.of_nat x). split; [lia|]. apply Z.eqb_eq in Hm. apply mod0_divide in Hm; [exact Hm | lia].
  - right. right. split; [reflexivity|]. split; [exact Ha|]. intros [x Hx].
    assert (Hx0 : x mod p <> 0).
    { intros C. apply Ha. apply mod0_divide in C; [|lia]. replace a with (x * x - (x * x - a)) by ring.
      apply Z.divide_sub_r; [apply Z.divide_mul_l; exact C | exact Hx]. }
    pose proof (Z.mod_pos_bound x p ltac:(lia)).
    assert (C : existsb (fun x => (Z.of_nat x * Z.of_nat x - a) mod p =? 0) (seq 1 (Z.to_nat p - 1)) = true); [|congruence].
    apply existsb_exists. exists (Z.to_nat (x mod p)). split; [apply in_seq; lia|]. rewrite Z2Nat.id by lia. apply Z.eqb_eq.
    apply mod0_divide; [lia|]. change (x mod p * (x mod p) =[p]= a). eapply eqm_trans; [|exact Hx].
    apply eqm_mul; apply eqm_mod; lia.
Qed.

Lemma euler_criterion : forall p a, prime p -> Z.odd p = true -> a ^ ((p - 1) / 2) =[p]= legendre a p.
Proof.
  intros p a Hp Ho. pose proof (prime_ge2 p Hp). assert (H3 : 3 <= p) by (destruct (Z.eq_dec p 2) as [->|]; [discriminate Ho | lia]).
  destruct (Zodd_ex p) as [h Hh]; [apply Zodd_bool_iff; exact Ho|]. assert (Hh' : (p - 1) / 2 = h).
  { rewrite Hh. replace (2 * h + 1 - 1) with (h * 2) by ring. apply Z.div_mul. lia. }
  rewrite Hh'. destruct (legendre_cases a p) as [[-> D]|[[-> [D [x [Hx Ex]]]]|[-> [D Hno]]]]; [lia | | |].
  - apply eqm_0. replace h with (Z.succ (h - 1)) by lia. rewrite Z.pow_succ_r by lia. apply Z.divide_mul_l. exact D.
  - eapply eqm_trans; [apply eqm_pow, eqm_sym, Ex|]. rewrite <- Z.pow_2_r, <- Z.pow_mul_r by lia.
    replace (2 * h) with (p - 1) by lia. apply fermat; [exact Hp|]. intros C. apply divide_pos_le in C; lia.
  - assert (Sq : a ^ h * a ^ h =[p]= 1).
    { rewrite <- Z.pow_add_r by lia. replace (h + h) with (p - 1) by lia. apply fermat; assumption. }
    destruct (sqrt1_prime p _ Hp Sq) as [C|C]; [|exact C]. exfalso.
    set (sqs := map (fun k => (Z.of_nat k * Z.of_nat k) mod p) (seq 1 (Z.to_nat h))).
    assert (Hsq : forall x, In x sqs <-> exists k, 1 <= k <= h /\ x = (k * k) mod p).
    { intros x. unfold sqs. rewrite in_map_iff. split.
      - intros [k [E Hk]]. apply in_seq in Hk. exists (Z.of_nat k). split; [lia | auto].
      - intros [k [Hk E]]. exists (Z.to_nat k). rewrite Z2Nat.id by lia. split; [auto | apply in_seq; lia]. }
    assert (Hnd : NoDup sqs).
    { unfold sqs. apply NoDup_map_in; [|apply seq_NoDup].
      intros i j Hi Hj E. apply in_seq in Hi, Hj. apply eqm_mod_eq in E; [|lia].
      assert (E2 : (p | (Z.of_nat i - Z.of_nat j) * (Z.of_nat i + Z.of_nat j))).
      { replace ((Z.of_nat i - Z.of_nat j) * (Z.of_nat i + Z.of_nat j)) with (Z.of_nat i * Z.of_nat i - Z.of_nat j * Z.of_nat j) by ring. exact E. }
      apply prime_div_mul in E2; [|exact Hp]. destruct E2 as [E2|E2].
      - assert (Z.of_nat i = Z.of_nat j) by (apply (eqm_small p); [lia | lia | exact E2]). lia.
      - apply divide_pos_le in E2; lia. }
    assert (Hlen : length sqs = Z.to_nat h) by (unfold sqs; rewrite map_length, seq_length; reflexivity).
    assert (Hin : ~ In (a mod p) sqs).
    { intros Ci. apply Hsq in Ci. destruct Ci as [k [Hk E]]. apply Hno. exists k. apply eqm_sym. apply eqm_mod_eq; [lia | exact E]. }
    assert (L : (length ((a mod p)%Z :: sqs) <= Z.to_nat h)%nat).
    { apply (lagrange_roots p Hp (Z.to_nat h) (xn1 (Z.to_nat h))).
      - destruct (xn1_length (Z.to_nat h)); [assumption | lia].
      - rewrite xn1_last by lia. intros Cd. apply divide_pos_le in Cd; lia.
      - constructor; assumption.
      - intros x Hx. rewrite xn1_eval by lia. rewrite Z2Nat.id by lia. destruct Hx as [<-|Hx].
        + split; [apply Z.mod_pos_bound; lia|]. change ((a mod p) ^ h =[p]= 1). eapply eqm_trans; [apply eqm_pow, eqm_mod; lia | exact C].
        + apply Hsq in Hx. destruct Hx as [k [Hk ->]]. split; [apply Z.mod_pos_bound; lia|].
          change (((k * k) mod p) ^ h =[p]= 1). eapply eqm_trans; [apply eqm_pow, eqm_mod; lia|].
          rewrite <- Z.pow_2_r, <- Z.pow_mul_r by lia. replace (2 * h) with (p - 1) by lia. apply fermat; [exact Hp|].
          intros Cd. apply divide_pos_le in Cd; lia. }
    cbn [length] in L. rewrite Hlen in L. lia.
Qed.

Lemma legendre_range : forall a p, 1 <= p -> -1 <= legendre a p <= 1.
Proof. intros a p Hp. destruct (legendre_cases a p Hp) as [[-> _]|[[-> _]|[-> _]]]; lia. Qed.
Lemma legendre_0 : forall a p, 1 <= p -> (legendre a p = 0 <-> (p | a)).
Proof. intros a p Hp. destruct (legendre_cases a p Hp) as [[-> D]|[[-> [D _]]|[-> [D _]]]]; split; intros; auto; try lia; contradiction. Qed.
Lemma legendre_eqm : forall a b p, 1 <= p -> a =[p]= b -> legendre a p = legendre b p.
Proof.
  intros a b p Hp E. unfold legendre. replace (b mod p) with (a mod p) by (apply eqm_mod_eq; [lia | exact E]).
  destruct (a mod p =? 0); [reflexivity|].
  assert (X : forall x, (x * x - a) mod p = (x * x - b) mod p). { intros x. apply eqm_mod_eq; [lia|]. apply eqm_sub; [apply eqm_refl | exact E]. }
  assert (G : existsb (fun x => (Z.of_nat x * Z.of_nat x - a) mod p =? 0) (seq 1 (Z.to_nat p - 1)) =
              existsb (fun x => (Z.of_nat x * Z.of_nat x - b) mod p =? 0) (seq 1 (Z.to_nat p - 1))).
  { induction (seq 1 (Z.to_nat p - 1)) as [|k l IH]; [reflexivity|]. cbn [existsb]. rewrite IH, X. reflexivity. }
  rewrite G. reflexivity.
Qed.
Lemma small_eqm : forall p a b, 3 <= p -> -1 <= a <= 1 -> -1 <= b <= 1 -> a =[p]= b -> a = b.
Proof.
  intros p a b Hp Ha Hb E. destruct (Z.eq_dec a b) as [|Hne]; [assumption|]. exfalso. unfold eqm in E.
  destruct (Z.lt_ge_cases 0 (a - b)) as [L|L].
  - apply divide_pos_le in E; lia.
  - apply Z.divide_opp_r in E. apply divide_pos_le in E; lia.
Qed.
Lemma odd_prime_3 : forall p, prime p -> Z.odd p = true -> 3 <= p.
Proof. intros p Hp Ho. pose proof (prime_ge2 p Hp). destruct (Z.eq_dec p 2) as [->|]; [discriminate Ho | lia]. Qed.
Lemma legendre_mul : forall p a b, prime p -> Z.odd p = true -> legendre (a * b) p = legendre a p * legendre b p.
Proof.
  intros p a b Hp Ho. pose proof (odd_prime_3 p Hp Ho).
  pose proof (legendre_range a p ltac:(lia)). pose proof (legendre_range b p ltac:(lia)).
  apply (small_eqm p); [lia | apply legendre_range; lia | nia |].
  eapply eqm_trans; [apply eqm_sym, euler_criterion; assumption|]. rewrite Z.pow_mul_l. apply eqm_mul; apply euler_criterion; assumption.
Qed.
Lemma legendre_1 : forall p, 2 <= p -> legendre 1 p = 1.
Proof.
  intros p Hp. destruct (legendre_cases 1 p) as [[_ D]|[[E _]|[_ [_ N]]]]; [lia | | exact E |].
  - apply divide_pos_le in D; lia.
  - exfalso. apply N. exists 1. apply eqm_refl.
Qed.
Lemma legendre_square : forall p x, prime p -> ~ (p | x) -> legendre (x * x) p = 1.
Proof.
  intros p x Hp Hx. pose proof (prime_ge2 p Hp). destruct (legendre_cases (x * x) p) as [[_ D]|[[E _]|[_ [_ N]]]]; [lia | | exact E |].
  - exfalso. apply prime_div_mul in D; [tauto | exact Hp].
  - exfalso. apply N. exists x. apply eqm_refl.
Qed.

(** ** factor_list *)

Lemma factor_list_from_spec : forall fuel d n, 2 <= d -> 1 <= n -> (forall q, prime q -> (q | n) -> d <= q) ->
  2 * n - d <= Z.of_nat fuel -> prod (factor_list_from fuel d n) = n /\ Forall prime (factor_list_from fuel d n).
Proof.
  induction fuel as [|fuel IH]; intros d n Hd Hn Hq Hf; cbn [factor_list_from].
  - destruct (Z.eq_dec n 1) as [->|Hn1]; [split; [reflexivity | constructor]|]. exfalso.
    destruct (prime_divisor_exists n) as [q [Hp Hdv]]; [lia|]. pose proof (Hq q Hp Hdv). apply divide_pos_le in Hdv; lia.
  - destruct (Z.leb_spec n 1) as [Hn1|Hn1]; [assert (n = 1) as -> by lia; split; [reflexivity | constructor]|].
    destruct (Z.eqb_spec (n mod d) 0) as [E|E].
    + apply mod0_divide in E; [|lia]. destruct E as [c E].
      assert (Hdp : prime d).
      { destruct (prime_divisor_exists d) as [q [Hp Hqd]]; [lia|]. assert (d <= q) by (apply Hq; [exact Hp | rewrite E; apply Z.divide_mul_r; exact Hqd]).
        apply divide_pos_le in Hqd as Hle; [|lia]. assert (q = d) by lia. subst q. exact Hp. }
      assert (Hdiv : n / d = c) by (rewrite E; apply Z.div_mul; lia). rewrite Hdiv.
      assert (Hc : 1 <= c) by nia.
      destruct (IH d c Hd Hc) as [A B].
      * intros q Hp Hqc. apply Hq; [exact Hp | rewrite E; apply Z.divide_mul_l; exact Hqc].
      * nia.
      * cbn [prod fold_right]. split; [change (d * prod (factor_list_from fuel d c) = n); rewrite A, E; ring | constructor; assumption].
    + apply IH; [lia | lia | | lia]. intros q Hp Hqn. pose proof (Hq q Hp Hqn). destruct (Z.eq_dec q d) as [->|]; [|lia].
      exfalso. apply E, mod0_divide; [lia | exact Hqn].
Qed.
Lemma factor_list_spec : forall n, 1 <= n -> prod (factor_list n) = n /\ Forall prime (factor_list n).
Proof.
  intros n Hn. unfold factor_list. apply factor_list_from_spec; [lia | lia | intros q Hq _; apply prime_ge2; exact Hq | lia].
Qed.
Lemma in_prod_divide : forall l x, In x l -> (x | prod l).
Proof.
  induction l as [|y l IH]; intros x H; [destruct H|]. change (x | y * prod l). destruct H as [->|H].
  - apply Z.divide_factor_l.
  - apply Z.divide_mul_r, IH, H.
Qed.
Lemma factor_list_prime : forall p, prime p -> factor_list p = [p].
Proof.
  intros p Hp. pose proof (prime_ge2 p Hp). destruct (factor_list_spec p) as [A B]; [lia|].
  destruct (factor_list p) as [|q l]; [cbn in A; lia|]. change (q * prod l = p) in A. pose proof (Forall_inv B) as Hq; pose proof (Forall_inv_tail B) as Hl.
  assert (Eq : q = p) by (apply prime_divides_prime; [assumption | assumption | rewrite <- A; apply Z.divide_factor_l]). subst q.
  assert (P1 : prod l = 1) by nia. destruct l as [|r l]; [reflexivity|]. pose proof (Forall_inv Hl) as Hr. pose proof (prime_ge2 r Hr).
  pose proof (in_prod_divide (r :: l) r (or_introl eq_refl)) as C. rewrite P1 in C. apply divide_pos_le in C; lia.
Qed.

(** ** Jacobi symbol *)
Lemma jacobi_prime : forall a p, prime p -> jacobi a p = legendre a p.
Proof. intros a p Hp. unfold jacobi. rewrite factor_list_prime by exact Hp. cbn [fold_right]. ring. Qed.
Lemma jacobi_eqm : forall a b n, 1 <= n -> a =[n]= b -> jacobi a n = jacobi b n.
Proof.
  intros a b n Hn E. unfold jacobi. destruct (factor_list_spec n Hn) as [A B].
  assert (G : forall p, In p (factor_list n) -> legendre a p = legendre b p).
  { intros p Hp. pose proof (proj1 (Forall_forall _ _) B p Hp) as Hpp. pose proof (prime_ge2 p Hpp).
    apply legendre_eqm; [lia|]. eapply eqm_divide; [|exact E]. rewrite <- A. apply in_prod_divide, Hp. }
  induction (factor_list n) as [|p l IH] in G |- *; [reflexivity|]. cbn [fold_right]. rewrite IH.
  - rewrite (G p (or_introl eq_refl)). reflexivity.
  - intros q Hq. apply G. right. exact Hq.
Qed.
Lemma jacobi_range : forall a n, 1 <= n -> -1 <= jacobi a n <= 1.
Proof.
  intros a n Hn. unfold jacobi. destruct (factor_list_spec n Hn) as [_ B]. induction B as [|p l Hp _ IH]; cbn [fold_right]; [lia|].
  pose proof (prime_ge2 p Hp). pose proof (legendre_range a p ltac:(lia)). nia.
Qed.
Lemma jacobi_0 : forall a n, 1 <= n -> (jacobi a n = 0 <-> exists p, prime p /\ (p | n) /\ (p | a)).
Proof.
  intros a n Hn. destruct (factor_list_spec n Hn) as [A B]. unfold jacobi. split.
  - intros H. rewrite <- A. clear A. induction B as [|p l Hp _ IH]; cbn [fold_right] in H; [lia|].
    change (prod (p :: l)) with (p * prod l). pose proof (prime_ge2 p Hp). apply Z.mul_eq_0 in H. destruct H as [H|H].
    + exists p. split; [exact Hp|]. split; [apply Z.divide_factor_l|]. apply legendre_0 in H; [exact H | lia].
    + destruct (IH H) as [q [Hq [Hd Ha]]]. exists q. split; [exact Hq|]. split; [apply Z.divide_mul_r; exact Hd | exact Ha].
  - intros [p [Hp [Hn' Ha]]]. rewrite <- A in Hn'. clear A. induction B as [|q l Hq _ IH]; cbn [fold_right].
    + apply divide_pos_le in Hn'; [|cbn; lia]. pose proof (prime_ge2 p Hp). cbn in Hn'. lia.
    + change (prod (q :: l)) with (q * prod l) in Hn'. apply prime_div_mul in Hn'; [|exact Hp]. destruct Hn' as [D|D].
      * assert (p = q) by (apply prime_divides_prime; assumption). subst q. pose proof (prime_ge2 p Hp).
        rewrite (proj2 (legendre_0 a p ltac:(lia)) Ha). ring.
      * rewrite (IH D). ring.
Qed.
Lemma jacobi_rel_prime : forall a n, 1 <= n -> (jacobi a n <> 0 <-> rel_prime a n).
Proof.
  intros a n Hn. rewrite (jacobi_0 a n Hn). split.
  - intros H. apply Zgcd_1_rel_prime. pose proof (Z.gcd_nonneg a n).
    assert (Z.gcd a n <> 0) by (intros C; apply Z.gcd_eq_0 in C; lia). destruct (Z.eq_dec (Z.gcd a n) 1) as [|C]; [assumption|]. exfalso.
    destruct (prime_divisor_exists (Z.gcd a n)) as [p [Hp Hd]]; [lia|]. apply H. exists p. split; [exact Hp|]. split.
    + eapply Z.divide_trans; [exact Hd | apply Z.gcd_divide_r].
    + eapply Z.divide_trans; [exact Hd | apply Z.gcd_divide_l].
  - intros H [p [Hp [H1 H2]]]. destruct H as [_ _ H]. specialize (H p H2 H1). pose proof (prime_ge2 p Hp). apply divide_pos_le in H; lia.
Qed.
(** n = (a/n) mod M when every prime divisor p of n is (a/p) mod M. *)
Lemma jacobi_from_primes : forall M a n, 1 <= n -> (forall p, prime p -> (p | n) -> p =[M]= legendre a p) -> n =[M]= jacobi a n.
Proof.
  intros M a n Hn H. destruct (factor_list_spec n Hn) as [A B]. unfold jacobi. rewrite <- A at 1.
  assert (G : forall p, In p (factor_list n) -> p =[M]= legendre a p).
  { intros p Hp. apply H; [exact (proj1 (Forall_forall _ _) B p Hp)|]. rewrite <- A. apply in_prod_divide, Hp. }
  clear A B. induction (factor_list n) as [|p l IH]; [apply eqm_refl|]. cbn [fold_right].
  change (prod (p :: l)) with (p * prod l). apply eqm_mul; [apply G; left; reflexivity|].
  apply IH. intros q Hq. apply G. right. exact Hq.
Qed.
