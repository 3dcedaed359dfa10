(** * Quadratic residues: bounds on the first parameter found by the Lucas parameter searches. *)
From Coq Require Import ZArith Znumtheory Zpow_facts List Lia Bool.
From Verif Require Import Spec NT NTLegendre.
Import ListNotations.
Local Open Scope Z_scope.

Section OddPrime.
Variable p : Z.
Hypothesis Hp : prime p.
Hypothesis Ho : Z.odd p = true.
Local Notation chi a := (legendre a p).

Lemma chi_values : forall a, ~ (p | a) -> chi a = 1 \/ chi a = -1.
Proof.
  intros a Ha. pose proof (odd_prime_3 p Hp Ho). pose proof (legendre_range a p ltac:(lia)).
  assert (chi a <> 0) by (intros C; apply legendre_0 in C; [contradiction | lia]). lia.
Qed.
Lemma small_not_div : forall a, 0 < a < p -> ~ (p | a).
Proof. intros a Ha C. apply divide_pos_le in C; lia. Qed.

(** Some residue class is not a square. *)
Lemma nonresidue_exists : exists a, 1 <= a < p /\ chi a = -1.
Proof.
  pose proof (odd_prime_3 p Hp Ho) as H3.
  destruct (existsb (fun k => chi (Z.of_nat k) =? -1) (seq 1 (Z.to_nat (p - 1)))) eqn:E.
  - apply existsb_exists in E. destruct E as [k [Hk Ek]]. apply in_seq in Hk. apply Z.eqb_eq in Ek. exists (Z.of_nat k). split; [lia | exact Ek].
  - exfalso. assert (A : forall x, 1 <= x < p -> chi x = 1).
    { intros x Hx. destruct (chi_values x) as [|C]; [apply small_not_div; lia | assumption |]. exfalso.
      rewrite <- not_true_iff_false in E. apply E. apply existsb_exists. exists (Z.to_nat x). rewrite Z2Nat.id by lia.
      split; [apply in_seq; lia | apply Z.eqb_eq; exact C]. }
    destruct (Zodd_ex p) as [h Hh]; [apply Zodd_bool_iff; exact Ho|].
    assert (Hh' : (p - 1) / 2 = h). { rewrite Hh. replace (2 * h + 1 - 1) with (h * 2) by ring. apply Z.div_mul. lia. }
    assert (L : (length (map Z.of_nat (seq 1 (Z.to_nat (p - 1)))) <= Z.to_nat h)%nat).
    { apply (lagrange_roots p Hp (Z.to_nat h) (xn1 (Z.to_nat h))).
      - destruct (xn1_length (Z.to_nat h)); [assumption | lia].
      - rewrite xn1_last by lia. apply small_not_div. lia.
      - apply NoDup_map_in; [intros; lia | apply seq_NoDup].
      - intros x Hx. apply in_map_iff in Hx. destruct Hx as [k [<- Hk]]. apply in_seq in Hk. split; [lia|].
        rewrite xn1_eval by lia. rewrite Z2Nat.id by lia. change (Z.of_nat k ^ h =[p]= 1).
        pose proof (euler_criterion p (Z.of_nat k) Hp Ho) as EC. rewrite A, Hh' in EC by lia. exact EC. }
    rewrite map_length, seq_length in L. lia.
Qed.

Lemma chi_m1 : forall h, p = 2 * h + 1 -> chi (-1) = if Z.even h then 1 else -1.
Proof.
  intros h Hh. pose proof (odd_prime_3 p Hp Ho) as H3.
  assert (Hh' : (p - 1) / 2 = h). { rewrite Hh. replace (2 * h + 1 - 1) with (h * 2) by ring. apply Z.div_mul. lia. }
  apply (small_eqm p); [lia | apply legendre_range; lia | destruct (Z.even h); lia |].
  eapply eqm_trans; [apply eqm_sym, euler_criterion; assumption|]. rewrite Hh'.
  destruct (Z.even h) eqn:E.
  - apply Z.even_spec in E. destruct E as [k ->]. rewrite Z.pow_mul_r by lia. change ((-1) ^ 2) with 1. rewrite Z.pow_1_l by lia. apply eqm_refl.
  - assert (E' : Z.odd h = true) by (rewrite <- Z.negb_even, E; reflexivity). apply Z.odd_spec in E'. destruct E' as [k ->].
    rewrite Z.pow_add_r, Z.pow_mul_r by lia. change ((-1) ^ 2) with 1. rewrite Z.pow_1_l by lia. apply eqm_refl.
Qed.

(** least counterexample *)
Lemma least_such : forall (P : Z -> bool) m, 1 <= m -> P m = false -> exists r, 1 <= r <= m /\ P r = false /\ forall x, 1 <= x < r -> P x = true.
Proof.
  intros P m Hm. pattern m. apply Zlt_lower_bound_ind with (z := 1); [|exact Hm]. clear m Hm. intros m IH Hm E.
  destruct (forallb (fun k => P (Z.of_nat k)) (seq 1 (Z.to_nat (m - 1)))) eqn:F.
  - exists m. split; [lia|]. split; [exact E|]. intros x Hx. rewrite forallb_forall in F.
    specialize (F (Z.to_nat x)). rewrite Z2Nat.id in F by lia. apply F. apply in_seq. lia.
  - assert (G : exists x, 1 <= x < m /\ P x = false).
    { clear -F. assert (G : forall l, forallb (fun k => P (Z.of_nat k)) l = false -> exists k, In k l /\ P (Z.of_nat k) = false).
      { induction l as [|a l IHl]; cbn [forallb]; [discriminate|]. intros H. destruct (P (Z.of_nat a)) eqn:Ea.
        - destruct (IHl H) as [k [Hk Ek]]. exists k. split; [right; exact Hk | exact Ek].
        - exists a. split; [left; reflexivity | exact Ea]. }
      destruct (G _ F) as [k [Hk Ek]]. apply in_seq in Hk. exists (Z.of_nat k). split; [lia | exact Ek]. }
    destruct G as [x [Hx Ex]]. destruct (IH x ltac:(lia) Ex) as [r [Hr A]]. exists r. split; [lia | exact A].
Qed.

(** ** Discriminants 5, -7, 9, -11, ... *)
Definition star (d : Z) : Z := if d mod 4 =? 1 then d else - d.

Lemma star_odd : forall d, Z.odd d = true -> star d mod 4 = 1 /\ (star d = d \/ star d = - d).
Proof.
  intros d Hd. apply Zodd_bool_iff, Zodd_ex in Hd. destruct Hd as [k Hk]. unfold star. destruct (Z.eqb_spec (d mod 4) 1); [auto|].
  split; [|auto]. pose proof (Z.div_mod d 4 ltac:(lia)). pose proof (Z.mod_pos_bound d 4 ltac:(lia)).
  assert (d mod 4 = 3) by lia. symmetry. apply (Z.mod_unique_pos _ _ (- (d / 4) - 1)); lia.
Qed.
(** K = 1 mod 4 is the starred form of its absolute value *)
Lemma star_abs : forall K, K mod 4 = 1 -> star (Z.abs K) = K /\ Z.odd (Z.abs K) = true.
Proof.
  intros K HK. pose proof (Z.div_mod K 4 ltac:(lia)) as E.
  assert (O : Z.odd (Z.abs K) = true). { destruct (Z.abs_spec K) as [[_ ->]|[_ ->]]; [|rewrite Z.odd_opp]; rewrite E, Z.odd_add, Z.odd_mul, HK; reflexivity. }
  split; [|exact O]. destruct (Z.abs_spec K) as [[H ->]|[H ->]]; unfold star.
  - rewrite HK. reflexivity.
  - assert ((- K) mod 4 = 3). { symmetry. apply (Z.mod_unique_pos _ _ (- (K / 4) - 1)); lia. }
    rewrite H0. cbn [Z.eqb Pos.eqb]. lia.
Qed.

Lemma selfridge_prime_bound : forall B, 15 + 2 * Z.sqrt p <= B < p -> exists d, Z.odd d = true /\ 5 <= d <= B /\ chi (star d) = -1.
Proof.
  intros B HB. pose proof (odd_prime_3 p Hp Ho) as H3. pose proof (Z.sqrt_spec p ltac:(lia)) as [S1 S2]. pose proof (Z.sqrt_nonneg p) as S0.
  set (s := Z.sqrt p) in *.
  destruct (existsb (fun k => let d := Z.of_nat k in Z.odd d && (5 <=? d) && (chi (star d) =? -1)) (seq 1 (Z.to_nat B))) eqn:E.
  { apply existsb_exists in E. destruct E as [k [Hk E]]. apply in_seq in Hk. cbv zeta in E. rewrite !andb_true_iff in E. destruct E as [[A1 A2] A3].
    apply Z.leb_le in A2. apply Z.eqb_eq in A3. exists (Z.of_nat k). split; [exact A1|]. split; [lia | exact A3]. }
  exfalso.
  assert (A5 : forall d, Z.odd d = true -> 5 <= d <= B -> chi (star d) = 1).
  { intros d Hd Hr. destruct (star_odd d Hd) as [_ Cs]. destruct (chi_values (star d)) as [|C]; [|assumption|].
    - destruct Cs as [-> | ->]; [apply small_not_div; lia|]. rewrite Z.divide_opp_r. apply small_not_div; lia.
    - exfalso. rewrite <- not_true_iff_false in E. apply E. apply existsb_exists. exists (Z.to_nat d). split; [apply in_seq; lia|].
      cbv zeta. rewrite Z2Nat.id by lia. rewrite Hd, C. replace (5 <=? d) with true by (symmetry; apply Z.leb_le; lia). reflexivity. }
  assert (A1 : forall d, Z.odd d = true -> 1 <= d <= B -> chi (star d) = 1).
  { intros d Hd Hr. destruct (Z.lt_ge_cases d 5) as [L|L]; [|apply A5; [exact Hd | lia]].
    destruct (Z.eq_dec d 1) as [->|N1]; [apply legendre_1; lia|].
    assert (d = 3). { apply Zodd_bool_iff, Zodd_ex in Hd. destruct Hd as [k Hk]. lia. }
    subst d. change (star 3) with (-3).
    pose proof (A5 15 eq_refl ltac:(lia)) as F15. pose proof (A5 5 eq_refl ltac:(lia)) as F5.
    change (star 15) with (-15) in F15. change (star 5) with 5 in F5. change (-15) with ((-3) * 5) in F15.
    rewrite legendre_mul, F5 in F15 by assumption. lia. }
  (* least odd number whose starred form is not a residue *)
  destruct (least_such (fun d => negb (Z.odd d) || (chi (star d) =? 1)) p) as [r [Hr [Er Lr]]]; [lia | |].
  { cbv beta. rewrite Ho. cbn [negb orb]. apply Z.eqb_neq. intros C. assert (chi (star p) = 0); [|lia]. apply legendre_0; [lia|].
    destruct (star_odd p Ho) as [_ [-> | ->]]; [apply Z.divide_refl | apply Z.divide_opp_r, Z.divide_refl]. }
  cbv beta in Er. apply orb_false_iff in Er. destruct Er as [Or Er]. apply negb_false_iff in Or. apply Z.eqb_neq in Er.
  assert (Below : forall d, Z.odd d = true -> 1 <= d < r -> chi (star d) = 1).
  { intros d Hd Hdr. specialize (Lr d Hdr). cbv beta in Lr. rewrite Hd in Lr. cbn [negb orb] in Lr. apply Z.eqb_eq. exact Lr. }
  assert (BelowK : forall K, K mod 4 = 1 -> Z.abs K < r -> chi K = 1).
  { intros K HK HKr. destruct (star_abs K HK) as [E1 E2]. rewrite <- E1. apply Below; [exact E2|].
    split; [|exact HKr]. destruct (Z.eq_dec (Z.abs K) 0) as [C|]; [rewrite C in E2; discriminate E2 | lia]. }
  assert (rB : B < r). { destruct (Z.lt_ge_cases B r) as [|C]; [assumption|]. exfalso. apply Er. apply A1; [exact Or | lia]. }
  destruct (Z.eq_dec r p) as [->|Hrp].
  - (* every odd number below p is fine *)
    destruct (Zodd_ex p) as [h Hh]; [apply Zodd_bool_iff; exact Ho|].
    pose proof (chi_m1 h Hh) as M1. 
    assert (C2 : chi 2 = 1 /\ chi (-1) = 1).
    { destruct (Z.even h) eqn:Eh.
      - apply Z.even_spec in Eh. destruct Eh as [k Hk]. split; [|exact M1].
        rewrite <- (legendre_eqm (2 - p) 2 p) by (lia || (exists (-1); lia)). apply BelowK; [|lia].
        symmetry. apply (Z.mod_unique_pos _ _ (- k)); lia.
      - exfalso. assert (Eh' : Z.odd h = true) by (rewrite <- Z.negb_even, Eh; reflexivity). apply Z.odd_spec in Eh'. destruct Eh' as [k Hk].
        assert (Cm2 : chi (-2) = 1).
        { rewrite <- (legendre_eqm (p - 2) (-2) p) by (lia || (exists 1; lia)). apply BelowK; [|lia].
          symmetry. apply (Z.mod_unique_pos _ _ k); lia. }
        assert (C8 : chi 8 = 1).
        { rewrite <- (legendre_eqm (8 - p) 8 p) by (lia || (exists (-1); lia)). apply BelowK; [|lia].
          symmetry. apply (Z.mod_unique_pos _ _ (1 - k)); lia. }
        change 8 with (2 * (2 * 2)) in C8. rewrite legendre_mul in C8 by assumption. rewrite legendre_square in C8; [|assumption | apply small_not_div; lia].
        change (-2) with ((-1) * 2) in Cm2. rewrite legendre_mul in Cm2 by assumption. lia. }
    destruct C2 as [C2 C1].
    assert (All : forall a, 1 <= a -> a < p -> chi a = 1).
    { intros a Ha. pattern a. apply Zlt_lower_bound_ind with (z := 1); [|exact Ha]. clear a Ha. intros x IH Hx Hxp.
      destruct (Z.odd x) eqn:Ox.
      - pose proof (Below x Ox ltac:(lia)) as Bx. destruct (star_odd x Ox) as [_ [E1|E1]]; rewrite E1 in Bx; [exact Bx|].
        replace (- x) with ((-1) * x) in Bx by ring. rewrite legendre_mul in Bx by assumption. rewrite C1 in Bx. lia.
      - assert (Ex : Z.even x = true) by (rewrite <- Z.negb_odd, Ox; reflexivity). apply Z.even_spec in Ex. destruct Ex as [y ->].
        rewrite legendre_mul by assumption. rewrite C2, IH; lia. }
    destruct nonresidue_exists as [a [Ha Ca]]. rewrite All in Ca by lia. lia.
  - (* a multiple of r* close to 4p *)
    assert (Hr1 : 16 + 2 * s <= r < p) by lia.
    assert (Cr : chi (star r) = -1).
    { destruct (star_odd r Or) as [_ Cs]. destruct (chi_values (star r)) as [C|C]; [| contradiction | exact C].
      destruct Cs as [-> | ->]; [apply small_not_div; lia|]. rewrite Z.divide_opp_r. apply small_not_div; lia. }
    set (y := p mod r). pose proof (Z.div_mod p r ltac:(lia)) as Ep. fold y in Ep. pose proof (Z.mod_pos_bound p r ltac:(lia)) as Hy. fold y in Hy.
    assert (Y0 : y <> 0).
    { intros C. assert (D : (r | p)) by (exists (p / r); lia). apply prime_divisors in D; [lia | exact Hp]. }
    set (q := p / r) in *.
    assert (Or' : exists j, r = 2 * j + 1) by (apply Zodd_ex, Zodd_bool_iff; exact Or). destruct Or' as [j Hj].
    assert (W : exists K S, K mod 4 = 1 /\ S mod 4 = 1 /\ Z.abs K < r /\ Z.abs S < r /\ K * star r =[p]= S).
    { destruct (star_odd r Or) as [Sm Ss]. 
      assert (HK : forall K S c, Z.abs c = 4 -> K mod 4 = 1 -> K * star r = S + c * p -> Z.abs S < r ->
         exists K S, K mod 4 = 1 /\ S mod 4 = 1 /\ Z.abs K < r /\ Z.abs S < r /\ K * star r =[p]= S).
      { intros K S c Hc HK4 EK HS. exists K, S. split; [exact HK4|].
        assert (S4 : S mod 4 = 1).
        { pose proof (Z.div_mod K 4 ltac:(lia)) as EK4. pose proof (Z.div_mod (star r) 4 ltac:(lia)) as ES4. rewrite HK4 in EK4. rewrite Sm in ES4.
          symmetry. assert (Hc4 : c = 4 \/ c = -4) by lia. 
          apply (Z.mod_unique_pos _ _ (4 * (K / 4) * (star r / 4) + K / 4 + star r / 4 - (c / 4) * p)); [lia|].
          replace S with (K * star r - c * p) by lia. destruct Hc4 as [-> | ->]; [change (4 / 4) with 1 | change (-4 / 4) with (-1)]; rewrite EK4 at 1; rewrite ES4 at 1; ring. }
        split; [exact S4|]. split; [|split; [exact HS | exists c; lia]].
        assert (Ab : Z.abs K * r = Z.abs (S + c * p)).
        { rewrite <- EK, Z.abs_mul. f_equal. destruct Ss as [-> | ->]; [|rewrite Z.abs_opp]; rewrite Z.abs_eq; lia. }
        assert (Z.abs (S + c * p) < r + 4 * p) by (assert (c = 4 \/ c = -4) by lia; destruct H as [-> | ->]; lia).
        assert ((2 * s + 2) * (2 * s + 2) <= (r - 1) * r) by (apply Z.mul_le_mono_nonneg; lia).
        destruct (Z.lt_ge_cases (Z.abs K) r) as [|CK]; [assumption|]. exfalso.
        assert (r * r <= Z.abs K * r) by (apply Z.mul_le_mono_nonneg_r; lia). lia. }
      destruct Ss as [Es|Es]; destruct (Z.lt_ge_cases (2 * y) r) as [L|L].
      - (* R = r, S = r - 4y *)
        apply (HK (4 * q + 1) (r - 4 * y) 4); [lia | | rewrite Es; lia | lia]. symmetry. apply (Z.mod_unique_pos _ _ q); lia.
      - apply (HK (- (4 * q) - 3) (4 * y - 3 * r) (-4)); [lia | | rewrite Es; lia | lia]. symmetry. apply (Z.mod_unique_pos _ _ (- q - 1)); lia.
      - apply (HK (4 * q + 1) (4 * y - r) (-4)); [lia | | rewrite Es; lia | lia]. symmetry. apply (Z.mod_unique_pos _ _ q); lia.
      - apply (HK (- (4 * q) - 3) (3 * r - 4 * y) 4); [lia | | rewrite Es; lia | lia]. symmetry. apply (Z.mod_unique_pos _ _ (- q - 1)); lia. }
    destruct W as [K [S [K4 [S4 [Kr [Sr E1]]]]]].
    pose proof (legendre_eqm _ _ p ltac:(lia) E1) as E2. rewrite legendre_mul in E2 by assumption.
    rewrite (BelowK K K4 Kr), (BelowK S S4 Sr), Cr in E2. lia.
Qed.
End OddPrime.

(** ** Discriminants P^2 - 4 *)
Lemma bruteforce_prime_bound : forall p B, prime p -> Z.odd p = true -> Z.sqrt p <= B -> 6 <= B -> B + 2 < p ->
  exists P, 3 <= P <= B /\ legendre (P * P - 4) p = -1.
Proof.
  intros p B Hp Ho HB HB6 HBp. pose proof (odd_prime_3 p Hp Ho) as H3. pose proof (Z.sqrt_spec p ltac:(lia)) as [S1 S2]. pose proof (Z.sqrt_nonneg p) as S0.
  set (s := Z.sqrt p) in *.
  destruct (existsb (fun k => let P := Z.of_nat k in (3 <=? P) && (legendre (P * P - 4) p =? -1)) (seq 1 (Z.to_nat B))) eqn:E.
  { apply existsb_exists in E. destruct E as [k [Hk E]]. apply in_seq in Hk. cbv zeta in E. rewrite !andb_true_iff in E. destruct E as [A2 A3].
    apply Z.leb_le in A2. apply Z.eqb_eq in A3. exists (Z.of_nat k). split; [lia | exact A3]. }
  exfalso.
  assert (A : forall P, 3 <= P <= B -> legendre (P - 2) p * legendre (P + 2) p = 1).
  { intros P HP. rewrite <- legendre_mul by assumption. replace ((P - 2) * (P + 2)) with (P * P - 4) by ring.
    destruct (chi_values p Hp Ho (P * P - 4)) as [|C]; [|assumption|].
    - replace (P * P - 4) with ((P - 2) * (P + 2)) by ring. intros D. apply prime_div_mul in D; [|exact Hp].
      destruct D as [D|D]; apply divide_pos_le in D; lia.
    - exfalso. rewrite <- not_true_iff_false in E. apply E. apply existsb_exists. exists (Z.to_nat P). split; [apply in_seq; lia|].
      cbv zeta. rewrite Z2Nat.id by lia. rewrite C. replace (3 <=? P) with true by (symmetry; apply Z.leb_le; lia). reflexivity. }
  assert (St : forall k, 1 <= k <= B - 2 -> legendre k p = 1 -> legendre (k + 4) p = 1).
  { intros k Hk H1. specialize (A (k + 2) ltac:(lia)). replace (k + 2 - 2) with k in A by lia. replace (k + 2 + 2) with (k + 4) in A by lia. lia. }
  assert (C1 : legendre 1 p = 1) by (apply legendre_1; lia).
  assert (C4 : legendre 4 p = 1). { change 4 with (2 * 2). apply legendre_square; [exact Hp|]. apply small_not_div. lia. }
  assert (C2 : legendre 2 p = 1).
  { pose proof (St 4 ltac:(lia) C4) as C8. change (4 + 4) with (2 * (2 * 2)) in C8. rewrite legendre_mul in C8 by assumption. change (2 * 2) with 4 in C8. lia. }
  assert (C3 : legendre 3 p = 1).
  { pose proof (St 2 ltac:(lia) C2) as C6. change (2 + 4) with (2 * 3) in C6. rewrite legendre_mul in C6 by assumption. lia. }
  assert (All : forall a, 1 <= a -> a <= B + 2 -> legendre a p = 1).
  { intros a Ha. pattern a. apply Zlt_lower_bound_ind with (z := 1); [|exact Ha]. clear a Ha. intros x IH Hx HxB.
    destruct (Z.lt_ge_cases x 5) as [L|L].
    - assert (Cs : x = 1 \/ x = 2 \/ x = 3 \/ x = 4) by lia. destruct Cs as [-> | [-> | [-> | ->]]]; assumption.
    - replace x with (x - 4 + 4) by lia. apply St; [lia|]. apply IH; lia. }
  destruct (nonresidue_exists p Hp Ho) as [a [Ha Ca]].
  destruct (least_such (fun x => legendre x p =? 1) a) as [r [Hr [Er Lr]]]; [lia | apply Z.eqb_neq; lia |].
  cbv beta in Er. apply Z.eqb_neq in Er.
  assert (Lr' : forall x, 1 <= x < r -> legendre x p = 1) by (intros x Hx; apply Z.eqb_eq, Lr, Hx).
  assert (Cr : legendre r p = -1). { destruct (chi_values p Hp Ho r) as [C|C]; [apply small_not_div; lia | contradiction | exact C]. }
  assert (rB : B + 2 < r). { destruct (Z.lt_ge_cases (B + 2) r) as [|C]; [assumption|]. exfalso. apply Er. apply All; lia. }
  pose proof (Z.div_mod p r ltac:(lia)) as Ep. pose proof (Z.mod_pos_bound p r ltac:(lia)) as Hy.
  assert (Y0 : p mod r <> 0).
  { intros C. assert (D : (r | p)) by (exists (p / r); lia). apply prime_divisors in D; [lia | exact Hp]. }
  set (q := p / r) in *. set (y := p mod r) in *.
  assert (Q0 : 0 <= q) by (apply Z.div_pos; lia).
  assert (qr : q + 1 < r).
  { destruct (Z.lt_ge_cases (q + 1) r) as [|C]; [assumption|]. exfalso.
    assert (r * (r - 1) <= r * q) by (apply Z.mul_le_mono_nonneg_l; lia).
    assert ((s + 1) * (s + 1) <= r * (r - 1)) by (apply Z.mul_le_mono_nonneg; lia). lia. }
  assert (E1 : (q + 1) * r =[p]= r - y) by (exists 1; lia).
  pose proof (legendre_eqm _ _ p ltac:(lia) E1) as E2. rewrite legendre_mul in E2 by assumption.
  rewrite (Lr' (q + 1)), (Lr' (r - y)), Cr in E2 by lia. lia.
Qed.

(** ** Both searches stop early, for every odd n *)

Definition is_sq (n : Z) : bool := Z.sqrt n * Z.sqrt n =? n.
Lemma is_sq_spec : forall n, 0 <= n -> is_sq n = true <-> exists r, r * r = n.
Proof.
  intros n Hn. unfold is_sq. rewrite Z.eqb_eq. split; [eauto|]. intros [r <-]. rewrite <- (Z.abs_square r). rewrite Z.sqrt_square by lia. reflexivity.
Qed.
Lemma prime_not_sq : forall p, prime p -> is_sq p = false.
Proof.
  intros p Hp. pose proof (prime_ge2 p Hp). apply not_true_iff_false. intros C. unfold is_sq in C. apply Z.eqb_eq in C.
  pose proof (Z.sqrt_nonneg p). assert (D : (Z.sqrt p | p)) by (exists (Z.sqrt p); lia). apply prime_divisors in D; [|exact Hp]. nia.
Qed.

(** the exit condition of the two loops *)
Definition self_stop (n d : Z) : bool :=
  ((d =? 13) && is_sq n) || ((jacobi (star d) n =? 0) && negb (d =? n)) || (jacobi (star d) n =? -1).
Definition brute_stop (n P : Z) : bool :=
  ((P =? 10) && is_sq n) || ((jacobi (P * P - 4) n =? 0) && negb (P * P - 4 =? n)) || (jacobi (P * P - 4) n =? -1).


Definition small_self (n : Z) : bool :=
  existsb (fun k => let d := 5 + 2 * Z.of_nat k in
     (d <=? 15 + 2 * Z.sqrt n) && self_stop n d) (seq 0 30).
Definition small_brute (n : Z) : bool :=
  existsb (fun k => let P := 3 + Z.of_nat k in (P <=? 10) && brute_stop n P) (seq 0 30).
Definition small_odd : list Z := map (fun k => 2 * Z.of_nat k + 1) (seq 0 35).
Lemma small_self_ok : forallb small_self small_odd = true. Proof. vm_compute. reflexivity. Qed.
Lemma small_brute_ok : forallb small_brute small_odd = true. Proof. vm_compute. reflexivity. Qed.
Lemma small_odd_in : forall n, Z.odd n = true -> 1 <= n < 70 -> In n small_odd.
Proof.
  intros n Ho Hn. apply Z.odd_spec in Ho. destruct Ho as [k ->]. unfold small_odd. apply in_map_iff. exists (Z.to_nat k).
  rewrite Z2Nat.id by lia. split; [reflexivity | apply in_seq; lia].
Qed.

Lemma jacobi_zero_prime : forall q n a, 1 <= n -> prime q -> (q | n) -> (q | a) -> jacobi a n = 0.
Proof. intros q n a Hn Hq H1 H2. apply jacobi_0; [exact Hn|]. exists q. auto. Qed.

Theorem self_stop_exists : forall n, 1 <= n -> Z.odd n = true ->
  exists d, Z.odd d = true /\ 5 <= d <= 15 + 2 * Z.sqrt n /\ self_stop n d = true.
Proof.
  intros n Hn Ho. pose proof (Z.sqrt_spec n ltac:(lia)) as [S1 S2]. pose proof (Z.sqrt_nonneg n) as S0. set (s := Z.sqrt n) in *.
  destruct (Z.lt_ge_cases n 70) as [Hs|Hs].
  { pose proof small_self_ok as F. rewrite forallb_forall in F. specialize (F n (small_odd_in n Ho ltac:(lia))).
    unfold small_self in F. apply existsb_exists in F. destruct F as [k [_ F]]. cbv zeta in F. apply andb_true_iff in F. destruct F as [F1 F2].
    apply Z.leb_le in F1. fold s in F1. exists (5 + 2 * Z.of_nat k). split; [|split; [lia | exact F2]].
    rewrite Z.odd_add, Z.odd_mul. reflexivity. }
  destruct (primeb_reflect n) as [Hp|Hp].
  - destruct (selfridge_prime_bound n Hp Ho (15 + 2 * s)) as [d [Hd [Hr Hl]]]; [fold s; nia|].
    exists d. split; [exact Hd|]. split; [exact Hr|]. unfold self_stop. rewrite jacobi_prime, Hl by exact Hp. rewrite orb_true_r. reflexivity.
  - destruct (composite_small_prime n ltac:(lia) Hp) as [q [Hq [Hqn Hqq]]].
    assert (Hqo : Z.odd q = true).
    { destruct (Z.odd q) eqn:E; [reflexivity|]. exfalso. destruct Hqn as [c Hc]. rewrite Hc, Z.odd_mul, E, andb_false_r in Ho. discriminate Ho. }
    pose proof (odd_prime_3 q Hq Hqo).
    assert (qs : q <= s) by nia.
    assert (G : exists d, Z.odd d = true /\ (q | star d) /\ d <> n /\ 5 <= d <= 15 + 2 * s).
    { destruct (Z.eq_dec q 3) as [->|].
      - exists 9. split; [reflexivity|]. split; [exists 3; reflexivity|]. lia.
      - exists q. split; [exact Hqo|]. split; [destruct (star_odd q Hqo) as [_ [-> | ->]]; [apply Z.divide_refl | apply Z.divide_opp_r, Z.divide_refl]|].
        split; [nia|]. assert (q <> 4) by (intros ->; discriminate Hqo). lia. }
    destruct G as [d [Hd [Hdq [Hdn Hdr]]]]. exists d. split; [exact Hd|]. split; [exact Hdr|].
    unfold self_stop. rewrite (jacobi_zero_prime q n (star d)) by (assumption || lia).
    apply Z.eqb_neq in Hdn. rewrite Hdn. cbn [Z.eqb negb andb]. rewrite orb_true_r. reflexivity.
Qed.

Theorem brute_stop_exists : forall n, 1 <= n -> Z.odd n = true ->
  exists P, 3 <= P <= Z.max 10 (Z.sqrt n) /\ brute_stop n P = true.
Proof.
  intros n Hn Ho. pose proof (Z.sqrt_spec n ltac:(lia)) as [S1 S2]. pose proof (Z.sqrt_nonneg n) as S0. set (s := Z.sqrt n) in *.
  destruct (Z.lt_ge_cases n 70) as [Hs|Hs].
  { pose proof small_brute_ok as F. rewrite forallb_forall in F. specialize (F n (small_odd_in n Ho ltac:(lia))).
    unfold small_brute in F. apply existsb_exists in F. destruct F as [k [_ F]]. cbv zeta in F. apply andb_true_iff in F. destruct F as [F1 F2].
    apply Z.leb_le in F1. exists (3 + Z.of_nat k). split; [lia | exact F2]. }
  destruct (primeb_reflect n) as [Hp|Hp].
  - destruct (bruteforce_prime_bound n (Z.max 10 s) Hp Ho) as [d [Hr Hl]]; [fold s; lia | lia | nia|].
    exists d. split; [exact Hr|]. unfold brute_stop. rewrite jacobi_prime, Hl by exact Hp. rewrite orb_true_r. reflexivity.
  - destruct (composite_small_prime n ltac:(lia) Hp) as [q0 [Hq0 [Hqn0 Hqq0]]].
    destruct (smallest_prime_divisor n ltac:(lia)) as [q [Hq [Hqn Hmin]]].
    pose proof (Hmin q0 Hq0 Hqn0) as Hle.
    assert (Hqo : Z.odd q = true).
    { destruct (Z.odd q) eqn:E; [reflexivity|]. exfalso. destruct Hqn as [c Hc]. rewrite Hc, Z.odd_mul, E, andb_false_r in Ho. discriminate Ho. }
    pose proof (odd_prime_3 q Hq Hqo).
    assert (qs : q <= s) by nia.
    assert (G : exists P, (q | P * P - 4) /\ P * P - 4 <> n /\ 3 <= P <= Z.max 10 s).
    { destruct (Z.eq_dec q 3) as [->|].
      - exists 4. split; [exists 4; reflexivity|]. lia.
      - exists (q - 2). assert (Hq5 : 5 <= q) by (assert (q <> 4) by (intros ->; discriminate Hqo); lia).
        split; [exists (q - 4); ring|]. split; [|lia].
        intros C. assert (E : n = (q - 4) * q) by lia. destruct (Z.eq_dec q 5) as [->|]; [lia|].
        destruct (prime_divisor_exists (q - 4)) as [r [Hr1 Hr2]]; [lia|].
        assert (q <= r) by (apply Hmin; [exact Hr1 | rewrite E; apply Z.divide_mul_l; exact Hr2]).
        apply divide_pos_le in Hr2; lia. }
    destruct G as [P [HdP [HPn HPr]]]. exists P. split; [exact HPr|].
    unfold brute_stop. rewrite (jacobi_zero_prime q n (P * P - 4)) by (assumption || lia).
    apply Z.eqb_neq in HPn. rewrite HPn. cbn [Z.eqb negb andb]. rewrite orb_true_r. reflexivity.
Qed.

(** Stopping without a usable discriminant never happens at a prime. *)
Definition small_self_prime (n : Z) : bool :=
  negb (primeb n) || forallb (fun k => let d := 5 + 2 * Z.of_nat k in
     negb (self_stop n d) || (jacobi (star d) n =? -1) ||
     existsb (fun j => self_stop n (5 + 2 * Z.of_nat j)) (seq 0 k)) (seq 0 30).
Definition small_brute_prime (n : Z) : bool :=
  negb (primeb n) || forallb (fun k => let P := 3 + Z.of_nat k in
     negb (brute_stop n P) || (jacobi (P * P - 4) n =? -1) ||
     existsb (fun j => brute_stop n (3 + Z.of_nat j)) (seq 0 k)) (seq 0 30).
Lemma small_self_prime_ok : forallb small_self_prime small_odd = true. Proof. vm_compute. reflexivity. Qed.
Lemma small_brute_prime_ok : forallb small_brute_prime small_odd = true. Proof. vm_compute. reflexivity. Qed.

Theorem self_first_prime : forall p d, prime p -> Z.odd p = true -> Z.odd d = true -> 5 <= d -> self_stop p d = true ->
  (forall e, Z.odd e = true -> 5 <= e < d -> self_stop p e = false) -> jacobi (star d) p = -1.
Proof.
  intros p d Hp Ho Hd H5 Hs Hf. pose proof (odd_prime_3 p Hp Ho) as H3.
  pose proof (Z.sqrt_spec p ltac:(lia)) as [S1 S2]. pose proof (Z.sqrt_nonneg p) as S0. set (s := Z.sqrt p) in *.
  assert (Bd : d <= 15 + 2 * s).
  { destruct (self_stop_exists p ltac:(lia) Ho) as [e [He [Hr Hse]]]. fold s in Hr.
    destruct (Z.le_gt_cases d e) as [|C]; [lia|]. rewrite (Hf e He ltac:(lia)) in Hse. discriminate Hse. }
  destruct (Z.lt_ge_cases p 70) as [Hsm|Hsm].
  - pose proof small_self_prime_ok as F. rewrite forallb_forall in F. specialize (F p (small_odd_in p Ho ltac:(lia))).
    unfold small_self_prime in F. rewrite (primeb_false p Hp) in F. cbn [negb orb] in F. rewrite forallb_forall in F.
    apply Z.odd_spec in Hd. destruct Hd as [j Hj]. assert (s < 9) by nia.
    specialize (F (Z.to_nat (j - 2))). cbv zeta in F. replace (5 + 2 * Z.of_nat (Z.to_nat (j - 2))) with d in F by lia.
    rewrite Hs in F. cbn [negb orb] in F. specialize (F ltac:(apply in_seq; lia)). apply orb_true_iff in F. destruct F as [F|F]; [apply Z.eqb_eq; exact F|].
    exfalso. apply existsb_exists in F. destruct F as [k [Hk F]]. apply in_seq in Hk. rewrite Hf in F; [discriminate F | | lia].
    rewrite Z.odd_add, Z.odd_mul. reflexivity.
  - unfold self_stop in Hs. rewrite prime_not_sq, andb_false_r in Hs by exact Hp. cbn [orb] in Hs.
    apply orb_true_iff in Hs. destruct Hs as [Hs|Hs]; [|apply Z.eqb_eq; exact Hs]. exfalso.
    apply andb_true_iff in Hs. destruct Hs as [Hs _]. apply Z.eqb_eq in Hs. rewrite jacobi_prime in Hs by exact Hp. apply legendre_0 in Hs; [|lia].
    assert (D : (p | d)) by (destruct (star_odd d Hd) as [_ [E|E]]; rewrite E in Hs; [exact Hs | apply Z.divide_opp_r; exact Hs]).
    apply divide_pos_le in D; [|lia]. nia.
Qed.

Theorem brute_first_prime : forall p P, prime p -> Z.odd p = true -> 3 <= P -> brute_stop p P = true ->
  (forall e, 3 <= e < P -> brute_stop p e = false) -> jacobi (P * P - 4) p = -1.
Proof.
  intros p P Hp Ho H5 Hs Hf. pose proof (odd_prime_3 p Hp Ho) as H3.
  pose proof (Z.sqrt_spec p ltac:(lia)) as [S1 S2]. pose proof (Z.sqrt_nonneg p) as S0. set (s := Z.sqrt p) in *.
  assert (Bd : P <= Z.max 10 s).
  { destruct (brute_stop_exists p ltac:(lia) Ho) as [e [Hr Hse]]. fold s in Hr.
    destruct (Z.le_gt_cases P e) as [|C]; [lia|]. rewrite (Hf e ltac:(lia)) in Hse. discriminate Hse. }
  destruct (Z.lt_ge_cases p 70) as [Hsm|Hsm].
  - pose proof small_brute_prime_ok as F. rewrite forallb_forall in F. specialize (F p (small_odd_in p Ho ltac:(lia))).
    unfold small_brute_prime in F. rewrite (primeb_false p Hp) in F. cbn [negb orb] in F. rewrite forallb_forall in F. assert (s < 9) by nia.
    specialize (F (Z.to_nat (P - 3))). cbv zeta in F. replace (3 + Z.of_nat (Z.to_nat (P - 3))) with P in F by lia.
    rewrite Hs in F. cbn [negb orb] in F. specialize (F ltac:(apply in_seq; lia)). apply orb_true_iff in F. destruct F as [F|F]; [apply Z.eqb_eq; exact F|].
    exfalso. apply existsb_exists in F. destruct F as [k [Hk F]]. apply in_seq in Hk. rewrite Hf in F; [discriminate F | lia].
  - unfold brute_stop in Hs. rewrite prime_not_sq, andb_false_r in Hs by exact Hp. cbn [orb] in Hs.
    apply orb_true_iff in Hs. destruct Hs as [Hs|Hs]; [|apply Z.eqb_eq; exact Hs]. exfalso.
    apply andb_true_iff in Hs. destruct Hs as [Hs _]. apply Z.eqb_eq in Hs. rewrite jacobi_prime in Hs by exact Hp. apply legendre_0 in Hs; [|lia].
    replace (P * P - 4) with ((P - 2) * (P + 2)) in Hs by ring. apply prime_div_mul in Hs; [|exact Hp].
    destruct Hs as [D|D]; apply divide_pos_le in D; nia.
Qed.
