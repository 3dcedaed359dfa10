(** * Lucas sequences: identities, and their behaviour modulo a prime. *)
From Coq Require Import ZArith Znumtheory Zpow_facts List Lia Bool.
From Verif Require Import Spec NT NTLegendre.
Import ListNotations.
Local Open Scope Z_scope.

Section Lucas.
Variables P Q : Z.
Notation U := (lucasU P Q).
Notation W := (lucasV P Q).
Notation D := (P * P - 4 * Q).

Lemma lucasUV_shape : forall n, snd (fst (lucasUV P Q n)) = fst (fst (lucasUV P Q (S n))) /\
  snd (snd (lucasUV P Q n)) = fst (snd (lucasUV P Q (S n))).
Proof. intros n. cbn [lucasUV]. destruct (lucasUV P Q n) as [[u u'] [v v']]. auto. Qed.
Lemma U_0 : U 0 = 0. Proof. reflexivity. Qed.
Lemma U_1 : U 1 = 1. Proof. reflexivity. Qed.
Lemma V_0 : W 0 = 2. Proof. reflexivity. Qed.
Lemma V_1 : W 1 = P. Proof. reflexivity. Qed.
Lemma UV_rec_nat : forall n, fst (fst (lucasUV P Q (S (S n)))) = P * fst (fst (lucasUV P Q (S n))) - Q * fst (fst (lucasUV P Q n)) /\
  fst (snd (lucasUV P Q (S (S n)))) = P * fst (snd (lucasUV P Q (S n))) - Q * fst (snd (lucasUV P Q n)).
Proof. intros n. cbn [lucasUV]. destruct (lucasUV P Q n) as [[u u'] [v v']]. auto. Qed.
Lemma U_rec : forall n, 0 <= n -> U (n + 2) = P * U (n + 1) - Q * U n.
Proof.
  intros n Hn. unfold lucasU. replace (Z.to_nat (n + 2)) with (S (S (Z.to_nat n))) by lia.
  replace (Z.to_nat (n + 1)) with (S (Z.to_nat n)) by lia. apply UV_rec_nat.
Qed.
Lemma V_rec : forall n, 0 <= n -> W (n + 2) = P * W (n + 1) - Q * W n.
Proof.
  intros n Hn. unfold lucasV. replace (Z.to_nat (n + 2)) with (S (S (Z.to_nat n))) by lia.
  replace (Z.to_nat (n + 1)) with (S (Z.to_nat n)) by lia. apply UV_rec_nat.
Qed.

(** Induction two steps at a time. *)
Lemma ind2 : forall R : Z -> Prop, R 0 -> R 1 -> (forall n, 0 <= n -> R n -> R (n + 1) -> R (n + 2)) -> forall n, 0 <= n -> R n.
Proof.
  intros R H0 H1 Hs n Hn. assert (G : R n /\ R (n + 1)); [|tauto]. pattern n. apply natlike_ind; [auto | | exact Hn].
  intros x Hx [A B]. replace (Z.succ x) with (x + 1) by lia. split; [exact B|]. replace (x + 1 + 1) with (x + 2) by lia. apply Hs; assumption.
Qed.

Lemma V_U : forall n, 0 <= n -> W n = 2 * U (n + 1) - P * U n.
Proof.
  apply ind2.
  - change (0 + 1) with 1. rewrite V_0, U_1, U_0. ring.
  - change (1 + 1) with (0 + 2). rewrite V_1, (U_rec 0) by lia. change (0 + 1) with 1. rewrite U_1, U_0. ring.
  - intros n Hn A B. rewrite V_rec, A, B by lia. replace (n + 2 + 1) with (n + 1 + 2) by lia. rewrite (U_rec (n + 1)), (U_rec n) by lia.
    replace (n + 1 + 1) with (n + 2) by lia. rewrite (U_rec n) by lia. ring.
Qed.
Lemma U_add : forall n m, 0 <= m -> 0 <= n -> U (m + n) = U m * U (n + 1) + U n * U (m + 1) - P * U m * U n.
Proof.
  intros n m Hm Hn. revert m Hm. apply ind2.
  - change (0 + n) with n. change (0 + 1) with 1. rewrite U_0, U_1. ring.
  - rewrite (Z.add_comm 1 n). change (1 + 1) with (0 + 2). rewrite (U_rec 0) by lia. change (0 + 1) with 1. rewrite U_0, U_1. ring.
  - intros m Hm A B. replace (m + 2 + n) with (m + n + 2) by lia. rewrite U_rec, A by lia.
    replace (m + n + 1) with (m + 1 + n) by lia. rewrite B. replace (m + 2 + 1) with (m + 1 + 2) by lia.
    rewrite (U_rec (m + 1)) by lia. replace (m + 1 + 1) with (m + 2) by lia. rewrite (U_rec m) by lia. ring.
Qed.
Lemma U_norm : forall n, 0 <= n -> U (n + 1) * U (n + 1) - P * U (n + 1) * U n + Q * U n * U n = Q ^ n.
Proof.
  intros n Hn. pattern n. apply natlike_ind; [| |exact Hn].
  - change (0 + 1) with 1. rewrite U_0, U_1, Z.pow_0_r. ring.
  - intros x Hx IH. replace (Z.succ x) with (x + 1) by lia. rewrite Z.pow_add_r, Z.pow_1_r, <- IH by lia.
    replace (x + 1 + 1) with (x + 2) by lia. rewrite U_rec by lia. ring.
Qed.
Lemma VU_norm : forall n, 0 <= n -> W n * W n - D * (U n * U n) = 4 * Q ^ n.
Proof. intros n Hn. rewrite V_U, <- U_norm by lia. ring. Qed.
Lemma U_double : forall n, 0 <= n -> U (2 * n) = U n * W n.
Proof. intros n Hn. replace (2 * n) with (n + n) by lia. rewrite U_add, V_U by lia. ring. Qed.
Lemma U_double1 : forall n, 0 <= n -> U (2 * n + 1) = U (n + 1) * U (n + 1) - Q * U n * U n.
Proof.
  intros n Hn. replace (2 * n + 1) with (n + (n + 1)) by lia. rewrite U_add by lia. replace (n + 1 + 1) with (n + 2) by lia. rewrite U_rec by lia. ring.
Qed.
Lemma U_double2 : forall n, 0 <= n -> U (2 * n + 2) = P * U (n + 1) * U (n + 1) - 2 * Q * U (n + 1) * U n.
Proof.
  intros n Hn. rewrite U_rec, U_double1, U_double, V_U by lia. ring.
Qed.
Lemma V_add : forall m n, 0 <= m -> 0 <= n -> 2 * W (m + n) = W m * W n + D * (U m * U n).
Proof.
  intros m n Hm Hn. rewrite !V_U by lia. replace (m + n + 1) with (m + (n + 1)) by lia. rewrite (U_add (n + 1) m), (U_add n m) by lia.
  replace (n + 1 + 1) with (n + 2) by lia. rewrite U_rec by lia. ring.
Qed.
Lemma V_double : forall n, 0 <= n -> W (2 * n) = W n * W n - 2 * Q ^ n.
Proof.
  intros n Hn. assert (2 * W (2 * n) = 2 * (W n * W n - 2 * Q ^ n)); [|lia].
  replace (2 * n) with (n + n) by lia. rewrite V_add by lia. pose proof (VU_norm n Hn) as N. set (X := D * (U n * U n)) in *. lia.
Qed.

Lemma U_divides : forall M j k, 0 <= j -> 0 <= k -> (M | U j) -> (M | U (j * k)).
Proof.
  intros M j k Hj Hk H. pattern k. apply natlike_ind; [| |exact Hk].
  - rewrite Z.mul_0_r, U_0. apply Z.divide_0_r.
  - intros x Hx IH. replace (j * Z.succ x) with (j * x + j) by lia. rewrite U_add by nia.
    apply Z.divide_sub_r; [apply Z.divide_add_r; apply Z.divide_mul_l; assumption | apply Z.divide_mul_r; exact H].
Qed.
Lemma V_divides_odd : forall p j k, prime p -> Z.odd p = true -> 0 <= j -> 0 <= k -> (p | W j) -> (p | W (j * (2 * k + 1))).
Proof.
  intros p j k Hp Ho Hj Hk H. replace (j * (2 * k + 1)) with (2 * j * k + j) by ring.
  assert (A : (p | U (2 * j))) by (rewrite U_double by lia; apply Z.divide_mul_r; exact H).
  apply (U_divides p (2 * j) k) in A; [|lia|lia].
  assert (B : (p | 2 * W (2 * j * k + j))).
  { rewrite V_add by nia. apply Z.divide_add_r; [apply Z.divide_mul_r; exact H | apply Z.divide_mul_r, Z.divide_mul_l; exact A]. }
  apply prime_div_mul in B; [|exact Hp]. destruct B as [B|B]; [|exact B].
  apply divide_pos_le in B; [|lia]. pose proof (odd_prime_3 p Hp Ho). lia.
Qed.

(** ** Binomial sums *)
Fixpoint binom (n k : nat) : Z :=
  match n, k with
  | _, O => 1
  | O, S _ => 0
  | S n', S k' => binom n' k' + binom n' (S k')
  end.
Lemma binom_0 : forall n, binom n 0 = 1. Proof. intros [|n]; reflexivity. Qed.
Lemma binom_gt : forall n k, (n < k)%nat -> binom n k = 0.
Proof. induction n as [|n IH]; intros [|k] H; try lia; [reflexivity|]. cbn [binom]. rewrite !IH by lia. reflexivity. Qed.
Lemma binom_n : forall n, binom n n = 1.
Proof. induction n as [|n IH]; [reflexivity|]. cbn [binom]. rewrite IH, binom_gt by lia. reflexivity. Qed.
Lemma binom_absorb : forall n k, Z.of_nat (S k) * binom (S n) (S k) = Z.of_nat (S n) * binom n k.
Proof.
  induction n as [|n IH]; intros k.
  - destruct k as [|k]; [reflexivity|]. cbn [binom]. lia.
  - destruct k as [|k].
    + pose proof (IH O) as H. cbn [binom] in H |- *. rewrite binom_0 in *. lia.
    + pose proof (IH k) as H1. pose proof (IH (S k)) as H2.
      change (binom (S (S n)) (S (S k))) with (binom (S n) (S k) + binom (S n) (S (S k))).
      change (binom (S n) (S k)) with (binom n k + binom n (S k)) in *.
      change (binom (S n) (S (S k))) with (binom n (S k) + binom n (S (S k))) in *.
      set (a := binom n k) in *. set (b := binom n (S k)) in *. set (c := binom n (S (S k))) in *.
      rewrite !Nat2Z.inj_succ in *. unfold Z.succ in *. lia.
Qed.
Lemma binom_prime : forall p k, prime p -> (0 < k < Z.to_nat p)%nat -> (p | binom (Z.to_nat p) k).
Proof.
  intros p [|k] Hp Hk; [lia|]. pose proof (prime_ge2 p Hp). destruct (Z.to_nat p) as [|m] eqn:E; [lia|].
  pose proof (binom_absorb m k) as H1. assert (Em : Z.of_nat (S m) = p) by lia. rewrite Em in H1.
  assert (Dv : (p | Z.of_nat (S k) * binom (S m) (S k))) by (rewrite H1; apply Z.divide_factor_l).
  apply prime_div_mul in Dv; [|exact Hp]. destruct Dv as [Dv|Dv]; [|exact Dv]. apply divide_pos_le in Dv; lia.
Qed.

Fixpoint sum (n : nat) (f : nat -> Z) : Z := match n with O => f O | S m => sum m f + f (S m) end.
Lemma sum_ext : forall n f g, (forall k, (k <= n)%nat -> f k = g k) -> sum n f = sum n g.
Proof. induction n as [|n IH]; intros f g H; cbn [sum]; [apply H; lia|]. rewrite (IH f g), H by (intros; try apply H; lia). reflexivity. Qed.
Lemma sum_plus : forall n f g, sum n (fun k => f k + g k) = sum n f + sum n g.
Proof. induction n as [|n IH]; intros f g; cbn [sum]; [reflexivity|]. rewrite IH. ring. Qed.
Lemma sum_first : forall n f, sum (S n) f = f O + sum n (fun k => f (S k)).
Proof. induction n as [|n IH]; intros f; [reflexivity|]. cbn [sum] in *. rewrite IH. ring. Qed.
Lemma sum_scal : forall n c f, sum n (fun k => c * f k) = c * sum n f.
Proof. induction n as [|n IH]; intros c f; cbn [sum]; [reflexivity|]. rewrite IH. ring. Qed.

(** (P + shift)^n applied to a sequence *)
Fixpoint opn (n : nat) (w : nat -> Z) : nat -> Z :=
  match n with O => w | S m => opn m (fun k => P * w k + w (S k)) end.
Lemma opn_sum : forall n w, opn n w O = sum n (fun k => binom n k * P ^ Z.of_nat (n - k) * w k).
Proof.
  induction n as [|n IH]; intros w; [cbn [opn sum binom]; rewrite Nat.sub_diag, Z.pow_0_r; ring|].
  cbn [opn]. rewrite IH. rewrite sum_first.
  rewrite (sum_ext n (fun k => binom n k * P ^ Z.of_nat (n - k) * (P * w k + w (S k)))
     (fun k => binom n k * P ^ Z.of_nat (S n - k) * w k + binom n k * P ^ Z.of_nat (n - k) * w (S k))).
  2:{ intros k Hk. replace (S n - k)%nat with (S (n - k)) by lia. rewrite Nat2Z.inj_succ, Z.pow_succ_r by lia. ring. }
  rewrite sum_plus.
  rewrite (sum_ext n (fun k => binom (S n) (S k) * P ^ Z.of_nat (S n - S k) * w (S k))
     (fun k => binom n k * P ^ Z.of_nat (n - k) * w (S k) + binom n (S k) * P ^ Z.of_nat (n - k) * w (S k))).
  2:{ intros k Hk. cbn [binom]. replace (S n - S k)%nat with (n - k)%nat by lia. ring. }
  rewrite sum_plus.
  assert (X : sum n (fun k => binom n k * P ^ Z.of_nat (S n - k) * w k) =
              binom (S n) 0 * P ^ Z.of_nat (S n - 0) * w O + sum n (fun k => binom n (S k) * P ^ Z.of_nat (n - k) * w (S k))).
  { change (binom (S n) 0) with 1. destruct n as [|n].
    - cbn [sum]. rewrite binom_0, (binom_gt 0 1) by lia. ring.
    - rewrite sum_first, binom_0. change (sum (S n) (fun k => binom (S n) (S k) * P ^ Z.of_nat (S n - k) * w (S k)))
        with (sum n (fun k => binom (S n) (S k) * P ^ Z.of_nat (S n - k) * w (S k)) + binom (S n) (S (S n)) * P ^ Z.of_nat (S n - S n) * w (S (S n))).
      rewrite (binom_gt (S n) (S (S n))) by lia. rewrite (sum_ext n _ (fun k => binom (S n) (S k) * P ^ Z.of_nat (S n - k) * w (S k))); [ring|].
      intros k Hk. replace (S (S n) - S k)%nat with (S n - k)%nat by lia. reflexivity. }
  rewrite X. ring.
Qed.
Lemma sum_eqm_ends : forall M n f, (forall k, (0 < k <= n)%nat -> f k =[M]= 0) -> sum n f =[M]= f O.
Proof.
  intros M. induction n as [|n IH]; intros f H; cbn [sum]; [apply eqm_refl|].
  replace (f O) with (f O + 0) by ring. apply eqm_add; [apply IH; intros; apply H; lia | apply H; lia].
Qed.
Lemma opn_prime : forall p w, prime p -> opn (Z.to_nat p) w O =[p]= P ^ p * w O + w (Z.to_nat p).
Proof.
  intros p w Hp. pose proof (prime_ge2 p Hp). rewrite opn_sum. destruct (Z.to_nat p) as [|m] eqn:E; [lia|]. cbn [sum].
  rewrite binom_n, Nat.sub_diag, Z.pow_0_r. replace (1 * 1 * w (S m)) with (w (S m)) by ring. apply eqm_add; [|apply eqm_refl].
  replace (P ^ p * w O) with (binom (S m) 0 * P ^ Z.of_nat (S m - 0) * w O).
  2:{ rewrite binom_0. replace (Z.of_nat (S m - 0)) with p by lia. ring. }
  apply (sum_eqm_ends p m (fun k => binom (S m) k * P ^ Z.of_nat (S m - k) * w k)). intros k Hk. apply eqm_0. rewrite <- E.
  apply Z.divide_mul_l, Z.divide_mul_l, binom_prime; [exact Hp | lia].
Qed.

(** Powers of w = sqrt(D): w^(2j) = D^j, as pairs (constant part, w part). *)
Fixpoint wpow (k : nat) : Z * Z := match k with O => (1, 0) | S j => let '(a, b) := wpow j in (D * b, a) end.
Lemma wpow_even : forall j, wpow (2 * j) = (D ^ Z.of_nat j, 0) /\ wpow (S (2 * j)) = (0, D ^ Z.of_nat j).
Proof.
  induction j as [|j [A B]]; [cbn; auto with zarith|].
  - split; [reflexivity|]. cbn [wpow Nat.mul]. rewrite Z.mul_0_r. reflexivity.
  - replace (2 * S j)%nat with (S (S (2 * j))) by lia. assert (E : wpow (S (S (2 * j))) = (D ^ Z.of_nat (S j), 0)).
    { change (wpow (S (S (2 * j)))) with (let '(a, b) := wpow (S (2 * j)) in (D * b, a)). rewrite B, Nat2Z.inj_succ, Z.pow_succ_r by lia. reflexivity. }
    split; [exact E|]. change (wpow (S (S (S (2 * j))))) with (let '(a, b) := wpow (S (S (2 * j))) in (D * b, a)). rewrite E, Z.mul_0_r. reflexivity.
Qed.
Lemma opn_ext : forall n w w' k, (forall k, w k = w' k) -> opn n w k = opn n w' k.
Proof. induction n as [|n IH]; intros w w' k H; cbn [opn]; [apply H|]. apply IH. intros j. rewrite !H. reflexivity. Qed.
(** linear combination of opn *)
Lemma opn_lin : forall n a b w w' k, opn n (fun k => a * w k + b * w' k) k = a * opn n w k + b * opn n w' k.
Proof.
  induction n as [|n IH]; intros a b w w' k; cbn [opn]; [reflexivity|]. rewrite <- IH. apply opn_ext. intros j. ring.
Qed.
Lemma opn_wpow : forall n, 2 * opn n (fun k => fst (wpow k)) O = 2 ^ Z.of_nat n * W (Z.of_nat n) /\
  2 * opn n (fun k => snd (wpow k)) O = 2 ^ Z.of_nat n * U (Z.of_nat n).
Proof.
  induction n as [|n [A B]]; [cbn [opn wpow fst snd]; change (Z.of_nat 0) with 0; rewrite V_0, U_0, Z.pow_0_r; split; reflexivity|].
  cbn [opn].
  assert (EA : opn n (fun k => P * fst (wpow k) + fst (wpow (S k))) O = P * opn n (fun k => fst (wpow k)) O + D * opn n (fun k => snd (wpow k)) O).
  { rewrite <- opn_lin. apply opn_ext. intros k. cbn [wpow]. destruct (wpow k). cbn [fst snd]. ring. }
  assert (EB : opn n (fun k => P * snd (wpow k) + snd (wpow (S k))) O = P * opn n (fun k => snd (wpow k)) O + 1 * opn n (fun k => fst (wpow k)) O).
  { rewrite <- opn_lin. apply opn_ext. intros k. cbn [wpow]. destruct (wpow k). cbn [fst snd]. ring. }
  rewrite EA, EB. rewrite Nat2Z.inj_succ, Z.pow_succ_r by lia. replace (Z.succ (Z.of_nat n)) with (Z.of_nat n + 1) by lia. set (m := Z.of_nat n) in *.
  assert (Hm : 0 <= m) by lia.
  assert (V1 : 2 * W (m + 1) = P * W m + D * U m). { rewrite V_add by lia. rewrite V_1, U_1. ring. }
  assert (U1 : 2 * U (m + 1) = P * U m + W m). { rewrite V_U by lia. ring. }
  split.
  - replace (2 * (P * opn n (fun k => fst (wpow k)) O + D * opn n (fun k => snd (wpow k)) O)) with
      (P * (2 * opn n (fun k => fst (wpow k)) O) + D * (2 * opn n (fun k => snd (wpow k)) O)) by ring.
    rewrite A, B. replace (2 * 2 ^ m * W (m + 1)) with (2 ^ m * (2 * W (m + 1))) by ring. rewrite V1. ring.
  - replace (2 * (P * opn n (fun k => snd (wpow k)) O + 1 * opn n (fun k => fst (wpow k)) O)) with
      (P * (2 * opn n (fun k => snd (wpow k)) O) + (2 * opn n (fun k => fst (wpow k)) O)) by ring.
    rewrite A, B. replace (2 * 2 ^ m * U (m + 1)) with (2 ^ m * (2 * U (m + 1))) by ring. rewrite U1. ring.
Qed.

(** ** Modulo an odd prime *)
Lemma fermat_p : forall p a, prime p -> a ^ p =[p]= a.
Proof.
  intros p a Hp. pose proof (prime_ge2 p Hp). replace p with (Z.succ (p - 1)) at 2 by lia. rewrite Z.pow_succ_r by lia.
  destruct (Zdivide_dec p a) as [Hd|Hd].
  - eapply eqm_trans with 0; [apply eqm_0, Z.divide_mul_l; exact Hd | apply eqm_sym, eqm_0; exact Hd].
  - eapply eqm_trans with (a * 1); [apply eqm_mul; [apply eqm_refl | apply fermat; assumption] | rewrite Z.mul_1_r; apply eqm_refl].
Qed.
Lemma cancel2 : forall p a b, prime p -> Z.odd p = true -> 2 * a =[p]= 2 * b -> a =[p]= b.
Proof.
  intros p a b Hp Ho. apply eqm_cancel_l. apply prime_rel_prime; [exact Hp|]. intros C. apply divide_pos_le in C; [|lia]. pose proof (odd_prime_3 p Hp Ho). lia.
Qed.
Theorem UV_prime : forall p, prime p -> Z.odd p = true -> U p =[p]= legendre D p /\ W p =[p]= P.
Proof.
  intros p Hp Ho. pose proof (odd_prime_3 p Hp Ho). destruct (opn_wpow (Z.to_nat p)) as [A B]. rewrite Z2Nat.id in A, B by lia.
  destruct (Zodd_ex p) as [h Hh]; [apply Zodd_bool_iff; exact Ho|].
  destruct (wpow_even (Z.to_nat h)) as [_ E]. replace (S (2 * Z.to_nat h)) with (Z.to_nat p) in E by lia. rewrite Z2Nat.id in E by lia.
  pose proof (opn_prime p (fun k => fst (wpow k)) Hp) as PA. pose proof (opn_prime p (fun k => snd (wpow k)) Hp) as PB.
  cbn [wpow fst snd] in PA, PB. rewrite E in PA, PB. cbn [fst snd] in PA, PB.
  assert (T : 2 ^ p =[p]= 2) by (apply fermat_p; exact Hp).
  split; apply (cancel2 p); try assumption.
  - eapply eqm_trans; [apply eqm_mul; [apply eqm_sym; exact T | apply eqm_refl]|]. rewrite <- B.
    apply eqm_mul; [apply eqm_refl|]. eapply eqm_trans; [exact PB|]. rewrite Z.mul_0_r, Z.add_0_l.
    replace h with ((p - 1) / 2). { apply euler_criterion; assumption. }
    rewrite Hh. replace (2 * h + 1 - 1) with (h * 2) by ring. apply Z.div_mul. lia.
  - eapply eqm_trans; [apply eqm_mul; [apply eqm_sym; exact T | apply eqm_refl]|]. rewrite <- A.
    apply eqm_mul; [apply eqm_refl|]. eapply eqm_trans; [exact PA|]. rewrite Z.mul_1_r, Z.add_0_r. apply fermat_p. exact Hp.
Qed.

(** The index p - (D/p). *)
Theorem U_prime_index : forall p, prime p -> Z.odd p = true -> (~ (p | Q) \/ legendre D p <> 1) -> (p | U (p - legendre D p)).
Proof.
  intros p Hp Ho HQ. pose proof (odd_prime_3 p Hp Ho). destruct (UV_prime p Hp Ho) as [A B].
  assert (C : 2 * U (p + 1) =[p]= P + P * legendre D p).
  { replace (2 * U (p + 1)) with (W p + P * U p) by (rewrite V_U by lia; ring). apply eqm_add; [exact B | apply eqm_mul; [apply eqm_refl | exact A]]. }
  pose proof (legendre_range D p ltac:(lia)) as Hr.
  assert (Cs : legendre D p = -1 \/ legendre D p = 0 \/ legendre D p = 1) by lia. destruct Cs as [E|[E|E]]; rewrite E in *.
  - replace (p - -1) with (p + 1) by lia. apply eqm_0. apply (cancel2 p); [exact Hp | exact Ho |]. eapply eqm_trans; [exact C|].
    replace (P + P * -1) with (2 * 0) by ring. apply eqm_refl.
  - rewrite Z.sub_0_r. apply eqm_0. exact A.
  - destruct HQ as [HQ|HQ]; [|lia].
    assert (C1 : U (p + 1) =[p]= P). { apply (cancel2 p); [exact Hp | exact Ho |]. eapply eqm_trans; [exact C|]. replace (P + P * 1) with (2 * P) by ring. apply eqm_refl. }
    assert (R : U (p + 1) = P * U p - Q * U (p - 1)).
    { replace (p + 1) with (p - 1 + 2) by lia. rewrite U_rec by lia. replace (p - 1 + 1) with p by lia. reflexivity. }
    assert (Z0 : (p | Q * U (p - 1))).
    { replace (Q * U (p - 1)) with (P * U p - U (p + 1)) by (rewrite R; ring). apply eqm_0. eapply eqm_trans.
      - apply eqm_sub; [apply eqm_mul; [apply eqm_refl | exact A] | exact C1].
      - replace (P * 1 - P) with 0 by ring. apply eqm_refl. }
    apply prime_div_mul in Z0; [|exact Hp]. destruct Z0 as [Z0|Z0]; [contradiction | exact Z0].
Qed.

(** Q = 1: the half index. *)
Theorem V_prime_index : forall p, prime p -> Z.odd p = true -> Q = 1 -> legendre D p <> 0 ->
  W (p - legendre D p) =[p]= 2.
Proof.
  intros p Hp Ho HQ HD. pose proof (odd_prime_3 p Hp Ho). destruct (UV_prime p Hp Ho) as [A B].
  assert (HU : (p | U (p - legendre D p))).
  { apply U_prime_index; [exact Hp | exact Ho |]. left. rewrite HQ. intros C. apply divide_pos_le in C; lia. }
  pose proof (legendre_range D p ltac:(lia)) as Hr.
  assert (Cs : legendre D p = -1 \/ legendre D p = 1) by lia. destruct Cs as [E|E]; rewrite E in *.
  - replace (p - -1) with (p + 1) in * by lia. rewrite V_U by lia. replace (p + 1 + 1) with (p + 2) by lia. rewrite U_rec by lia.
    replace (2 * (P * U (p + 1) - Q * U p) - P * U (p + 1)) with (P * U (p + 1) - 2 * Q * U p) by ring. rewrite HQ in *.
    replace 2 with (P * 0 - 2 * 1 * -1) at 2 by ring. apply eqm_sub; apply eqm_mul; try apply eqm_refl; [apply eqm_0; exact HU | exact A].
  - rewrite V_U by lia. replace (p - 1 + 1) with p by lia. replace 2 with (2 * 1 - P * 0) at 2 by ring.
    apply eqm_sub; apply eqm_mul; try apply eqm_refl; [exact A | apply eqm_0; exact HU].
Qed.
Theorem U_prime_half : forall p h, prime p -> Z.odd p = true -> Q = 1 -> legendre D p <> 0 -> 0 <= h -> p - legendre D p = 2 * h -> (p | U h).
Proof.
  intros p h Hp Ho HQ HD Hh E. pose proof (odd_prime_3 p Hp Ho). pose proof (V_prime_index p Hp Ho HQ HD) as HV.
  rewrite E, V_double in HV by lia. pose proof (VU_norm h Hh) as N.
  assert (E1 : Q ^ h = 1) by (rewrite HQ; apply Z.pow_1_l; lia). rewrite E1 in *.
  assert (Dv : (p | D * (U h * U h))).
  { replace (D * (U h * U h)) with (W h * W h - 2 * 1 - 2) by lia. exact HV. }
  apply prime_div_mul in Dv; [|exact Hp]. destruct Dv as [Dv|Dv].
  - exfalso. apply HD. apply legendre_0; [lia | exact Dv].
  - apply prime_div_mul in Dv; [|exact Hp]. tauto.
Qed.
End Lucas.
