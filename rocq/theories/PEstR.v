(** * Gram's series lies between the formulas of prime_pi_bounds.

    The derivative of the partial sum is close to e^y / y, so it is enough to compare at the first
    argument of each branch of the bounds (integer arithmetic, [ups] and [downs]) and to compare
    derivatives from there on. *)
From Coq Require Import Reals ZArith Lia Lra Bool List.
From Coquelicot Require Import Coquelicot.
From Interval Require Import Tactic.
From Verif Require Import SpecGram PFloat PGram PZeta PZetaTab PGramR PropGram.
Local Open Scope R_scope.

(** ** Values: 2^80 times the partial sum, rounded up and down *)
Definition SC : Z := (2 ^ 80)%Z.
Definition YS : Z := (2 ^ 50)%Z.
Local Open Scope Z_scope.
Definition cdiv (a b : Z) : Z := (a + b - 1) / b.
(** [p] is 2^80 y^j / j!, [acc] 2^80 times the sum so far, the list holds 2^70 zeta(j+2), 2^70 zeta(j+3), ... *)
Fixpoint run_up (Y k : Z) (l : list (Z * Z)) (p acc : Z) : Z :=
  match l with
  | nil => acc
  | cons (a, _) l' => let q := cdiv (p * Y) (k * YS) in run_up Y (k + 1) l' q (acc + cdiv (q * ONE) (k * a))
  end.
Fixpoint run_dn (Y k : Z) (l : list (Z * Z)) (p acc : Z) : Z :=
  match l with
  | nil => acc
  | cons (_, b) l' => let q := (p * Y) / (k * YS) in run_dn Y (k + 1) l' q (acc + (q * ONE) / (k * b))
  end.
Definition zetas (n : nat) : list (Z * Z) := brackets ++ repeat (ONE, ONE + 64) (n - 64).
Definition ups (Y : Z) (n : nat) : Z := run_up Y 1 (zetas n) SC 0.
Definition downs (Y : Z) (n : nat) : Z := run_dn Y 1 (zetas n) SC 0.
Local Open Scope R_scope.
Lemma cdiv_real : forall a b, (0 < b)%Z -> IZR a / IZR b <= IZR (cdiv a b).
Proof.
  intros a b Hb. assert (B : 0 < IZR b) by (apply IZR_lt, Hb). apply Rmult_le_reg_r with (IZR b); [exact B|]. unfold Rdiv. rewrite Rmult_assoc, Rinv_l, Rmult_1_r, <- mult_IZR by lra. apply IZR_le. unfold cdiv.
  pose proof (Z.div_mod (a + b - 1) b ltac:(lia)). pose proof (Z.mod_pos_bound (a + b - 1) b Hb). nia.
Qed.
Lemma fdiv_real : forall a b, (0 < b)%Z -> IZR (a / b) <= IZR a / IZR b.
Proof.
  intros a b Hb. assert (B : 0 < IZR b) by (apply IZR_lt, Hb). apply Rmult_le_reg_r with (IZR b); [exact B|]. unfold Rdiv. rewrite Rmult_assoc, Rinv_l, Rmult_1_r, <- mult_IZR by lra. apply IZR_le.
  pose proof (Z.div_mod a b ltac:(lia)). pose proof (Z.mod_pos_bound a b Hb). nia.
Qed.
Lemma fact_succ : forall k, INR (fact (S k)) = INR (S k) * INR (fact k).
Proof. intros k. change (fact (S k)) with (S k * fact k)%nat. apply mult_INR. Qed.
Lemma kYS : forall k, (0 < Z.of_nat (S k) * YS)%Z.
Proof. intros k. unfold YS. lia. Qed.
Lemma term_up : forall y Y k p, 0 <= y -> IZR YS * y <= IZR Y -> IZR SC * (y ^ k / INR (fact k)) <= IZR p -> IZR SC * (y ^ S k / INR (fact (S k))) <= IZR (cdiv (p * Y) (Z.of_nat (S k) * YS)).
Proof.
  intros y Y k p Hy HY IH. eapply Rle_trans; [|apply cdiv_real, kYS]. rewrite !mult_IZR, <- INR_IZR_INZ, fact_succ. pose proof (INR_S_pos k) as K. pose proof (fact_pos k) as F. assert (P : 0 <= y ^ k) by (apply pow_le, Hy).
  assert (Q : 0 < IZR YS) by (apply IZR_lt; reflexivity). assert (S0 : 0 < IZR SC) by (apply IZR_lt; reflexivity). cbn [pow].
  replace (IZR SC * (y * y ^ k / (INR (S k) * INR (fact k)))) with (IZR SC * (y ^ k / INR (fact k)) * (IZR YS * y) / (INR (S k) * IZR YS)) by (field; repeat split; lra).
  unfold Rdiv at 1 3. apply Rmult_le_compat_r; [left; apply Rinv_0_lt_compat, Rmult_lt_0_compat; lra|]. apply Rmult_le_compat; [|apply Rmult_le_pos; lra | exact IH | exact HY]. apply Rmult_le_pos; [lra|]. apply Rmult_le_pos; [exact P | left; apply Rinv_0_lt_compat, F].
Qed.
Lemma term_dn : forall y Y k p, 0 <= y -> (0 <= Y)%Z -> IZR Y <= IZR YS * y -> IZR p <= IZR SC * (y ^ k / INR (fact k)) -> (0 <= p)%Z ->
  IZR ((p * Y) / (Z.of_nat (S k) * YS)) <= IZR SC * (y ^ S k / INR (fact (S k))) /\ (0 <= (p * Y) / (Z.of_nat (S k) * YS))%Z.
Proof.
  intros y Y k p Hy H0 HY IH IH0. split; [|apply Z.div_pos; [apply Z.mul_nonneg_nonneg; assumption | apply kYS]]. eapply Rle_trans; [apply fdiv_real, kYS|]. rewrite !mult_IZR, <- INR_IZR_INZ, fact_succ. pose proof (INR_S_pos k) as K. pose proof (fact_pos k) as F. assert (P : 0 <= y ^ k) by (apply pow_le, Hy).
  assert (Q : 0 < IZR YS) by (apply IZR_lt; reflexivity). assert (S0 : 0 < IZR SC) by (apply IZR_lt; reflexivity). cbn [pow]. apply IZR_le in H0. apply IZR_le in IH0.
  replace (IZR SC * (y * y ^ k / (INR (S k) * INR (fact k)))) with (IZR SC * (y ^ k / INR (fact k)) * (IZR YS * y) / (INR (S k) * IZR YS)) by (field; repeat split; lra).
  unfold Rdiv at 1 2. apply Rmult_le_compat_r; [left; apply Rinv_0_lt_compat, Rmult_lt_0_compat; lra|]. apply Rmult_le_compat; [exact IH0 | exact H0 | exact IH | exact HY].
Qed.
Section Values.
Context (zt : nat -> R) (HZ : forall k, (1 <= k)%nat -> zeta_is (S k) (zt k)).
Definition fits (j : nat) (l : list (Z * Z)) : Prop := forall i, (i < List.length l)%nat -> (1 <= fst (List.nth i l (0, 0)) /\ 1 <= snd (List.nth i l (0, 0)))%Z /\ IZR (fst (List.nth i l (0, 0)%Z)) <= one * zt (S (j + i)) <= IZR (snd (List.nth i l (0, 0)%Z)).
Lemma fits_cons : forall j a l, fits j (cons a l) -> fits (S j) l.
Proof. intros j a l H i Hi. specialize (H (S i) ltac:(cbn; lia)). cbn [List.nth] in H. rewrite <- plus_n_Sm in H. exact H. Qed.
Lemma run_up_ok : forall y Y l j p acc, 0 <= y -> IZR YS * y <= IZR Y -> fits j l -> IZR SC * (y ^ j / INR (fact j)) <= IZR p -> IZR SC * Sm y zt j <= IZR acc ->
  IZR SC * Sm y zt (j + List.length l) <= IZR (run_up Y (Z.of_nat (S j)) l p acc).
Proof.
  intros y Y l. induction l as [|[a b] l IHl]; intros j p acc Hy HY Hf Hp Ha; [cbn [List.length run_up]; rewrite Nat.add_0_r; exact Ha|].
  cbn [List.length run_up]. rewrite <- plus_n_Sm, <- plus_Sn_m. replace (Z.of_nat (S j) + 1)%Z with (Z.of_nat (S (S j))) by lia. pose proof (term_up y Y j p Hy HY Hp) as P.
  apply IHl; [exact Hy | exact HY | exact (fits_cons _ _ _ Hf) | exact P |]. destruct (Hf 0%nat ltac:(cbn; lia)) as [[G _] [B _]]. cbn [List.nth fst] in G, B. rewrite Nat.add_0_r in B.
  pose proof (Z_ge1 zt HZ (S j) ltac:(lia)) as Z1. cbn [Sm]. set (q := cdiv (p * Y) (Z.of_nat (S j) * YS)) in *. rewrite plus_IZR, Rmult_plus_distr_l. apply Rplus_le_compat; [exact Ha|].
  eapply Rle_trans; [|apply cdiv_real; nia]. rewrite !mult_IZR, <- INR_IZR_INZ, one_eq. pose proof (INR_S_pos j) as K. pose proof (fact_pos (S j)) as F. assert (Y0 : 0 <= y ^ S j) by (apply pow_le, Hy). apply IZR_le in G.
  assert (O : 0 < one) by (unfold one; lra). assert (S0 : 0 < IZR SC) by (apply IZR_lt; reflexivity). unfold T. set (bb := IZR a) in *. set (pp := IZR q) in *. set (m := INR (S j)) in *. set (f := INR (fact (S j))) in *. set (w := y ^ S j) in *. set (z := zt (S j)) in *. set (c := IZR SC) in *. clearbody bb pp m f w z c.
  replace (c * (w / (m * f * z))) with (c * (w / f) * one / (m * (one * z))) by (field; repeat split; lra).
  assert (W : 0 <= c * (w / f)) by (apply Rmult_le_pos; [lra|]; apply Rmult_le_pos; [exact Y0 | left; apply Rinv_0_lt_compat, F]).
  unfold Rdiv at 1 3. apply Rmult_le_compat; [apply Rmult_le_pos; lra | left; apply Rinv_0_lt_compat, Rmult_lt_0_compat; [lra | apply Rmult_lt_0_compat; lra] | apply Rmult_le_compat_r; [lra | exact P] | apply Rinv_le_contravar; [apply Rmult_lt_0_compat; lra | apply Rmult_le_compat_l; lra]].
Qed.
Lemma run_dn_ok : forall y Y l j p acc, 0 <= y -> (0 <= Y)%Z -> IZR Y <= IZR YS * y -> fits j l -> IZR p <= IZR SC * (y ^ j / INR (fact j)) -> (0 <= p)%Z -> IZR acc <= IZR SC * Sm y zt j ->
  IZR (run_dn Y (Z.of_nat (S j)) l p acc) <= IZR SC * Sm y zt (j + List.length l).
Proof.
  intros y Y l. induction l as [|[a b] l IHl]; intros j p acc Hy HY0 HY Hf Hp Hp0 Ha; [cbn [List.length run_dn]; rewrite Nat.add_0_r; exact Ha|].
  cbn [List.length run_dn]. rewrite <- plus_n_Sm, <- plus_Sn_m. replace (Z.of_nat (S j) + 1)%Z with (Z.of_nat (S (S j))) by lia. destruct (term_dn y Y j p Hy HY0 HY Hp Hp0) as [P P0].
  apply IHl; [exact Hy | exact HY0 | exact HY | exact (fits_cons _ _ _ Hf) | exact P | exact P0 |]. destruct (Hf 0%nat ltac:(cbn; lia)) as [[_ G] [_ B]]. cbn [List.nth snd] in G, B. rewrite Nat.add_0_r in B.
  pose proof (Z_ge1 zt HZ (S j) ltac:(lia)) as Z1. cbn [Sm]. set (q := ((p * Y) / (Z.of_nat (S j) * YS))%Z) in *. rewrite plus_IZR, Rmult_plus_distr_l. apply Rplus_le_compat; [exact Ha|].
  eapply Rle_trans; [apply fdiv_real; nia|]. rewrite !mult_IZR, <- INR_IZR_INZ, one_eq. pose proof (INR_S_pos j) as K. pose proof (fact_pos (S j)) as F. assert (Y0 : 0 <= y ^ S j) by (apply pow_le, Hy). apply IZR_le in G. apply IZR_le in P0.
  assert (O : 0 < one) by (unfold one; lra). assert (S0 : 0 < IZR SC) by (apply IZR_lt; reflexivity). unfold T. set (bb := IZR b) in *. set (pp := IZR q) in *. set (m := INR (S j)) in *. set (f := INR (fact (S j))) in *. set (w := y ^ S j) in *. set (z := zt (S j)) in *. set (c := IZR SC) in *. clearbody bb pp m f w z c.
  replace (c * (w / (m * f * z))) with (c * (w / f) * one / (m * (one * z))) by (field; repeat split; lra).
  unfold Rdiv at 1 2. apply Rmult_le_compat; [apply Rmult_le_pos; lra | left; apply Rinv_0_lt_compat, Rmult_lt_0_compat; lra | apply Rmult_le_compat_r; [lra | exact P] | apply Rinv_le_contravar; [apply Rmult_lt_0_compat; [lra | apply Rmult_lt_0_compat; lra] | apply Rmult_le_compat_l; lra]].
Qed.
(** ** The derivative *)
Fixpoint dS (y : R) (n : nat) : R := match n with O => 0 | S k => dS y k + y ^ k / (INR (fact (S k)) * zt (S k)) end.
Lemma Sm_derive : forall n y, derivable_pt_lim (fun v => Sm v zt n) y (dS y n).
Proof.
  induction n as [|n IH]; intros y; [apply derivable_pt_lim_const|]. cbn [dS]. change (fun v => Sm v zt (S n)) with (plus_fct (fun v => Sm v zt n) (fun v => T v zt (S n))). apply derivable_pt_lim_plus; [apply IH|].
  pose proof (Z_ge1 zt HZ (S n) ltac:(lia)) as Z1. pose proof (fact_pos (S n)) as F. pose proof (INR_S_pos n) as K.
  set (c := / (INR (S n) * INR (fact (S n)) * zt (S n))). assert (E : y ^ n / (INR (fact (S n)) * zt (S n)) = c * (INR (S n) * y ^ pred (S n))) by (unfold c; cbn [pred]; field; repeat split; lra).
  rewrite E. apply is_derive_Reals. apply (is_derive_ext (fun v => c * v ^ S n)); [intros v; change (c * v ^ S n = T v zt (S n)); unfold T, c, Rdiv; ring|]. apply is_derive_Reals. apply (derivable_pt_lim_scal (fun v => v ^ S n) c). apply derivable_pt_lim_pow.
Qed.
(** partial sums of e^(c y) - 1 *)
Definition psE (y : R) (n : nat) : R := sum_f_R0 (fun i => / INR (fact i) * y ^ i) n.
Lemma psE_0 : forall y, psE y 0 = 1.
Proof. intros y. unfold psE. cbn [sum_f_R0 fact pow]. change (INR 1) with 1. lra. Qed.
Lemma psE_S : forall y n, psE y (S n) = psE y n + / INR (fact (S n)) * y ^ S n.
Proof. reflexivity. Qed.
Lemma psE_le : forall y n, 0 <= y -> psE y n <= exp y.
Proof.
  intros y n Hy. unfold psE, exp. destruct (exist_exp y) as [l H]. cbn [proj1_sig]. unfold exp_in, infinite_sum in H.
  apply (Un_cv_ge (sum_f_R0 (fun i => / INR (fact i) * y ^ i)) l _ n); [exact H|]. intros m Hm. induction Hm as [|m Hm IH]; [lra|]. cbn [sum_f_R0]. eapply Rle_trans; [exact IH|].
  assert (0 <= / INR (fact (S m)) * y ^ S m); [|lra]. apply Rmult_le_pos; [left; apply Rinv_0_lt_compat, fact_pos | apply pow_le; lra].
Qed.
(** zeta against 1 + 2^-s *)
Lemma Z_two : forall k, (1 <= k)%nat -> 1 + (/ 2) ^ S k <= zt k <= 1 + (/ 2) ^ S k * (1 + 2 / INR k).
Proof.
  intros [|k] Hk; [lia|]. pose proof (HZ (S k) Hk) as H. pose proof (zeta_upper k _ H 1) as U. pose proof (zeta_lower k _ H 1) as L. change (INR 2) with 2 in *. assert (E : psum (S (S k)) 1 = 1 + (/ 2) ^ S (S k)).
  { rewrite psum_S. change (INR 2) with 2. f_equal. unfold psum. cbn [sum_f_R0]. change (INR 1) with 1. rewrite pow1, Rinv_1. reflexivity. }
  rewrite E in U, L. pose proof (INR_S_pos k) as K. split.
  - assert (0 <= (/ INR 3) ^ S k / INR (S k)); [|lra]. apply Rmult_le_pos; [apply pow_le; left; apply Rinv_0_lt_compat; change 3%nat with (S 2); apply INR_S_pos | left; apply Rinv_0_lt_compat, K].
  - eapply Rle_trans; [exact U|]. change ((/ 2) ^ S (S k)) with (/ 2 * (/ 2) ^ S k). set (p := (/ 2) ^ S k). clearbody p. right. field. lra.
Qed.
Lemma third : forall k, (1 <= k)%nat -> 2 / INR k <= / 2 + 9 / 2 * (/ 3) ^ k.
Proof.
  intros k Hk. destruct k as [|[|[|[|k]]]]; [lia | | | |].
  - cbn [INR pow]. lra.
  - cbn [INR pow]. lra.
  - cbn [INR pow]. lra.
  - assert (4 <= INR (S (S (S (S k))))) by (rewrite INR_IZR_INZ; apply IZR_le; lia). assert (0 <= (/ 3) ^ S (S (S (S k)))) by (apply pow_le; lra). assert (2 / INR (S (S (S (S k)))) <= / 2); [|lra].
    apply Rmult_le_reg_r with (INR (S (S (S (S k))))); [lra|]. unfold Rdiv. rewrite Rmult_assoc, Rinv_l by lra. lra.
Qed.
Lemma brackets_len : List.length brackets = 64%nat.
Proof. vm_compute. reflexivity. Qed.
Lemma brackets_pos : List.Forall (fun x => (1 <= fst x /\ 1 <= snd x)%Z) brackets.
Proof. apply List.Forall_forall. intros x Hx. assert (E : List.forallb (fun x => (1 <=? fst x) && (1 <=? snd x))%Z brackets = true) by (vm_compute; reflexivity). rewrite List.forallb_forall in E. specialize (E x Hx). apply andb_true_iff in E. destruct E as [A B]. apply Z.leb_le in A, B. split; assumption. Qed.
Lemma zetas_fit : forall n, fits 0 (zetas n).
Proof.
  intros n i Hi. unfold zetas in *. rewrite List.app_length, List.repeat_length, brackets_len in Hi. destruct (Nat.lt_ge_cases i 64) as [H|H].
  - rewrite List.app_nth1 by (rewrite brackets_len; exact H). split.
    + apply (proj1 (List.Forall_forall _ _) brackets_pos). apply List.nth_In. rewrite brackets_len. exact H.
    + rewrite <- brackets_eq. assert (E : List.nth i (List.map bracket (List.seq 1 64)) (0, 0)%Z = bracket (S i)).
      { rewrite (List.nth_indep _ _ (bracket 0)) by (rewrite List.map_length, List.seq_length; exact H). rewrite List.map_nth, List.seq_nth by exact H. reflexivity. }
      rewrite E. apply bracket_ok; [lia|]. apply HZ. lia.
  - rewrite List.app_nth2 by (rewrite brackets_len; exact H). rewrite brackets_len, (List.nth_indep _ _ (ONE, ONE + 64)%Z) by (rewrite List.repeat_length; lia). assert (E : forall m j, List.nth j (List.repeat (ONE, ONE + 64)%Z m) (ONE, ONE + 64)%Z = (ONE, ONE + 64)%Z) by (induction m as [|m IH]; intros [|j]; cbn; auto).
    rewrite E. cbn [fst snd]. split; [unfold ONE; lia|]. rewrite plus_IZR, one_eq. destruct (Z_two (S (0 + i)) ltac:(lia)) as [A B]. pose proof (k_pos (S (0 + i)) ltac:(lia)) as K. set (p := (/ 2) ^ S (S (0 + i))) in *.
    assert (P : 0 <= p <= / 73786976294838206464).
    { split; [apply pow_le; lra|]. unfold p. rewrite pow_inv. apply Rinv_le_contravar; [lra|]. replace 73786976294838206464 with (2 ^ 66) by (cbn [pow]; lra). apply Rle_pow; [lra | lia]. }
    assert (M : 2 / INR (S (0 + i)) <= 2). { apply Rmult_le_reg_r with (INR (S (0 + i))); [lra|]. unfold Rdiv. rewrite Rmult_assoc, Rinv_l by lra. lra. }
    assert (Q : p * (1 + 2 / INR (S (0 + i))) <= p * 3) by (apply Rmult_le_compat_l; lra). unfold one. lra.
Qed.
Lemma zetas_len : forall n, (64 <= n)%nat -> List.length (zetas n) = n.
Proof. intros n Hn. unfold zetas. rewrite List.app_length, List.repeat_length, brackets_len. lia. Qed.
Lemma ups_ok : forall y Y n, (64 <= n)%nat -> 0 <= y -> IZR YS * y <= IZR Y -> IZR SC * Sm y zt n <= IZR (ups Y n).
Proof.
  intros y Y n Hn Hy HY. pose proof (run_up_ok y Y (zetas n) 0 SC 0 Hy HY (zetas_fit n)) as A. rewrite (zetas_len n Hn) in A. apply A; [cbn [pow fact]; change (INR 1) with 1; lra | cbn [Sm]; lra].
Qed.
Lemma downs_ok : forall y Y n, (64 <= n)%nat -> 0 <= y -> (0 <= Y)%Z -> IZR Y <= IZR YS * y -> IZR (downs Y n) <= IZR SC * Sm y zt n.
Proof.
  intros y Y n Hn Hy HY0 HY. pose proof (run_dn_ok y Y (zetas n) 0 SC 0 Hy HY0 HY (zetas_fit n)) as A. rewrite (zetas_len n Hn) in A. apply A; [cbn [pow fact]; change (INR 1) with 1; lra | unfold SC; lia | cbn [Sm]; lra].
Qed.
Lemma half_pow : forall c y k, (c * y) ^ k = c ^ k * y ^ k.
Proof. intros. apply Rpow_mult_distr. Qed.
Lemma dS_up : forall n y, 0 <= y -> y * dS y n <= (psE y n - 1) - 4 / 10 * (psE (/ 2 * y) n - 1).
Proof.
  intros n y Hy. induction n as [|n IH]; [cbn [dS]; rewrite !psE_0; lra|]. cbn [dS]. rewrite !psE_S, half_pow. rewrite Rmult_plus_distr_l.
  destruct (Z_two (S n) ltac:(lia)) as [A _]. pose proof (fact_pos (S n)) as F. assert (P : 0 <= y ^ S n) by (apply pow_le, Hy). assert (Q : 0 < (/ 2) ^ S n <= / 2). { split; [apply pow_lt; lra|]. rewrite <- tech_pow_Rmult. assert ((/ 2) ^ n <= 1); [|lra]. rewrite <- (pow1 n). apply pow_incr. lra. }
  change ((/ 2) ^ S (S n)) with (/ 2 * (/ 2) ^ S n) in A. set (q := (/ 2) ^ S n) in *. set (z := zt (S n)) in *.
  assert (I : / z <= 1 - 4 / 10 * q).
  { apply Rle_trans with (/ (1 + / 2 * q)); [apply Rinv_le_contravar; lra|]. apply Rmult_le_reg_r with (1 + / 2 * q); [lra|]. rewrite Rinv_l by lra. nra. }
  replace (y * (y ^ n / (INR (fact (S n)) * z))) with (/ INR (fact (S n)) * y ^ S n * / z) by (cbn [pow]; field; split; lra).
  set (e := / INR (fact (S n)) * y ^ S n) in *. assert (E : 0 <= e) by (apply Rmult_le_pos; [left; apply Rinv_0_lt_compat, F | exact P]). replace (/ INR (fact (S n)) * (q * y ^ S n)) with (e * q) by (unfold e; ring).
  assert (e * / z <= e * (1 - 4 / 10 * q)) by (apply Rmult_le_compat_l; assumption). clearbody e q z. lra.
Qed.
Lemma dS_low : forall n y, 0 <= y -> (psE y n - 1) - 3 / 4 * (psE (/ 2 * y) n - 1) - 9 / 4 * (psE (/ 6 * y) n - 1) <= y * dS y n.
Proof.
  intros n y Hy. induction n as [|n IH]; [cbn [dS]; rewrite !psE_0; lra|]. cbn [dS]. rewrite !psE_S, !half_pow. rewrite Rmult_plus_distr_l.
  destruct (Z_two (S n) ltac:(lia)) as [A0 A]. pose proof (third (S n) ltac:(lia)) as W. pose proof (fact_pos (S n)) as F. assert (P : 0 <= y ^ S n) by (apply pow_le, Hy). assert (Q : 0 < (/ 2) ^ S n) by (apply pow_lt; lra). assert (Q3 : 0 < (/ 3) ^ S n) by (apply pow_lt; lra).
  assert (S6 : (/ 6) ^ S n = (/ 2) ^ S n * (/ 3) ^ S n) by (rewrite <- Rpow_mult_distr; f_equal; lra). rewrite S6.
  change ((/ 2) ^ S (S n)) with (/ 2 * (/ 2) ^ S n) in A, A0. set (q := (/ 2) ^ S n) in *. set (r := (/ 3) ^ S n) in *. set (z := zt (S n)) in *. set (m := 2 / INR (S n)) in *.
  assert (I : 1 - 3 / 4 * q - 9 / 4 * (q * r) <= / z).
  { assert (Z1 : 1 < z) by lra. assert (Zu : z <= 1 + 3 / 4 * q + 9 / 4 * (q * r)). { eapply Rle_trans; [exact A|]. assert (q * (1 + m) <= q * (1 + (/ 2 + 9 / 2 * r))) by (apply Rmult_le_compat_l; lra). lra. }
    apply Rle_trans with (2 - z); [lra|]. apply Rmult_le_reg_r with z; [lra|]. rewrite Rinv_l by lra. nra. }
  replace (y * (y ^ n / (INR (fact (S n)) * z))) with (/ INR (fact (S n)) * y ^ S n * / z) by (cbn [pow]; field; split; lra).
  set (e := / INR (fact (S n)) * y ^ S n) in *. assert (E : 0 <= e) by (apply Rmult_le_pos; [left; apply Rinv_0_lt_compat, F | exact P]). replace (/ INR (fact (S n)) * (q * y ^ S n)) with (e * q) by (unfold e; ring). replace (/ INR (fact (S n)) * (q * r * y ^ S n)) with (e * (q * r)) by (unfold e; ring).
  assert (e * (1 - 3 / 4 * q - 9 / 4 * (q * r)) <= e * / z) by (apply Rmult_le_compat_l; assumption). clearbody e q z r. lra.
Qed.

Lemma Sm_le_succ : forall y n, 0 <= y -> Sm y zt n <= Sm y zt (S n).
Proof.
  intros y n Hy. cbn [Sm]. assert (0 <= T y zt (S n)); [|lra]. unfold T. pose proof (Z_ge1 zt HZ (S n) ltac:(lia)). pose proof (fact_pos (S n)). pose proof (INR_S_pos n).
  apply Rmult_le_pos; [apply pow_le, Hy | left; apply Rinv_0_lt_compat, Rmult_lt_0_compat; [apply Rmult_lt_0_compat|]; lra].
Qed.
(** what the first hundred terms of e^y leave out *)
Lemma psE_tail : forall y, 0 <= y <= 45 -> exp y <= psE y 99 + 2 * (/ INR (fact 100) * y ^ 100).
Proof.
  intros y Hy. pose (e := fun i => / INR (fact i) * y ^ i). assert (E0 : forall i, 0 <= e i) by (intros i; apply Rmult_le_pos; [left; apply Rinv_0_lt_compat, fact_pos | apply pow_le; lra]).
  assert (ES : forall i, (99 <= i)%nat -> e (S i) <= / 2 * e i).
  { intros i Hi. unfold e. rewrite fact_succ. pose proof (fact_pos i) as F. pose proof (INR_S_pos i) as K. assert (H100 : 100 <= INR (S i)) by (rewrite INR_IZR_INZ; apply IZR_le; lia).
    replace (/ (INR (S i) * INR (fact i)) * y ^ S i) with (/ INR (fact i) * y ^ i * (y * / INR (S i))) by (cbn [pow]; field; split; lra). rewrite Rmult_comm. apply Rmult_le_compat_r; [apply (E0 i)|].
    apply Rmult_le_reg_r with (INR (S i)); [lra|]. rewrite Rmult_assoc, Rinv_l by lra. lra. }
  assert (G : forall j, psE y (99 + j) + 2 * e (S (99 + j)) <= psE y 99 + 2 * e 100%nat).
  { induction j as [|j IH]; [rewrite Nat.add_0_r; lra|]. eapply Rle_trans; [|exact IH]. rewrite <- plus_n_Sm, psE_S. fold (e (S (99 + j))). pose proof (ES (S (99 + j)) ltac:(lia)). lra. }
  unfold exp. destruct (exist_exp y) as [l H]. cbn [proj1_sig]. unfold exp_in, infinite_sum in H. fold (e 100%nat).
  apply (Un_cv_le (sum_f_R0 (fun i => / INR (fact i) * y ^ i)) l _ 99); [exact H|]. intros n Hn. pose proof (G (n - 99)%nat) as A. replace (99 + (n - 99))%nat with n in A by lia. pose proof (E0 (S n)). unfold psE in A at 1. lra.
Qed.
Lemma psE_near : forall y, 0 <= y <= 45 -> exp y * (1 - / 17179869184) <= psE y 99.
Proof.
  intros y Hy. pose proof (psE_tail y Hy) as A. pose proof (psE_le y 50 ltac:(lra)) as B. change 50%nat with (S 49) in B. rewrite psE_S in B. assert (C : 0 <= psE y 49).
  { unfold psE. apply cond_pos_sum. intros i. apply Rmult_le_pos; [left; apply Rinv_0_lt_compat, fact_pos | apply pow_le; lra]. }
  assert (D : / INR (fact 100) * y ^ 100 <= / 34359738368 * (/ INR (fact 50) * y ^ 50)).
  { rewrite !zfact_eq. change 100%nat with (50 + 50)%nat at 2. rewrite pow_add. assert (P : 0 <= y ^ 50) by (apply pow_le; lra). assert (Q : y ^ 50 <= 45 ^ 50) by (apply pow_incr; lra).
    pose (f50 := IZR (zfact 50)). pose (f100 := IZR (zfact 100)). assert (F50 : 0 < f50) by (apply IZR_lt; vm_compute; reflexivity). assert (F100 : 0 < f100) by (apply IZR_lt; vm_compute; reflexivity).
    assert (K : 34359738368 * 45 ^ 50 * f50 <= f100).
    { unfold f50, f100. change 34359738368 with (IZR 34359738368). change 45 with (IZR 45). rewrite pow_IZR, <- !mult_IZR. apply IZR_le. vm_compute. discriminate. }
    fold f50 f100. set (p := y ^ 50) in *. set (q := 45 ^ 50) in *. clearbody f50 f100 p q. apply Rmult_le_reg_r with (f100 * f50); [apply Rmult_lt_0_compat; lra|].
    replace (/ f100 * (p * p) * (f100 * f50)) with (p * (p * f50)) by (field; lra). replace (/ 34359738368 * (/ f50 * p) * (f100 * f50)) with (p * (/ 34359738368 * f100)) by (field; lra). apply Rmult_le_compat_l; [exact P|].
    assert (p * f50 <= q * f50) by (apply Rmult_le_compat_r; lra). lra. }
  change (S 49) with 50%nat in B. lra.
Qed.
Lemma dS_up2 : forall v, 0 < v <= 45 -> dS v 99 <= exp v * ((1 - 39 / 100 * exp (- (v / 2))) / v).
Proof.
  intros v Hv. pose proof (dS_up 99 v ltac:(lra)) as A. pose proof (psE_le v 99 ltac:(lra)) as B. pose proof (psE_near (/ 2 * v) ltac:(lra)) as C.
  assert (E : exp (/ 2 * v) = exp v * exp (- (v / 2))) by (rewrite <- exp_plus; f_equal; lra). rewrite E in C. assert (P : 0 < exp v) by apply exp_pos. assert (Q : 0 < exp (- (v / 2))) by apply exp_pos. assert (PQ : 0 < exp v * exp (- (v / 2))) by (apply Rmult_lt_0_compat; assumption).
  apply Rmult_le_reg_l with v; [lra|]. replace (v * (exp v * ((1 - 39 / 100 * exp (- (v / 2))) / v))) with (exp v - 39 / 100 * (exp v * exp (- (v / 2)))) by (field; lra). lra.
Qed.
Lemma dS_up3 : forall v n, 0 < v -> dS v n <= exp v * (1 / v).
Proof.
  intros v n Hv. pose proof (dS_up n v ltac:(lra)) as A. pose proof (psE_le v n ltac:(lra)) as B. assert (C : 1 <= psE (/ 2 * v) n).
  { clear - Hv. induction n as [|n IH]; [rewrite psE_0; lra|]. rewrite psE_S. assert (0 <= / INR (fact (S n)) * (/ 2 * v) ^ S n); [|lra]. apply Rmult_le_pos; [left; apply Rinv_0_lt_compat, fact_pos | apply pow_le; lra]. }
  apply Rmult_le_reg_l with v; [lra|]. replace (v * (exp v * (1 / v))) with (exp v) by (field; lra). lra.
Qed.
Lemma dS_low2 : forall v, 0 < v <= 45 -> exp v * ((1 - / 17179869184 - 3 / 4 * exp (- (v / 2)) - 9 / 4 * exp (- (5 * v / 6))) / v) <= dS v 99.
Proof.
  intros v Hv. pose proof (dS_low 99 v ltac:(lra)) as A. pose proof (psE_le (/ 2 * v) 99 ltac:(lra)) as B. pose proof (psE_le (/ 6 * v) 99 ltac:(lra)) as B6. pose proof (psE_near v ltac:(lra)) as C.
  assert (E : exp (/ 2 * v) = exp v * exp (- (v / 2))) by (rewrite <- exp_plus; f_equal; lra). assert (E6 : exp (/ 6 * v) = exp v * exp (- (5 * v / 6))) by (rewrite <- exp_plus; f_equal; lra). rewrite E in B. rewrite E6 in B6.
  apply Rmult_le_reg_l with v; [lra|]. set (a := exp v) in *. set (b := exp (- (v / 2))) in *. set (c := exp (- (5 * v / 6))) in *. replace (v * (a * ((1 - / 17179869184 - 3 / 4 * b - 9 / 4 * c) / v))) with (a * (1 - / 17179869184) - 3 / 4 * (a * b) - 9 / 4 * (a * c)) by (field; lra). lra.
Qed.

(** ** From the first argument of a branch on *)
Definition kup : R := 1 + / 2147483648.
Definition klow : R := 1 - / 2147483648.
Lemma grow : forall f f' a b, a <= b -> (forall v, a <= v <= b -> derivable_pt_lim f v (f' v)) -> (forall v, a <= v <= b -> 0 <= f' v) -> f a <= f b.
Proof.
  intros f f' a b Hab D P. destruct (Req_dec a b) as [->|N]; [lra|]. destruct (MVT_cor2 f f' a b ltac:(lra) D) as [c [E Hc]]. pose proof (P c ltac:(lra)). assert (0 <= f' c * (b - a)) by (apply Rmult_le_pos; lra). lra.
Qed.
Lemma hi_grow : forall n rho rho' a b, (0 < a) -> (forall v, a <= v <= b -> is_derive rho v (rho' v)) ->
  (forall v, a <= v <= b -> kup * dS v n <= exp v * (rho v - tol + rho' v)) ->
  4 <= exp a * (rho a - tol) - kup * Sm a zt n -> forall v, a <= v <= b -> 4 <= exp v * (rho v - tol) - kup * Sm v zt n.
Proof.
  intros n rho rho' a b Ha D P H0 v Hv. eapply Rle_trans; [exact H0|].
  apply (grow (fun u => exp u * (rho u - tol) - kup * Sm u zt n) (fun u => (exp u * (rho u - tol) + exp u * (rho' u - 0)) - kup * dS u n) a v); [lra | | intros u Hu; pose proof (P u ltac:(lra)); lra].
  intros u Hu. apply (derivable_pt_lim_minus (fun u => exp u * (rho u - tol)) (fun u => kup * Sm u zt n)); [|apply (derivable_pt_lim_scal (fun u => Sm u zt n) kup), Sm_derive].
  apply (derivable_pt_lim_mult exp (fun u => rho u - tol)); [apply derivable_pt_lim_exp|]. apply (derivable_pt_lim_minus rho (fun _ => tol)); [apply is_derive_Reals, D; lra | apply derivable_pt_lim_const].
Qed.
Lemma lo_grow : forall n rho rho' a b, (0 < a) -> (forall v, a <= v <= b -> is_derive rho v (rho' v)) ->
  (forall v, a <= v <= b -> exp v * (rho v + tol + rho' v) <= klow * dS v n) ->
  2 <= klow * Sm a zt n - exp a * (rho a + tol) -> forall v, a <= v <= b -> 2 <= klow * Sm v zt n - exp v * (rho v + tol).
Proof.
  intros n rho rho' a b Ha D P H0 v Hv. eapply Rle_trans; [exact H0|].
  apply (grow (fun u => klow * Sm u zt n - exp u * (rho u + tol)) (fun u => klow * dS u n - (exp u * (rho u + tol) + exp u * (rho' u + 0))) a v); [lra | | intros u Hu; pose proof (P u ltac:(lra)); lra].
  intros u Hu. apply (derivable_pt_lim_minus (fun u => klow * Sm u zt n) (fun u => exp u * (rho u + tol))); [apply (derivable_pt_lim_scal (fun u => Sm u zt n) klow), Sm_derive|].
  apply (derivable_pt_lim_mult exp (fun u => rho u + tol)); [apply derivable_pt_lim_exp|]. apply (derivable_pt_lim_plus rho (fun _ => tol)); [apply is_derive_Reals, D; lra | apply derivable_pt_lim_const].
Qed.
Lemma hi_step : forall v r, 0 < v <= 45 -> kup * ((1 - 39 / 100 * exp (- (v / 2))) / v) <= r -> kup * dS v 99 <= exp v * r.
Proof.
  intros v r Hv H. pose proof (dS_up2 v Hv) as A. assert (K : 0 <= kup) by (unfold kup; lra). eapply Rle_trans; [apply Rmult_le_compat_l; [exact K | exact A]|]. rewrite <- Rmult_assoc, (Rmult_comm kup), Rmult_assoc. apply Rmult_le_compat_l; [left; apply exp_pos | exact H].
Qed.
Lemma hi_step3 : forall v n r, 0 < v -> kup * (1 / v) <= r -> kup * dS v n <= exp v * r.
Proof.
  intros v n r Hv H. pose proof (dS_up3 v n Hv) as A. assert (K : 0 <= kup) by (unfold kup; lra). eapply Rle_trans; [apply Rmult_le_compat_l; [exact K | exact A]|]. rewrite <- Rmult_assoc, (Rmult_comm kup), Rmult_assoc. apply Rmult_le_compat_l; [left; apply exp_pos | exact H].
Qed.
Lemma lo_step : forall v r, 0 < v <= 45 -> r <= klow * ((1 - / 17179869184 - 3 / 4 * exp (- (v / 2)) - 9 / 4 * exp (- (5 * v / 6))) / v) -> exp v * r <= klow * dS v 99.
Proof.
  intros v r Hv H. pose proof (dS_low2 v Hv) as A. assert (K : 0 <= klow) by (unfold klow; lra). eapply Rle_trans; [|apply Rmult_le_compat_l; [exact K | exact A]]. rewrite <- (Rmult_assoc klow), (Rmult_comm klow), Rmult_assoc. apply Rmult_le_compat_l; [left; apply exp_pos | exact H].
Qed.
Lemma SC_eq : IZR SC = 1208925819614629174706176.
Proof. reflexivity. Qed.
Lemma YS_eq : IZR YS = 1125899906842624.
Proof. reflexivity. Qed.
Lemma value_up : forall x Y n u, (64 <= n)%nat -> 0 <= ln x -> 1125899906842624 * ln x <= IZR Y -> (ups Y n <= u * SC)%Z -> Sm (ln x) zt n <= IZR u.
Proof.
  intros x Y n u Hn Hx HY Hu. rewrite <- YS_eq in HY. pose proof (ups_ok (ln x) Y n Hn Hx HY) as A. apply IZR_le in Hu. rewrite mult_IZR in Hu. rewrite SC_eq in *. lra.
Qed.
Lemma value_down : forall x Y n u, (64 <= n)%nat -> 0 <= ln x -> (0 <= Y)%Z -> IZR Y <= 1125899906842624 * ln x -> (u * SC <= downs Y n)%Z -> IZR u <= Sm (ln x) zt n.
Proof.
  intros x Y n u Hn Hx H0 HY Hu. rewrite <- YS_eq in HY. pose proof (downs_ok (ln x) Y n Hn Hx H0 HY) as A. apply IZR_le in Hu. rewrite mult_IZR in Hu. rewrite SC_eq in *. lra.
Qed.
Lemma ln_in : forall x a b, 0 < a -> a <= x <= b -> ln a <= ln x <= ln b.
Proof. intros x a b Ha H. split; (destruct (Req_dec a x) as [->|]; destruct (Req_dec x b) as [->|]; try lra; try (left; apply ln_increasing; lra)). Qed.
Lemma hi_1 : forall l, ln 8162 <= l <= ln 29927 -> 4 <= exp l * (1 / (l - 1112 / 1000) - tol) - kup * Sm l zt 99.
Proof.
  assert (A : 9006 / 1000 <= ln 8162) by interval. assert (B : ln 29927 <= 10308 / 1000) by interval.
  apply (hi_grow 99 (fun l => 1 / (l - 1112 / 1000)) (fun l => - / ((l - 1112 / 1000) * (l - 1112 / 1000))) (ln 8162) (ln 29927)).
  - lra.
  - intros l Hl. auto_derive; [repeat split; lra | field; repeat split; lra].
  - intros l Hl. apply hi_step; [lra|]. assert (R : 9006 / 1000 <= l <= 10308 / 1000) by lra. clear Hl A B. assert (K : 0 <= 1 / (l - 1112 / 1000) - tol + - / ((l - 1112 / 1000) * (l - 1112 / 1000)) - kup * ((1 - 39 / 100 * exp (- (l / 2))) / l)); [|lra].
    unfold tol, kup. interval with (i_prec 60, i_bisect l, i_autodiff l, i_depth 30).
  - rewrite exp_ln by lra. pose proof (value_up 8162 10141255761434575 99 1027 ltac:(lia) ltac:(lra) ltac:(interval with (i_prec 100)) ltac:(vm_compute; discriminate)) as V.
    assert (K : 1027 * (1 + / 2147483648) + 4 <= 8162 * (1 / (ln 8162 - 1112 / 1000) - tol)) by (unfold tol; interval with (i_prec 80)). unfold kup. lra.
Qed.
Lemma hi_2 : forall l, ln 29927 <= l <= ln 467345 -> 4 <= exp l * (1 / l * (1 + 1 / l * (1 + 1 / l * (253816 / 100000))) - tol) - kup * Sm l zt 99.
Proof.
  assert (A : 10305 / 1000 <= ln 29927) by interval. assert (B : ln 467345 <= 13056 / 1000) by interval.
  apply (hi_grow 99 (fun l => 1 / l * (1 + 1 / l * (1 + 1 / l * (253816 / 100000)))) (fun l => - (/ l * / l * (1 + / l * (2 + / l * (3 * (253816 / 100000)))))) (ln 29927) (ln 467345)).
  - lra.
  - intros l Hl. auto_derive; [repeat split; lra | field; repeat split; lra].
  - intros l Hl. apply hi_step; [lra|]. assert (R : 10305 / 1000 <= l <= 13056 / 1000) by lra. clear Hl A B. assert (K : 0 <= 1 / l * (1 + 1 / l * (1 + 1 / l * (253816 / 100000))) - tol + - (/ l * / l * (1 + / l * (2 + / l * (3 * (253816 / 100000))))) - kup * ((1 - 39 / 100 * exp (- (l / 2))) / l)); [|lra].
    unfold tol, kup. interval with (i_prec 60, i_bisect l, i_autodiff l, i_depth 30).
  - rewrite exp_ln by lra. pose proof (value_up 29927 11604105811784665 99 3243 ltac:(lia) ltac:(lra) ltac:(interval with (i_prec 100)) ltac:(vm_compute; discriminate)) as V.
    assert (K : 3243 * (1 + / 2147483648) + 4 <= 29927 * (1 / ln 29927 * (1 + 1 / ln 29927 * (1 + 1 / ln 29927 * (253816 / 100000))) - tol)) by (unfold tol; interval with (i_prec 80)). unfold kup. lra.
Qed.
Lemma hi_3 : forall l, ln 467345 <= l <= ln 2953652287 -> 4 <= exp l * (1 / (l - 1 - 12311 / 10000 * (1 / l)) - tol) - kup * Sm l zt 99.
Proof.
  assert (A : 13053 / 1000 <= ln 467345) by interval. assert (B : ln 2953652287 <= 21808 / 1000) by interval.
  apply (hi_grow 99 (fun l => 1 / (l - 1 - 12311 / 10000 * (1 / l))) (fun l => - ((1 + 12311 / 10000 * (/ l * / l)) / ((l - 1 - 12311 / 10000 * (1 / l)) * (l - 1 - 12311 / 10000 * (1 / l))))) (ln 467345) (ln 2953652287)).
  - lra.
  - intros l Hl. assert (L0 : 0 < l) by lra. assert (Q : 0 < l - 1 - 12311 / 10000 * (1 / l)) by (assert (13053 / 1000 <= l <= 21808 / 1000) by lra; interval). auto_derive; [repeat split; lra | field; repeat split; try lra; intros K; apply (Rgt_not_eq _ _ Q); field_simplify_eq; lra].
  - intros l Hl. apply hi_step; [lra|]. assert (R : 13053 / 1000 <= l <= 21808 / 1000) by lra. clear Hl A B. assert (K : 0 <= 1 / (l - 1 - 12311 / 10000 * (1 / l)) - tol + - ((1 + 12311 / 10000 * (/ l * / l)) / ((l - 1 - 12311 / 10000 * (1 / l)) * (l - 1 - 12311 / 10000 * (1 / l)))) - kup * ((1 - 39 / 100 * exp (- (l / 2))) / l)); [|lra].
    unfold tol, kup. interval with (i_prec 60, i_bisect l, i_autodiff l, i_depth 30).
  - rewrite exp_ln by lra. pose proof (value_up 467345 14698424024242007 99 39037 ltac:(lia) ltac:(lra) ltac:(interval with (i_prec 100)) ltac:(vm_compute; discriminate)) as V.
    assert (K : 39037 * (1 + / 2147483648) + 4 <= 467345 * (1 / (ln 467345 - 1 - 12311 / 10000 * (1 / ln 467345)) - tol)) by (unfold tol; interval with (i_prec 80)). unfold kup. lra.
Qed.
Lemma hi_4 : forall l, ln 2953652287 <= l <= ln 7398600000 -> 4 <= exp l * (1 / l * (1 + 1 / l * (1 + 1 / l * (2334 / 1000))) - tol) - kup * Sm l zt 99.
Proof.
  assert (A : 21805 / 1000 <= ln 2953652287) by interval. assert (B : ln 7398600000 <= 22726 / 1000) by interval.
  apply (hi_grow 99 (fun l => 1 / l * (1 + 1 / l * (1 + 1 / l * (2334 / 1000)))) (fun l => - (/ l * / l * (1 + / l * (2 + / l * (3 * (2334 / 1000)))))) (ln 2953652287) (ln 7398600000)).
  - lra.
  - intros l Hl. auto_derive; [repeat split; lra | field; repeat split; lra].
  - intros l Hl. apply hi_step; [lra|]. assert (R : 21805 / 1000 <= l <= 22726 / 1000) by lra. clear Hl A B. assert (K : 0 <= 1 / l * (1 + 1 / l * (1 + 1 / l * (2334 / 1000))) - tol + - (/ l * / l * (1 + / l * (2 + / l * (3 * (2334 / 1000))))) - kup * ((1 - 39 / 100 * exp (- (l / 2))) / l)); [|lra].
    unfold tol, kup. interval with (i_prec 60, i_bisect l, i_autodiff l, i_depth 30).
  - rewrite exp_ln by lra. pose proof (value_up 2953652287 24551720489090373 99 142325196 ltac:(lia) ltac:(lra) ltac:(interval with (i_prec 100)) ltac:(vm_compute; discriminate)) as V.
    assert (K : 142325196 * (1 + / 2147483648) + 4 <= 2953652287 * (1 / ln 2953652287 * (1 + 1 / ln 2953652287 * (1 + 1 / ln 2953652287 * (2334 / 1000))) - tol)) by (unfold tol; interval with (i_prec 80)). unfold kup. lra.
Qed.
Lemma hi_5 : forall l, ln 7398600000 <= l <= ln 340282366920938463463374607431768211456 -> 4 <= exp l * (1 / l * (1 + 1 / l * (1 + 1 / l * (2 + 1 / l * (759 / 100)))) - tol) - kup * Sm l zt 100.
Proof.
  assert (A : 22723 / 1000 <= ln 7398600000) by interval. assert (B : ln 340282366920938463463374607431768211456 <= 88724 / 1000) by interval.
  apply (hi_grow 100 (fun l => 1 / l * (1 + 1 / l * (1 + 1 / l * (2 + 1 / l * (759 / 100))))) (fun l => - (/ l * / l * (1 + / l * (2 + / l * (3 * 2 + / l * (4 * (759 / 100))))))) (ln 7398600000) (ln 340282366920938463463374607431768211456)).
  - lra.
  - intros l Hl. auto_derive; [repeat split; lra | field; repeat split; lra].
  - intros l Hl. apply hi_step3; [lra|]. assert (R : 22723 / 1000 <= l <= 88724 / 1000) by lra. clear Hl A B. assert (K : 0 <= 1 / l * (1 + 1 / l * (1 + 1 / l * (2 + 1 / l * (759 / 100)))) - tol + - (/ l * / l * (1 + / l * (2 + / l * (3 * 2 + / l * (4 * (759 / 100)))))) - kup * (1 / l)); [|lra].
    unfold tol, kup. interval with (i_prec 60, i_bisect l, i_autodiff l, i_depth 30).
  - rewrite exp_ln by lra. pose proof (value_up 7398600000 25585576192834412 100 341365816 ltac:(lia) ltac:(lra) ltac:(interval with (i_prec 100)) ltac:(vm_compute; discriminate)) as V.
    assert (K : 341365816 * (1 + / 2147483648) + 4 <= 7398600000 * (1 / ln 7398600000 * (1 + 1 / ln 7398600000 * (1 + 1 / ln 7398600000 * (2 + 1 / ln 7398600000 * (759 / 100)))) - tol)) by (unfold tol; interval with (i_prec 80)). unfold kup. lra.
Qed.
Lemma lo_1 : forall l, ln 8162 <= l <= ln 88789 -> 2 <= klow * Sm l zt 99 - exp l * (1 / (l - 1) + tol).
Proof.
  assert (A : 9006 / 1000 <= ln 8162) by interval. assert (B : ln 88789 <= 11396 / 1000) by interval.
  apply (lo_grow 99 (fun l => 1 / (l - 1)) (fun l => - / ((l - 1) * (l - 1))) (ln 8162) (ln 88789)).
  - lra.
  - intros l Hl. auto_derive; [repeat split; lra | field; repeat split; lra].
  - intros l Hl. apply lo_step; [lra|]. assert (R : 9006 / 1000 <= l <= 11396 / 1000) by lra. clear Hl A B. assert (K : 0 <= klow * ((1 - / 17179869184 - 3 / 4 * exp (- (l / 2)) - 9 / 4 * exp (- (5 * l / 6))) / l) - (1 / (l - 1) + tol + - / ((l - 1) * (l - 1)))); [|lra].
    unfold tol, klow. interval with (i_prec 60, i_bisect l, i_autodiff l, i_depth 30).
  - rewrite exp_ln by lra. pose proof (value_down 8162 10141255761434574 99 1024 ltac:(lia) ltac:(lra) ltac:(lia) ltac:(interval with (i_prec 100)) ltac:(vm_compute; discriminate)) as V.
    assert (K : 8162 * (1 / (ln 8162 - 1) + tol) <= 1024 * (1 - / 2147483648) - 2) by (unfold tol; interval with (i_prec 80)). unfold klow. lra.
Qed.
Lemma lo_2 : forall l, ln 88789 <= l <= ln 468049 -> 2 <= klow * Sm l zt 99 - exp l * (1 / l * (1 + 1 / l * (1 + 1 / l * (2))) + tol).
Proof.
  assert (A : 11393 / 1000 <= ln 88789) by interval. assert (B : ln 468049 <= 13058 / 1000) by interval.
  apply (lo_grow 99 (fun l => 1 / l * (1 + 1 / l * (1 + 1 / l * (2)))) (fun l => - (/ l * / l * (1 + / l * (2 + / l * (3 * (2)))))) (ln 88789) (ln 468049)).
  - lra.
  - intros l Hl. auto_derive; [repeat split; lra | field; repeat split; lra].
  - intros l Hl. apply lo_step; [lra|]. assert (R : 11393 / 1000 <= l <= 13058 / 1000) by lra. clear Hl A B. assert (K : 0 <= klow * ((1 - / 17179869184 - 3 / 4 * exp (- (l / 2)) - 9 / 4 * exp (- (5 * l / 6))) / l) - (1 / l * (1 + 1 / l * (1 + 1 / l * (2))) + tol + - (/ l * / l * (1 + / l * (2 + / l * (3 * (2))))))); [|lra].
    unfold tol, klow. interval with (i_prec 60, i_bisect l, i_autodiff l, i_depth 30).
  - rewrite exp_ln by lra. pose proof (value_down 88789 12828523858168425 99 8608 ltac:(lia) ltac:(lra) ltac:(lia) ltac:(interval with (i_prec 100)) ltac:(vm_compute; discriminate)) as V.
    assert (K : 88789 * (1 / ln 88789 * (1 + 1 / ln 88789 * (1 + 1 / ln 88789 * (2))) + tol) <= 8608 * (1 - / 2147483648) - 2) by (unfold tol; interval with (i_prec 80)). unfold klow. lra.
Qed.
Lemma lo_3 : forall l, ln 468049 <= l <= ln 18446744073709551616 -> 2 <= klow * Sm l zt 99 - exp l * (1 / (l - 1 - 1 * (1 / l)) + tol).
Proof.
  assert (A : 13055 / 1000 <= ln 468049) by interval. assert (B : ln 18446744073709551616 <= 44363 / 1000) by interval.
  apply (lo_grow 99 (fun l => 1 / (l - 1 - 1 * (1 / l))) (fun l => - ((1 + 1 * (/ l * / l)) / ((l - 1 - 1 * (1 / l)) * (l - 1 - 1 * (1 / l))))) (ln 468049) (ln 18446744073709551616)).
  - lra.
  - intros l Hl. assert (L0 : 0 < l) by lra. assert (Q : 0 < l - 1 - 1 * (1 / l)) by (assert (13055 / 1000 <= l <= 44363 / 1000) by lra; interval). auto_derive; [repeat split; lra | field; repeat split; try lra; intros K; apply (Rgt_not_eq _ _ Q); field_simplify_eq; lra].
  - intros l Hl. apply lo_step; [lra|]. assert (R : 13055 / 1000 <= l <= 44363 / 1000) by lra. clear Hl A B. assert (K : 0 <= klow * ((1 - / 17179869184 - 3 / 4 * exp (- (l / 2)) - 9 / 4 * exp (- (5 * l / 6))) / l) - (1 / (l - 1 - 1 * (1 / l)) + tol + - ((1 + 1 * (/ l * / l)) / ((l - 1 - 1 * (1 / l)) * (l - 1 - 1 * (1 / l)))))); [|lra].
    unfold tol, klow. interval with (i_prec 60, i_bisect l, i_autodiff l, i_depth 30).
  - rewrite exp_ln by lra. pose proof (value_down 468049 14700118783207913 99 39088 ltac:(lia) ltac:(lra) ltac:(lia) ltac:(interval with (i_prec 100)) ltac:(vm_compute; discriminate)) as V.
    assert (K : 468049 * (1 / (ln 468049 - 1 - 1 * (1 / ln 468049)) + tol) <= 39088 * (1 - / 2147483648) - 2) by (unfold tol; interval with (i_prec 80)). unfold klow. lra.
Qed.
End Values.
