(** * Bounds for zeta(s) at integers s >= 2 *)
From Coq Require Import Reals ZArith Lia Lra List.
From Verif Require Import SpecGram.
Import ListNotations.
Local Open Scope R_scope.

Lemma INR_S_pos : forall m, 0 < INR (S m).
Proof. intros m. apply lt_0_INR. lia. Qed.
Lemma Un_cv_le : forall u l c N, Un_cv u l -> (forall n, (N <= n)%nat -> u n <= c) -> l <= c.
Proof.
  intros u l c N H B. destruct (Rle_or_lt l c) as [|C]; [assumption|]. exfalso. destruct (H (l - c) ltac:(lra)) as [M HM].
  specialize (HM (max M N) ltac:(lia)). specialize (B (max M N) ltac:(lia)). unfold R_dist in HM. apply Rabs_def2 in HM. lra.
Qed.
Lemma Un_cv_ge : forall u l c N, Un_cv u l -> (forall n, (N <= n)%nat -> c <= u n) -> c <= l.
Proof.
  intros u l c N H B. destruct (Rle_or_lt c l) as [|C]; [assumption|]. exfalso. destruct (H (c - l) ltac:(lra)) as [M HM].
  specialize (HM (max M N) ltac:(lia)). specialize (B (max M N) ltac:(lia)). unfold R_dist in HM. apply Rabs_def2 in HM. lra.
Qed.

(** a^k - b^k between k b^(k-1) (a - b) and k a^(k-1) (a - b) *)
Lemma pow_diff : forall k a b, 0 <= b <= a -> INR (S k) * b ^ k * (a - b) <= a ^ S k - b ^ S k <= INR (S k) * a ^ k * (a - b).
Proof.
  induction k as [|k IH]; intros a b H; [cbn [pow INR]; lra|]. specialize (IH a b H). rewrite S_INR. remember (INR (S k)) as q eqn:Eq. assert (Hq : 0 <= q) by (subst; apply pos_INR).
  assert (A : 0 <= b ^ k <= a ^ k) by (split; [apply pow_le; lra | apply pow_incr; lra]).
  replace (a ^ S (S k) - b ^ S (S k)) with (a * (a ^ S k - b ^ S k) + b ^ S k * (a - b)) by (cbn [pow]; ring).
  assert (A1 : 0 <= a ^ S k) by (apply pow_le; lra). assert (B1 : 0 <= b ^ S k <= a ^ S k) by (split; [apply pow_le; lra | apply pow_incr; lra]). split.
  - assert (P : b * (q * b ^ k * (a - b)) <= a * (a ^ S k - b ^ S k)).
    { apply Rle_trans with (a * (q * b ^ k * (a - b))); [apply Rmult_le_compat_r; [apply Rmult_le_pos; [apply Rmult_le_pos|]; lra | lra] | apply Rmult_le_compat_l; lra]. }
    replace ((q + 1) * b ^ S k * (a - b)) with (b * (q * b ^ k * (a - b)) + b ^ S k * (a - b)) by (cbn [pow]; ring). lra.
  - assert (P : a * (a ^ S k - b ^ S k) <= a * (q * a ^ k * (a - b))) by (apply Rmult_le_compat_l; lra).
    assert (P2 : b ^ S k * (a - b) <= a ^ S k * (a - b)) by (apply Rmult_le_compat_r; lra).
    replace ((q + 1) * a ^ S k * (a - b)) with (a * (q * a ^ k * (a - b)) + a ^ S k * (a - b)) by (cbn [pow]; ring). lra.
Qed.
(** 1/(m+1)^s <= (1/m^(s-1) - 1/(m+1)^(s-1)) / (s-1) <= 1/m^s, s = k + 2 *)
Lemma step_bounds : forall k m, 0 < m -> (/ (m + 1)) ^ S (S k) <= ((/ m) ^ S k - (/ (m + 1)) ^ S k) / INR (S k) <= (/ m) ^ S (S k).
Proof.
  intros k m Hm. pose proof (INR_S_pos k) as Hk. set (a := / m). set (b := / (m + 1)).
  assert (Hb : 0 < b) by (apply Rinv_0_lt_compat; lra). assert (Hab : b <= a) by (apply Rinv_le_contravar; lra). assert (E : a - b = a * b) by (unfold a, b; field; lra).
  destruct (pow_diff k a b ltac:(lra)) as [L U]. rewrite E in L, U. assert (PB : 0 < b ^ k) by (apply pow_lt, Hb). assert (PA : 0 < a ^ k) by (apply pow_lt; lra). split.
  - apply Rmult_le_reg_r with (INR (S k)); [exact Hk|]. unfold Rdiv. rewrite Rmult_assoc, Rinv_l, Rmult_1_r by lra. eapply Rle_trans; [|exact L].
    replace (b ^ S (S k) * INR (S k)) with (INR (S k) * b ^ k * (b * b)) by (cbn [pow]; ring). apply Rmult_le_compat_l; [apply Rmult_le_pos; lra | apply Rmult_le_compat_r; lra].
  - apply Rmult_le_reg_r with (INR (S k)); [exact Hk|]. unfold Rdiv. rewrite Rmult_assoc, Rinv_l, Rmult_1_r by lra. eapply Rle_trans; [exact U|].
    replace (a ^ S (S k) * INR (S k)) with (INR (S k) * a ^ k * (a * a)) by (cbn [pow]; ring). apply Rmult_le_compat_l; [apply Rmult_le_pos; lra | apply Rmult_le_compat_l; lra].
Qed.
(** partial sums: psum s N = 1 + 1/2^s + ... + 1/(N+1)^s *)
Definition psum (s N : nat) : R := sum_f_R0 (fun m => / INR (S m) ^ s) N.
Lemma psum_S : forall s N, psum s (S N) = psum s N + (/ INR (S (S N))) ^ s.
Proof. intros s N. unfold psum. cbn [sum_f_R0]. rewrite pow_inv. reflexivity. Qed.
Lemma inv_vanish : forall c v N, (forall M, (N <= M)%nat -> c - / INR (S M) <= v) -> c <= v.
Proof.
  intros c v N H. destruct (Rle_or_lt c v) as [|C]; [assumption|]. exfalso. destruct (archimed_cor1 (c - v) ltac:(lra)) as [M [HM M0]].
  specialize (H (max M N) ltac:(lia)). assert (/ INR (S (max M N)) <= / INR M) by (apply Rinv_le_contravar; [apply lt_0_INR, M0 | apply le_INR; lia]). lra.
Qed.
Section Bounds.
Context (k : nat) (v : R) (H : zeta_is (S (S k)) v).
Lemma zeta_upper : forall N, v <= psum (S (S k)) N + (/ INR (S N)) ^ S k / INR (S k).
Proof.
  intros N. apply (Un_cv_le _ v _ N H). intros n Hn. fold (psum (S (S k)) n).
  assert (D : psum (S (S k)) n + (/ INR (S n)) ^ S k / INR (S k) <= psum (S (S k)) N + (/ INR (S N)) ^ S k / INR (S k)).
  { induction Hn as [|n Hn IH]; [lra|]. eapply Rle_trans; [|exact IH]. rewrite psum_S. pose proof (step_bounds k (INR (S n)) (INR_S_pos n)) as [B _]. rewrite <- S_INR in B. unfold Rdiv in *. rewrite Rmult_minus_distr_r in B. lra. }
  assert (0 <= (/ INR (S n)) ^ S k / INR (S k)); [|lra]. apply Rmult_le_pos; [apply pow_le|]; left; apply Rinv_0_lt_compat, INR_S_pos.
Qed.
Lemma zeta_lower : forall N, psum (S (S k)) N + (/ INR (S (S N))) ^ S k / INR (S k) <= v.
Proof.
  intros N. apply (inv_vanish _ _ N). intros M HM.
  assert (D : psum (S (S k)) N + (/ INR (S (S N))) ^ S k / INR (S k) <= psum (S (S k)) M + (/ INR (S (S M))) ^ S k / INR (S k)).
  { induction HM as [|M HM IH]; [lra|]. eapply Rle_trans; [exact IH|]. rewrite psum_S. pose proof (step_bounds k (INR (S (S M))) (INR_S_pos _)) as [_ B]. rewrite <- S_INR in B. unfold Rdiv in *. rewrite Rmult_minus_distr_r in B. lra. }
  assert (P : psum (S (S k)) M <= v). { apply (sum_incr (fun m => / INR (S m) ^ (S (S k))) M v H). intros n. left. apply Rinv_0_lt_compat, pow_lt, INR_S_pos. }
  assert (T : (/ INR (S (S M))) ^ S k / INR (S k) <= / INR (S M)); [|lra].
  assert (I1 : 0 < / INR (S (S M)) <= 1). { split; [apply Rinv_0_lt_compat, INR_S_pos|]. rewrite <- Rinv_1. apply Rinv_le_contravar; [lra|]. rewrite S_INR. pose proof (pos_INR (S M)). lra. }
  assert (I2 : 0 < / INR (S k) <= 1). { split; [apply Rinv_0_lt_compat, INR_S_pos|]. rewrite <- Rinv_1. apply Rinv_le_contravar; [lra|]. rewrite S_INR. pose proof (pos_INR k). lra. }
  assert (I3 : (/ INR (S (S M))) ^ k <= 1) by (rewrite <- (pow1 k); apply pow_incr; lra). assert (I4 : 0 <= (/ INR (S (S M))) ^ k) by (apply pow_le; lra).
  assert (I5 : / INR (S (S M)) <= / INR (S M)) by (apply Rinv_le_contravar; [apply INR_S_pos | rewrite (S_INR (S M)); lra]).
  unfold Rdiv. cbn [pow]. apply Rle_trans with (/ INR (S (S M)) * 1 * 1); [|lra]. apply Rmult_le_compat; try lra; [apply Rmult_le_pos; lra | apply Rmult_le_compat_l; lra].
Qed.
Lemma zeta_ge1 : 1 <= v.
Proof.
  pose proof (sum_incr (fun m => / INR (S m) ^ (S (S k))) 0 v H) as B. cbn [sum_f_R0] in B. change (INR 1) with 1 in B. rewrite pow1, Rinv_1 in B. apply B. intros n. left. apply Rinv_0_lt_compat, pow_lt, INR_S_pos.
Qed.
Lemma zeta_small : v <= 1 + / INR (S k).
Proof. pose proof (zeta_upper 0) as B. unfold psum in B. cbn [sum_f_R0] in B. change (INR 1) with 1 in B. rewrite !pow1, !Rinv_1, pow1 in B. lra. Qed.
End Bounds.
Lemma zeta_decreasing : forall k v w, zeta_is (S (S k)) v -> zeta_is (S (S (S k))) w -> w <= v.
Proof.
  intros k v w Hv Hw. apply (Un_cv_le _ w v 0 Hw). intros n _. apply Rle_trans with (sum_f_R0 (fun m => / INR (S m) ^ (S (S k))) n); [|apply (sum_incr _ n v Hv); intros i; left; apply Rinv_0_lt_compat, pow_lt, INR_S_pos].
  apply sum_Rle. intros i _. apply Rinv_le_contravar; [apply pow_lt, INR_S_pos|]. apply Rle_pow; [|lia]. rewrite S_INR. pose proof (pos_INR i). lra.
Qed.
(** the values exist *)
Lemma zeta_exists : forall k, { v : R | zeta_is (S (S k)) v }.
Proof.
  intros k. apply growing_cv.
  - intros n. cbn [sum_f_R0]. assert (0 < / INR (S (S n)) ^ S (S k)) by (apply Rinv_0_lt_compat, pow_lt, INR_S_pos). lra.
  - exists (1 + / INR (S k)). intros x [n ->]. fold (psum (S (S k)) n).
    assert (D : psum (S (S k)) n + (/ INR (S n)) ^ S k / INR (S k) <= 1 + / INR (S k)).
    { induction n as [|n IH]; [unfold psum; cbn [sum_f_R0]; change (INR 1) with 1; rewrite !pow1, !Rinv_1, pow1; lra|]. eapply Rle_trans; [|exact IH]. rewrite psum_S.
      pose proof (step_bounds k (INR (S n)) (INR_S_pos n)) as [B _]. rewrite <- S_INR in B. unfold Rdiv in *. rewrite Rmult_minus_distr_r in B. lra. }
    assert (0 <= (/ INR (S n)) ^ S k / INR (S k)); [|lra]. apply Rmult_le_pos; [apply pow_le|]; left; apply Rinv_0_lt_compat, INR_S_pos.
Qed.
(** a sharper bracket for zeta(2) *)
Lemma zeta2_bracket : forall v N, zeta_is 2 v -> psum 2 N + / INR (S (S N)) + / 2 * (/ INR (S (S N)) * / INR (S (S N))) <= v <= psum 2 N + / (INR (S N) + / 2).
Proof.
  intros v N H. split.
  - apply (inv_vanish _ _ (2 * N + 2)). intros M0 HM0. set (M := (2 * N + 2 + 2 * M0)%nat).
    assert (D : psum 2 N + / INR (S (S N)) + / 2 * (/ INR (S (S N)) * / INR (S (S N))) <= psum 2 M + / INR (S (S M)) + / 2 * (/ INR (S (S M)) * / INR (S (S M)))).
    { assert (HM : (N <= M)%nat) by (unfold M; lia). clearbody M. clear M0 HM0. induction HM as [|M HM IH]; [lra|]. eapply Rle_trans; [exact IH|]. rewrite psum_S. cbn [pow]. rewrite Rmult_1_r.
      pose proof (INR_S_pos (S M)) as P1. pose proof (INR_S_pos (S (S M))) as P2. rewrite (S_INR (S (S M))) in P2 |- *. set (a := / INR (S (S M))). set (b := / (INR (S (S M)) + 1)).
      assert (E : a - b = a * b) by (unfold a, b; field; lra). assert (0 <= (a - b) * (a - b)) by apply Rle_0_sqr. nra. }
    assert (P : psum 2 M <= v). { apply (sum_incr (fun m => / INR (S m) ^ 2) M v H). intros n. left. apply Rinv_0_lt_compat, pow_lt, INR_S_pos. }
    assert (T1 : / INR (S (S M)) <= / 2 * / INR (S M0)). { rewrite <- Rinv_mult. apply Rinv_le_contravar; [pose proof (INR_S_pos M0) as PM; clear - PM; lra|]. change 2 with (INR 2). rewrite <- mult_INR. apply le_INR. subst M. clear -HM0. lia. }
    assert (T2 : 0 < / INR (S (S M)) <= 1). { split; [apply Rinv_0_lt_compat, INR_S_pos|]. rewrite <- Rinv_1. apply Rinv_le_contravar; [lra|]. rewrite S_INR. pose proof (pos_INR (S M)). lra. }
    assert (T3 : / INR (S (S M)) * / INR (S (S M)) <= / INR (S (S M)) * 1) by (apply Rmult_le_compat_l; lra). lra.
  - apply (Un_cv_le _ v _ N H). intros n Hn. fold (psum 2 n).
    assert (D : psum 2 n + / (INR (S n) + / 2) <= psum 2 N + / (INR (S N) + / 2)).
    { induction Hn as [|n Hn IH]; [lra|]. eapply Rle_trans; [|exact IH]. rewrite psum_S. cbn [pow]. rewrite Rmult_1_r. pose proof (INR_S_pos n) as P. rewrite (S_INR (S n)). set (m := INR (S n)) in *.
      assert (E : / (m + / 2) - / (m + 1 + / 2) = / ((m + / 2) * (m + 1 + / 2))) by (field; lra). assert (/ ((m + 1) * (m + 1)) <= / ((m + / 2) * (m + 1 + / 2))) by (apply Rinv_le_contravar; nra). rewrite Rinv_mult in H0. lra. }
    assert (0 < / (INR (S n) + / 2)); [|lra]. apply Rinv_0_lt_compat. pose proof (INR_S_pos n). lra.
Qed.
