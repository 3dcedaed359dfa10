(** * The table of ln zeta(k+1) is right to within 2^-32. *)
From Coq Require Import Reals ZArith Lia Lra Bool List.
From Flocq Require Import Core BinarySingleNaN.
From Interval Require Import Tactic.
From Verif Require Import Base SpecGram FArith MFloat PFloat PGram PFloat2 PZeta.
Import ListNotations.

Local Open Scope Z_scope.
Definition ONE : Z := 2 ^ 70.
(** 2^70 (1 + 1/2^s + ... + 1/(N+1)^s), each term rounded down *)
Fixpoint fsum (s : Z) (N : nat) : Z :=
  match N with O => ONE | S N' => fsum s N' + ONE / Z.of_nat (S N) ^ s end.
Definition terms (k : nat) : nat := match k with 1 | 2 => 2000 | 3 => 300 | 4 => 100 | _ => if (k <? 10)%nat then 50 else 10 end%nat.
Definition bracket (k : nat) : Z * Z :=
  let N := terms k in let n := Z.of_nat N in let s := fsum (Z.of_nat (S k)) N in let kz := Z.of_nat k in
  match k with
  | 1%nat => (s + ONE / (n + 2) + ONE / (2 * ((n + 2) * (n + 2))), s + (n + 1) + 2 * ONE / (2 * n + 3) + 1)
  | _ => (s + ONE / ((n + 2) ^ kz * kz), s + (n + 1) + ONE / ((n + 1) ^ kz * kz) + 1)
  end.
Local Open Scope R_scope.
Definition one : R := 1180591620717411303424.
Lemma one_eq : IZR ONE = one.
Proof. reflexivity. Qed.
Lemma div_real : forall d, (0 < d)%Z -> IZR (ONE / d) <= one * / IZR d <= IZR (ONE / d) + 1.
Proof.
  intros d Hd. assert (D : 0 < IZR d) by (apply IZR_lt, Hd). rewrite <- one_eq. pose proof (Z.div_mod ONE d ltac:(lia)) as E. pose proof (Z.mod_pos_bound ONE d Hd) as M.
  apply (f_equal IZR) in E. rewrite plus_IZR, mult_IZR in E. assert (0 <= IZR (ONE mod d) < IZR d) by (split; [apply IZR_le | apply IZR_lt]; lia).
  rewrite E. split; [apply Rmult_le_reg_r with (IZR d) | apply Rmult_le_reg_r with (IZR d)]; try exact D; rewrite Rmult_assoc, Rinv_l by lra; lra.
Qed.
Lemma fsum_real : forall s N, IZR (fsum (Z.of_nat s) N) <= one * psum s N <= IZR (fsum (Z.of_nat s) N) + INR (S N).
Proof.
  intros s. induction N as [|N IH].
  - unfold psum. cbn [sum_f_R0 fsum]. change (INR 1) with 1. rewrite pow1, Rinv_1, one_eq. lra.
  - cbn [fsum]. rewrite psum_S, plus_IZR.
    assert (E : (/ INR (S (S N))) ^ s = / IZR (Z.of_nat (S (S N)) ^ Z.of_nat s)) by (rewrite pow_inv, INR_IZR_INZ, pow_IZR; reflexivity).
    destruct (div_real (Z.of_nat (S (S N)) ^ Z.of_nat s) ltac:(apply Z.pow_pos_nonneg; lia)) as [A B]. rewrite <- E in A, B. rewrite Rmult_plus_distr_l. assert (J : INR (S (S N)) = INR (S N) + 1) by apply (S_INR (S N)). set (q := (/ INR (S (S N))) ^ s) in *. clearbody q. rewrite J. lra.
Qed.
Lemma bracket_ok : forall k v, (1 <= k)%nat -> zeta_is (S k) v -> IZR (fst (bracket k)) <= one * v <= IZR (snd (bracket k)).
Proof.
  intros k v Hk H. destruct k as [|k]; [lia|]. assert (O : 0 <= one) by (unfold one; lra). destruct k as [|k].
  - destruct (zeta2_bracket v (terms 1) H) as [A B]. destruct (fsum_real 2 (terms 1)) as [S1 S2]. unfold bracket. cbn [fst snd]. set (N := terms 1) in *. rewrite !plus_IZR.
    set (n := Z.of_nat N). assert (EN : INR (S N) = IZR (n + 1)) by (rewrite INR_IZR_INZ; f_equal; unfold n; lia). assert (EN2 : INR (S (S N)) = IZR (n + 2)) by (rewrite INR_IZR_INZ; f_equal; unfold n; lia).
    rewrite EN in B, S2. rewrite EN2 in A. assert (Hn : (0 <= n)%Z) by (unfold n; lia). clearbody n N.
    destruct (div_real (n + 2) ltac:(lia)) as [D1 _]. destruct (div_real (2 * ((n + 2) * (n + 2))) ltac:(nia)) as [D2 _]. rewrite !mult_IZR, !Rinv_mult in D2.
    assert (D3 : one * / (IZR (n + 1) + / 2) <= IZR (2 * ONE / (2 * n + 3)) + 1).
    { pose proof (Z.div_mod (2 * ONE) (2 * n + 3) ltac:(lia)) as E. pose proof (Z.mod_pos_bound (2 * ONE) (2 * n + 3) ltac:(lia)) as M. apply (f_equal IZR) in E. rewrite plus_IZR, (mult_IZR (2 * n + 3)), (mult_IZR 2), one_eq in E.
      assert (MM : IZR (2 * ONE mod (2 * n + 3)) < IZR (2 * n + 3)) by (apply IZR_lt; lia). assert (Q : IZR (n + 1) + / 2 = / 2 * IZR (2 * n + 3)) by (rewrite !plus_IZR, mult_IZR; lra). rewrite Q.
      assert (P : 0 < IZR (2 * n + 3)) by (apply IZR_lt; lia). rewrite Rinv_mult, Rinv_inv. apply Rmult_le_reg_r with (IZR (2 * n + 3)); [exact P|]. rewrite <- Rmult_assoc, Rmult_assoc, Rinv_l by lra. lra. }
    split.
    + apply Rle_trans with (one * psum 2 N + one * / IZR (n + 2) + one * (/ 2 * (/ IZR (n + 2) * / IZR (n + 2)))); [lra|]. rewrite <- !Rmult_plus_distr_l. apply Rmult_le_compat_l; lra.
    + apply Rle_trans with (one * psum 2 N + one * / (IZR (n + 1) + / 2)); [rewrite <- !Rmult_plus_distr_l; apply Rmult_le_compat_l; lra | rewrite plus_IZR in S2; lra].
  - set (kk := S (S k)) in *. set (N := terms kk). pose proof (zeta_upper (S k) v H N) as B. pose proof (zeta_lower (S k) v H N) as A. destruct (fsum_real (S kk) N) as [S1 S2].
    assert (EB : bracket kk = (fsum (Z.of_nat (S kk)) N + ONE / ((Z.of_nat N + 2) ^ Z.of_nat kk * Z.of_nat kk), fsum (Z.of_nat (S kk)) N + (Z.of_nat N + 1) + ONE / ((Z.of_nat N + 1) ^ Z.of_nat kk * Z.of_nat kk) + 1)%Z) by reflexivity.
    rewrite EB. cbn [fst snd]. rewrite !plus_IZR. fold kk in A, B. set (n := Z.of_nat N) in *. assert (Hn : (0 <= n)%Z) by (unfold n; lia).
    assert (P : forall j, (/ INR j) ^ kk / INR kk = / IZR (Z.of_nat j ^ Z.of_nat kk * Z.of_nat kk)) by (intros j; rewrite mult_IZR, Rinv_mult, pow_inv, !INR_IZR_INZ, pow_IZR; reflexivity).
    rewrite P in A, B. replace (Z.of_nat (S (S N))) with (n + 2)%Z in A by (unfold n; lia). replace (Z.of_nat (S N)) with (n + 1)%Z in B by (unfold n; lia).
    assert (K : (0 < Z.of_nat kk)%Z) by lia.
    destruct (div_real ((n + 2) ^ Z.of_nat kk * Z.of_nat kk)) as [D1 _]; [apply Z.mul_pos_pos; [apply Z.pow_pos_nonneg; lia | exact K]|]. destruct (div_real ((n + 1) ^ Z.of_nat kk * Z.of_nat kk)) as [_ D2]; [apply Z.mul_pos_pos; [apply Z.pow_pos_nonneg; lia | exact K]|].
    rewrite INR_IZR_INZ in S2. replace (Z.of_nat (S N)) with (n + 1)%Z in S2 by (unfold n; lia). rewrite plus_IZR in S2. split.
    + eapply Rle_trans; [|apply Rmult_le_compat_l; [exact O | exact A]]. rewrite Rmult_plus_distr_l. lra.
    + eapply Rle_trans; [apply Rmult_le_compat_l; [exact O | exact B]|]. rewrite Rmult_plus_distr_l. lra.
Qed.
Definition brackets : list (Z * Z) := Eval vm_compute in map bracket (seq 1 64).
Lemma brackets_eq : map bracket (seq 1 64) = brackets.
Proof. vm_compute. reflexivity. Qed.
Definition entry_ok (x : (Z * Z) * (Z * Z)) : Prop :=
  let '((A, B), (m, e)) := x in forall v, IZR A <= one * v <= IZR B -> Rabs (IZR m / IZR (2 ^ e) - ln v) <= / 4294967296.
Lemma entries_ok : Forall entry_ok (combine brackets ZETA_LOG_FLOATS).
Proof.
  unfold brackets, ZETA_LOG_FLOATS. cbn [combine].
  repeat (apply Forall_cons; [unfold entry_ok; intros v Hv; match goal with |- context [IZR (2 ^ ?e)%Z] => let z := eval vm_compute in (2 ^ e)%Z in change (2 ^ e)%Z with z end;
    match type of Hv with IZR ?a <= _ <= IZR ?b => assert (Hw : IZR a / one <= v <= IZR b / one) by (unfold one in *; lra) end; clear Hv; unfold one in Hw; interval with (i_prec 90)|]).
  constructor.
Qed.

Lemma entry_val : forall m e, (0 < m < 2 ^ 53)%Z -> (53 <= e <= 1000)%Z -> val (binary_normalize 53 1024 _ _ mode_NE m (- e) false) = IZR m / IZR (2 ^ e).
Proof.
  intros m e Hm He. pose proof (binary_normalize_correct 53 1024 _ _ mode_NE m (- e) false) as C. cbv zeta in C.
  assert (Q0 : F2R (Float radix2 m (- e)) = IZR m / IZR (2 ^ e)) by (unfold F2R; cbn [Fnum Fexp]; rewrite bpow_opp, <- (IZR_Zpower radix2) by lia; reflexivity).
  assert (G : generic_format radix2 (SpecFloat.fexp 53 1024) (F2R (Float radix2 m (- e)))).
  { apply generic_format_F2R. intros _. unfold cexp. assert (M : (mag radix2 (F2R (Float radix2 m (- e))) <= 53 - e)%Z).
    { apply mag_le_bpow; [apply Rgt_not_eq, F2R_gt_0; cbn; lia|]. rewrite Rabs_pos_eq by (apply F2R_ge_0; cbn; lia). unfold F2R; cbn [Fnum Fexp]. unfold Zminus. rewrite bpow_plus. apply Rmult_lt_compat_r; [apply bpow_gt_0|]. change (bpow radix2 53) with (IZR (2 ^ 53)). apply IZR_lt. lia. }
    unfold SpecFloat.fexp, SpecFloat.emin. lia. }
  rewrite (round_generic _ _ _ _ G) in C. rewrite Rlt_bool_true in C.
  - destruct C as [C1 _]. unfold val. rewrite C1. exact Q0.
  - rewrite Rabs_pos_eq by (apply F2R_ge_0; cbn; lia). apply Rlt_trans with (bpow radix2 (53 - e)); [|apply bpow_lt; lia]. unfold F2R; cbn [Fnum Fexp]. unfold Zminus. rewrite bpow_plus. apply Rmult_lt_compat_r; [apply bpow_gt_0|]. change (bpow radix2 53) with (IZR (2 ^ 53)). apply IZR_lt. lia.
Qed.
Lemma floats_range : forallb (fun '(m, e) => ((0 <? m) && (m <? 2 ^ 53) && (53 <=? e) && (e <=? 1000))%Z) ZETA_LOG_FLOATS = true.
Proof. vm_compute. reflexivity. Qed.
(** the entry for k <= 64 *)
Lemma table_close : forall k v, (1 <= k <= 64)%nat -> zeta_is (S k) v ->
  fin (nth (k - 1) ZETA_LOG_TABLE (fint 0)) /\ Rabs (val (nth (k - 1) ZETA_LOG_TABLE (fint 0)) - ln v) <= / 4294967296.
Proof.
  intros k v Hk H. assert (Hl : (k - 1 < length ZETA_LOG_FLOATS)%nat) by (change (length ZETA_LOG_FLOATS) with 64%nat; lia).
  assert (Hl2 : length brackets = length ZETA_LOG_FLOATS) by reflexivity.
  pose proof (nth_In ZETA_LOG_FLOATS (0, 0)%Z Hl) as Hin. pose proof (proj1 (forallb_forall _ _) floats_range _ Hin) as R.
  pose proof (proj1 (Forall_forall _ _) entries_ok) as F. specialize (F (nth (k - 1) (combine brackets ZETA_LOG_FLOATS) ((0, 0), (0, 0))%Z)).
  rewrite combine_nth in F by exact Hl2.
  assert (Hin2 : In (nth (k - 1) brackets (0, 0)%Z, nth (k - 1) ZETA_LOG_FLOATS (0, 0)%Z) (combine brackets ZETA_LOG_FLOATS)).
  { rewrite <- combine_nth by exact Hl2. apply nth_In. rewrite combine_length, Hl2, Nat.min_id. exact Hl. }
  specialize (F Hin2). rewrite <- brackets_eq in F.
  assert (EB : nth (k - 1) (map bracket (seq 1 64)) (0, 0)%Z = bracket k).
  { rewrite (nth_indep _ (0, 0)%Z (bracket 0)) by (rewrite map_length, seq_length; lia). rewrite map_nth, seq_nth by lia. f_equal. lia. }
  rewrite EB in F. pose proof (bracket_ok k v ltac:(lia) H) as B.
  unfold ZETA_LOG_TABLE. match goal with |- context [map ?g ZETA_LOG_FLOATS] => set (G := g) end.
  rewrite (nth_indep (map G ZETA_LOG_FLOATS) (fint 0) (G (0, 0)%Z)) by (rewrite map_length; exact Hl). rewrite map_nth. subst G.
  destruct (nth (k - 1) ZETA_LOG_FLOATS (0, 0)%Z) as [m e]. cbv beta iota in R |- *.
  apply andb_prop in R. destruct R as [R R4]. apply andb_prop in R. destruct R as [R R3]. apply andb_prop in R. destruct R as [R1 R2].
  split; [apply zeta_exact; lia|]. rewrite entry_val by lia. destruct (bracket k) as [A C]. cbn [fst snd] in B. unfold entry_ok in F. apply F, B.
Qed.
(** beyond the table the code takes 0 *)
Lemma table_tail : forall k v, (64 < k)%nat -> zeta_is (S k) v -> 0 <= ln v <= / 4294967296.
Proof.
  intros k v Hk H. destruct k as [|k]; [lia|]. pose proof (zeta_ge1 k v H) as G1. pose proof (zeta_upper k v H 1) as U. split.
  - rewrite <- ln_1. destruct G1 as [G1| <-]; [left; apply ln_increasing; lra | right; reflexivity].
  - pose proof (ln_le_sub1 v ltac:(lra)) as L. rewrite psum_S in U. unfold psum in U. cbn [sum_f_R0] in U. change (INR 1) with 1 in U. change (INR 2) with 2 in U. rewrite pow1, Rinv_1 in U.
    assert (P : forall j, (k <= j)%nat -> (/ 2) ^ j <= / 18446744073709551616).
    { intros j Hj. replace j with (64 + (j - 64))%nat by lia. rewrite pow_add. assert ((/ 2) ^ (j - 64) <= 1) by (rewrite <- (pow1 (j - 64)); apply pow_incr; lra). assert (0 <= (/ 2) ^ (j - 64)) by (apply pow_le; lra). replace ((/ 2) ^ 64) with (/ 18446744073709551616) by (cbn [pow]; lra). 
      apply Rle_trans with (/ 18446744073709551616 * 1); [apply Rmult_le_compat_l|]; lra. }
    pose proof (P (S (S k)) ltac:(lia)). pose proof (P (S k) ltac:(lia)) as P1. assert (1 <= INR (S k)) by (rewrite S_INR; pose proof (pos_INR k); lra).
    assert ((/ 2) ^ S k / INR (S k) <= (/ 2) ^ S k). { assert (0 <= (/ 2) ^ S k) by (apply pow_le; lra). apply Rmult_le_reg_r with (INR (S k)); [lra|]. unfold Rdiv. rewrite Rmult_assoc, Rinv_l by lra. nra. }
    lra.
Qed.
