(** * What prime_pi_bounds and nth_prime_bounds compute, for all targets below 2^128: order, totality,
    and the distance to the real formulas *)
From Coq Require Import Reals ZArith Lia Lra Bool List.
From Flocq Require Import Core BinarySingleNaN.
From Interval Require Import Tactic.
From Verif Require Import Base PBase FArith MFloat PFloat PGram.
Import ListNotations.
Local Open Scope R_scope.

Lemma from_f64_spec : forall t (f : f64), fin f -> 0 <= val f ->
  (in_range t (Zfloor (val f)) -> from_f64 t f = Some (Zfloor (val f))) /\ (~ in_range t (Zfloor (val f)) -> from_f64 t f = None).
Proof.
  intros t f Hf Hv. unfold from_f64. rewrite Hf, trunc_val, Ztrunc_floor by lra. unfold from_prim. split; intros H.
  - apply in_rangeb_spec in H. rewrite H. reflexivity.
  - destruct (in_rangeb t (Zfloor (val f))) eqn:E; [|reflexivity]. contradiction H. apply in_rangeb_spec, E.
Qed.

(** ** nth_prime_bounds *)
Lemma f3_num : forall ll c, 9 < c -> 0 < ll * ll - 6 * ll + c.
Proof. intros ll c Hc. assert (0 <= (ll - 3) * (ll - 3)) by apply Rle_0_sqr. lra. Qed.
Ltac lrange n a b := assert (IZR a <= IZR n <= IZR b) by (split; apply IZR_le; lia).
Lemma ln_ge : forall n a c, (0 < a)%Z -> (a <= n)%Z -> c <= ln (IZR a) -> c <= ln (IZR n).
Proof.
  intros n a c Ha Hn H. apply Rle_trans with (ln (IZR a)); [exact H|]. apply IZR_lt in Ha. apply IZR_le in Hn. destruct Hn as [Hn|Hn]; [left; apply ln_increasing; lra | right; rewrite Hn; reflexivity].
Qed.
Lemma ln_lt : forall n b c, (0 < n)%Z -> (n < b)%Z -> ln (IZR b) <= c -> ln (IZR n) <= c.
Proof. intros n b c Hn H Hc. apply Rle_trans with (ln (IZR b)); [|exact Hc]. apply IZR_lt in Hn, H. left. apply ln_increasing; lra. Qed.
Ltac bz x := destruct (Z.leb_spec x _).
(** the pieces, over l = ln n *)
Definition g1 (c l : R) : R := l + ln l - c.
Definition g2 (c l : R) : R := l + ln l - 1 + (ln l - c) / l.
Definition g3 (c l : R) : R := l + ln l - 1 + (ln l - 2) / l - (ln l * ln l - 6 * ln l + c) / (2 * l * l).
Lemma g3_lt_g2 : forall c l, 9 < c -> 4 <= l <= 90 -> (c - 9) / 16200 <= g2 2 l - g3 c l.
Proof.
  intros c l Hc Hl. unfold g2, g3. pose proof (f3_num (ln l) c Hc) as N. assert (N9 : c - 9 <= ln l * ln l - 6 * ln l + c) by (assert (0 <= (ln l - 3) * (ln l - 3)) by apply Rle_0_sqr; lra).
  assert (D : 0 < 2 * l * l) by nra. assert (D' : 2 * l * l <= 16200) by nra.
  apply Rle_trans with ((ln l * ln l - 6 * ln l + c) / (2 * l * l)); [|lra]. unfold Rdiv. apply Rmult_le_compat; [lra | lra | exact N9 | apply Rinv_le_contravar; lra].
Qed.
Lemma g3_gap : forall c d l, 4 <= l <= 90 -> d <= c -> (c - d) / 16200 <= g3 d l - g3 c l.
Proof.
  intros c d l Hl Hc. unfold g3. assert (D : 0 < 2 * l * l) by nra. assert (D' : 2 * l * l <= 16200) by nra.
  replace (l + ln l - 1 + (ln l - 2) / l - (ln l * ln l - 6 * ln l + d) / (2 * l * l) - (l + ln l - 1 + (ln l - 2) / l - (ln l * ln l - 6 * ln l + c) / (2 * l * l))) with ((c - d) * / (2 * l * l)) by (field; lra).
  unfold Rdiv. apply Rmult_le_compat; [lra | lra | lra | apply Rinv_le_contravar; lra].
Qed.
Lemma g2_gap : forall c d l, 4 <= l <= 90 -> d <= c -> (c - d) / 90 <= g2 d l - g2 c l.
Proof.
  intros c d l Hl Hc. unfold g2. replace (l + ln l - 1 + (ln l - d) / l - (l + ln l - 1 + (ln l - c) / l)) with ((c - d) * / l) by (field; lra).
  unfold Rdiv. apply Rmult_le_compat; [lra | lra | lra | apply Rinv_le_contravar; lra].
Qed.
Lemma nth_order : forall n, in128 n -> 4 <= r_nth_lo n /\ r_nth_lo n + / 1000000 <= r_nth_hi n /\ r_nth_hi n <= 99.
Proof.
  intros n Hn. pose proof (ln_range n Hn) as Hl. unfold in128 in Hn. unfold r_nth_lo, r_nth_hi, r_f1, r_f2, r_f3.
  change (ln (IZR n) + ln (ln (IZR n)) - 1 + (ln (ln (IZR n)) - 2) / ln (IZR n) - (ln (ln (IZR n)) * ln (ln (IZR n)) - 6 * ln (ln (IZR n)) + 11321 / 1000) / (2 * ln (IZR n) * ln (IZR n))) with (g3 (11321 / 1000) (ln (IZR n))).
  change (ln (IZR n) + ln (ln (IZR n)) - 1 + (ln (ln (IZR n)) - 2) / ln (IZR n) - (ln (ln (IZR n)) * ln (ln (IZR n)) - 6 * ln (ln (IZR n)) + 10667 / 1000) / (2 * ln (IZR n) * ln (IZR n))) with (g3 (10667 / 1000) (ln (IZR n))).
  change (ln (IZR n) + ln (ln (IZR n)) - 1 + (ln (ln (IZR n)) - 2) / ln (IZR n) - (ln (ln (IZR n)) * ln (ln (IZR n)) - 6 * ln (ln (IZR n)) + 10273 / 1000) / (2 * ln (IZR n) * ln (IZR n))) with (g3 (10273 / 1000) (ln (IZR n))).
  change (ln (IZR n) + ln (ln (IZR n)) - 1 + (ln (ln (IZR n)) - 21 / 10) / ln (IZR n)) with (g2 (21 / 10) (ln (IZR n))).
  change (ln (IZR n) + ln (ln (IZR n)) - 1 + (ln (ln (IZR n)) - 2) / ln (IZR n)) with (g2 2 (ln (IZR n))).
  change (ln (IZR n) + ln (ln (IZR n)) - 1 + (ln (ln (IZR n)) - 195 / 100) / ln (IZR n)) with (g2 (195 / 100) (ln (IZR n))).
  change (ln (IZR n) + ln (ln (IZR n)) - 1 + (ln (ln (IZR n)) - 18 / 10) / ln (IZR n)) with (g2 (18 / 10) (ln (IZR n))).
  change (ln (IZR n) + ln (ln (IZR n)) - 9484 / 10000) with (g1 (9484 / 10000) (ln (IZR n))).
  change (ln (IZR n) + ln (ln (IZR n)) - 5 / 10) with (g1 (5 / 10) (ln (IZR n))).
  change (ln (IZR n) + ln (ln (IZR n)) - 1) with (g1 1 (ln (IZR n))).
  assert (H3 : forall l, 12 <= l <= 90 -> 4 <= g3 (11321 / 1000) l) by (intros l R; unfold g3; interval with (i_prec 40)).
  assert (H2 : forall l, 8 <= l <= 90 -> 4 <= g2 (21 / 10) l) by (intros l R; unfold g2; interval with (i_prec 40)).
  assert (H1 : forall l, 4 <= l <= 90 -> 4 <= g1 1 l) by (intros l R; unfold g1; interval with (i_prec 40)).
  assert (B1 : forall l, 4 <= l <= 90 -> g1 (9484 / 10000) l <= 99 /\ g1 (5 / 10) l <= 99) by (intros l R; unfold g1; split; interval with (i_prec 40)).
  assert (B2 : forall l, 4 <= l <= 90 -> g2 (18 / 10) l <= 99 /\ g2 (195 / 100) l <= 99 /\ g2 2 l <= 99) by (intros l R; unfold g2; repeat split; interval with (i_prec 40)).
  set (l := ln (IZR n)) in *. pose proof (g3_lt_g2 (11321 / 1000) l ltac:(lra) Hl) as D1. pose proof (g3_lt_g2 (10667 / 1000) l ltac:(lra) Hl) as D2. pose proof (g3_lt_g2 (10273 / 1000) l ltac:(lra) Hl) as D3.
  pose proof (g3_gap (11321 / 1000) (10667 / 1000) l Hl ltac:(lra)) as E1. pose proof (g3_gap (11321 / 1000) (10273 / 1000) l Hl ltac:(lra)) as E2.
  pose proof (g2_gap 2 (195 / 100) l Hl ltac:(lra)) as F1. pose proof (g2_gap (21 / 10) (195 / 100) l Hl ltac:(lra)) as F2. pose proof (g2_gap (21 / 10) (18 / 10) l Hl ltac:(lra)) as F3.
  destruct (B1 l Hl) as [B11 B12]. destruct (B2 l Hl) as [B21 [B22 B23]]. specialize (H1 l Hl).
  destruct (Z.leb_spec 317200 n) as [G|G].
  - assert (L12 : 12 <= l) by (apply (ln_ge n 317200); [lia | lia | interval with (i_prec 40)]). specialize (H3 l ltac:(lra)). split; [exact H3|].
    destruct (46254381 <=? n)%Z; [split; lra|]. destruct (8009824 <=? n)%Z; [split; lra|]. destruct (688383 <=? n)%Z; [split; lra|]. destruct (Z.leb_spec 178974 n); [split; lra | lia].
  - destruct (Z.leb_spec 46254381 n); [lia|]. destruct (Z.leb_spec 8009824 n); [lia|]. destruct (Z.leb_spec 688383 n); [lia|]. destruct (Z.leb_spec 3520 n) as [G2|G2].
    + assert (L8 : 8 <= l) by (apply (ln_ge n 3520); [lia | lia | interval with (i_prec 40)]). specialize (H2 l ltac:(lra)). split; [exact H2|].
      destruct (Z.leb_spec 178974 n) as [G3|G3]; [split; lra|]. assert (L13 : l <= 121 / 10) by (apply (ln_lt n 178974); [lia | lia | interval with (i_prec 40)]).
      assert (K1 : g2 (21 / 10) l + / 1000 <= g1 (9484 / 10000) l).
      { assert ((ln l - 21 / 10) / l <= 5 / 100) by (revert L8 L13; generalize l; intros v U1 U2; interval with (i_prec 40, i_bisect v)). unfold g1, g2. lra. }
      assert (K2 : g2 (21 / 10) l + / 1000 <= g1 (5 / 10) l) by (unfold g1 in *; lra).
      destruct (39017 <=? n)%Z; [split; lra|]. destruct (27076 <=? n)%Z; split; lra.
    + destruct (Z.leb_spec 178974 n); [lia|]. destruct (Z.leb_spec 39017 n); [lia|]. destruct (Z.leb_spec 27076 n); [lia|]. unfold g1 in *. repeat split; lra.
Qed.

(** ** prime_pi_bounds *)
Lemma shift : forall a b c, c <= b - a -> a + c <= b.
Proof. intros. lra. Qed.
Lemma pi_order : forall n, in128pi n -> / 90 <= r_pi_lo n /\ r_pi_lo n + / 100000000 <= r_pi_hi n /\ r_pi_hi n <= 26 / 100.
Proof.
  intros n Hn. pose proof (ln_range_pi n Hn) as Hl. unfold in128pi in Hn. unfold r_pi_lo, r_pi_hi, r_q, r_r, r_s0, r_s1, r_s2, r_s3.
  destruct (Z.leb_spec 468049 n) as [G|G].
  - assert (L13 : 13 <= ln (IZR n)) by (apply (ln_ge n 468049); [lia | lia | interval with (i_prec 40)]).
    destruct (Z.leb_spec 7398600000 n) as [G1|G1].
    + assert (L22 : 22 <= ln (IZR n)) by (apply (ln_ge n 7398600000); [lia | lia | interval with (i_prec 40)]).
      assert (Hi : / 90 <= / ln (IZR n) <= / 22) by (split; apply Rinv_le_contravar; lra).
      assert (E : ln (IZR n) = / / ln (IZR n)) by (field; lra). revert Hi E. unfold Rdiv. rewrite (Rmult_1_l (/ ln (IZR n))). generalize (/ ln (IZR n)). intros i Hi ->.
      replace (1 * / (/ i - 1 - 1 * i)) with (i / (1 - i - i * i)) by (field; split; nra).
      split; [interval with (i_prec 40)|]. split; [|interval with (i_prec 40)].
      assert (Q : i * (1 + i * (1 + i * (2 + i * (759 * / 100)))) = i / (1 - i - i * i) + i / (1 - i - i * i) * (i * i * i * (459 / 100 - 959 / 100 * i - 759 / 100 * i * i))) by (field; nra).
      rewrite Q. assert (/ 100000000 <= i / (1 - i - i * i) * (i * i * i * (459 / 100 - 959 / 100 * i - 759 / 100 * i * i))); [|lra]. interval with (i_prec 40).
    + assert (L23 : ln (IZR n) <= 23) by (apply (ln_lt n 7398600000); [lia | lia | interval with (i_prec 40)]). destruct (Z.leb_spec 2953652287 n) as [G2|G2].
      * assert (L21 : 218 / 10 <= ln (IZR n)) by (apply (ln_ge n 2953652287); [lia | lia | interval with (i_prec 40)]). revert L23 L21. generalize (ln (IZR n)). intros l U1 U2. split; [interval with (i_prec 40) | split; [apply shift; interval with (i_prec 40, i_bisect l) | interval with (i_prec 40)]].
      * destruct (Z.leb_spec 467345 n); [|lia]. revert L23 L13. generalize (ln (IZR n)). intros l U1 U2. split; [interval with (i_prec 40)|]. split; [|interval with (i_prec 40)].
        assert (D : 0 < 1 / l) by (apply Rdiv_lt_0_compat; lra). assert (D1 : 1 / l <= 1 / 13) by (apply Rmult_le_compat_l; [lra | apply Rinv_le_contravar; lra]). assert (D2 : 1 / 23 <= 1 / l) by (apply Rmult_le_compat_l; [lra | apply Rinv_le_contravar; lra]).
        assert (Y : 1 / (l - 1 - 12311 / 10000 * (1 / l)) - 1 / (l - 1 - 1 * (1 / l)) = 2311 / 10000 * (1 / l) * (1 / (l - 1 - 12311 / 10000 * (1 / l)) * (1 / (l - 1 - 1 * (1 / l))))) by (field; split; [|split]; nra).
        assert (/ 100000000 <= 2311 / 10000 * (1 / l) * (1 / (l - 1 - 12311 / 10000 * (1 / l)) * (1 / (l - 1 - 1 * (1 / l))))); [|lra]. interval with (i_prec 40).
  - destruct (Z.leb_spec 7398600000 n); [lia|]. destruct (Z.leb_spec 2953652287 n); [lia|].
    destruct (Z.leb_spec 467345 n) as [G1|G1].
    { assert (L1 : 13054 / 1000 <= ln (IZR n)) by (apply (ln_ge n 467345); [lia | lia | interval with (i_prec 40)]). assert (L2 : ln (IZR n) <= 13057 / 1000) by (apply (ln_lt n 468049); [lia | lia | interval with (i_prec 40)]).
      destruct (Z.leb_spec 88789 n); [|lia]. revert L1 L2. generalize (ln (IZR n)). intros l U1 U2. split; [interval with (i_prec 40) | split; [apply shift; interval with (i_prec 40, i_bisect l) | interval with (i_prec 40)]]. }
    assert (L2 : ln (IZR n) <= 1306 / 100) by (apply (ln_lt n 468049); [lia | lia | interval with (i_prec 40)]).
    destruct (Z.leb_spec 88789 n) as [G2|G2].
    { assert (L1 : 1139 / 100 <= ln (IZR n)) by (apply (ln_ge n 88789); [lia | lia | interval with (i_prec 40)]).
      destruct (Z.leb_spec 29927 n); [|lia]. revert L1 L2. generalize (ln (IZR n)). intros l U1 U2. split; [interval with (i_prec 40) | split; [apply shift; interval with (i_prec 40, i_bisect l) | interval with (i_prec 40)]]. }
    assert (L3 : ln (IZR n) <= 114 / 10) by (apply (ln_lt n 88789); [lia | lia | interval with (i_prec 40)]).
    destruct (Z.leb_spec 5393 n) as [G3|G3].
    { assert (L1 : 859 / 100 <= ln (IZR n)) by (apply (ln_ge n 5393); [lia | lia | interval with (i_prec 40)]).
      destruct (Z.leb_spec 29927 n) as [G4|G4]; [|destruct (Z.leb_spec 5668 n) as [G5|G5]].
      - assert (L4 : 103 / 10 <= ln (IZR n)) by (apply (ln_ge n 29927); [lia | lia | interval with (i_prec 40)]).
        revert L4 L3. generalize (ln (IZR n)). intros l U1 U2. split; [interval with (i_prec 40) | split; [apply shift; interval with (i_prec 40, i_bisect l) | interval with (i_prec 40)]].
      - revert L1 L3. generalize (ln (IZR n)). intros l U1 U2. split; [interval with (i_prec 40) | split; [apply shift; interval with (i_prec 40, i_bisect l) | interval with (i_prec 40)]].
      - assert (L4 : ln (IZR n) <= 865 / 100) by (apply (ln_lt n 5668); [lia | lia | interval with (i_prec 40)]).
        revert L1 L4. generalize (ln (IZR n)). intros l U1 U2. split; [interval with (i_prec 40) | split; [apply shift; interval with (i_prec 40, i_bisect l) | interval with (i_prec 40)]]. }
    assert (L4 : ln (IZR n) <= 86 / 10) by (apply (ln_lt n 5393); [lia | lia | interval with (i_prec 40)]).
    destruct (Z.leb_spec 29927 n); [lia|]. destruct (Z.leb_spec 5668 n); [lia|]. destruct Hl as [L0 _].
    destruct (599 <=? n)%Z; revert L0 L4; generalize (ln (IZR n)); intros l U1 U2; (split; [interval with (i_prec 40) | (split; [apply shift; interval with (i_prec 40, i_bisect l) | interval with (i_prec 40)])]).
Qed.

(** ** What is returned *)
Lemma ap_near : forall n r B e f, 0 < IZR n -> ap (IZR n) r B e f -> fin f /\ IZR n * (r - e) <= val f <= IZR n * (r + e) /\ Rabs (val f - IZR n * r) <= IZR n * e.
Proof. intros n r B e f Hn [A [_ H]]. split; [exact A|]. split; [apply Rabs_bd in H; lra | exact H]. Qed.
Lemma Zfloor_mono : forall x y, x <= y -> (Zfloor x <= Zfloor y)%Z.
Proof. intros x y H. apply Zfloor_lub. apply Rle_trans with x; [apply Zfloor_lb | exact H]. Qed.
Lemma range_below : forall t a b, (0 <= a <= b)%Z -> in_range t b -> in_range t a.
Proof. intros t a b H. destruct t; cbn; lia. Qed.
Lemma pos128 : forall n, in128 n -> 0 < IZR n.
Proof. intros n [H _]. apply IZR_lt. lia. Qed.

Definition near (n : Z) (r v : R) : Prop := Rabs (v - IZR n * r) <= IZR n * tol.
Lemma nth_float_spec : forall L t n, ln_ok L -> in128 n -> exists vl vh, near n (r_nth_lo n) vl /\ near n (r_nth_hi n) vh /\ (3 <= Zfloor vl <= Zfloor vh)%Z /\
  (in_range t (Zfloor vh) -> nth_float L t n = Some (Zfloor vl, Zfloor vh)) /\ (~ in_range t (Zfloor vh) -> nth_float L t n = None).
Proof.
  intros L t n HL Hn. pose proof (pos128 n Hn) as Hp. destruct (nth_order n Hn) as [O1 [O2 O3]].
  destruct (ap_near _ _ _ _ _ Hp (nth_lo_ap L n HL Hn)) as [A1 [A2 A3]]. destruct (ap_near _ _ _ _ _ Hp (nth_hi_ap L n HL Hn)) as [B1 [B2 B3]].
  assert (Ht : 0 < tol <= / 10000000) by (unfold tol; lra).
  assert (N55 : 55 <= IZR n) by (unfold in128 in Hn; apply IZR_le; lia).
  assert (V1 : 3 <= val (nth_lo L n)) by (assert (55 * 1 <= IZR n * (r_nth_lo n - tol)) by (apply Rmult_le_compat; lra); lra).
  assert (V2 : val (nth_lo L n) <= val (nth_hi L n)) by (assert (IZR n * (r_nth_lo n + tol) <= IZR n * (r_nth_hi n - tol)) by (apply Rmult_le_compat_l; lra); lra).
  exists (val (nth_lo L n)), (val (nth_hi L n)). split; [exact A3|]. split; [exact B3|].
  assert (F1 : (3 <= Zfloor (val (nth_lo L n)))%Z) by (apply Zfloor_lub; exact V1). assert (F2 := Zfloor_mono _ _ V2). split; [split; assumption|].
  destruct (from_f64_spec t (nth_lo L n) A1 ltac:(lra)) as [C1 C2]. destruct (from_f64_spec t (nth_hi L n) B1 ltac:(lra)) as [D1 D2]. unfold nth_float. split; intros R.
  - rewrite C1, D1; [reflexivity | exact R | apply (range_below t _ (Zfloor (val (nth_hi L n)))); [lia | exact R]].
  - rewrite (D2 R). destruct (from_f64 t (nth_lo L n)); reflexivity.
Qed.
Lemma pi_float_spec : forall L t n, ln_ok L -> in128pi n -> exists vl vh, near n (r_pi_lo n) vl /\ near n (r_pi_hi n) vh /\ (0 <= Zfloor vl <= Zfloor vh)%Z /\ (2 * Zfloor vh <= n)%Z /\
  (in_range t n -> pi_float L t n = Some (Zfloor vl, Zfloor vh)).
Proof.
  intros L t n HL Hn. pose proof (pos128 n (in128pi_in128 n Hn)) as Hp. destruct (pi_order n Hn) as [O1 [O2 O3]].
  destruct (ap_near _ _ _ _ _ Hp (pi_lo_ap L n HL Hn)) as [A1 [A2 A3]]. destruct (ap_near _ _ _ _ _ Hp (pi_hi_ap L n HL Hn)) as [B1 [B2 B3]].
  assert (Ht : 0 < tol <= / 1000000000) by (unfold tol; lra).
  assert (V1 : 0 <= val (pi_lo L n)) by (assert (0 <= IZR n * (r_pi_lo n - tol)) by (apply Rmult_le_pos; lra); lra).
  assert (V2 : val (pi_lo L n) <= val (pi_hi L n)) by (assert (IZR n * (r_pi_lo n + tol) <= IZR n * (r_pi_hi n - tol)) by (apply Rmult_le_compat_l; lra); lra).
  assert (V3 : val (pi_hi L n) <= IZR n * / 2) by (assert (IZR n * (r_pi_hi n + tol) <= IZR n * / 2) by (apply Rmult_le_compat_l; lra); lra).
  exists (val (pi_lo L n)), (val (pi_hi L n)). split; [exact A3|]. split; [exact B3|].
  assert (F1 : (0 <= Zfloor (val (pi_lo L n)))%Z) by (apply Zfloor_lub; exact V1). assert (F2 := Zfloor_mono _ _ V2). split; [split; assumption|].
  assert (F3 : (2 * Zfloor (val (pi_hi L n)) <= n)%Z) by (apply le_IZR; rewrite mult_IZR; pose proof (Zfloor_lb (val (pi_hi L n))); lra). split; [exact F3|].
  destruct (from_f64_spec t (pi_lo L n) A1 ltac:(lra)) as [C1 C2]. destruct (from_f64_spec t (pi_hi L n) B1 ltac:(lra)) as [D1 D2]. intros R. unfold pi_float.
  rewrite C1, D1; [reflexivity | apply (range_below t _ n); [lia | exact R] | apply (range_below t _ n); [lia | exact R]].
Qed.

(** ** Targets from 2^1024 on *)
Definition finf : f64 := B754_infinity false.
Lemma fint_inf : forall n, (2 ^ 1024 <= n)%Z -> fint n = finf.
Proof.
  intros n Hn. pose proof (binary_normalize_correct 53 1024 _ _ mode_NE n 0 false) as C. cbv zeta in C.
  assert (E : F2R (Float radix2 n 0) = IZR n) by (unfold F2R; cbn [Fnum Fexp]; change (bpow radix2 0) with 1; ring).
  rewrite E in C. assert (P : bpow radix2 1024 <= IZR n) by (rewrite <- (IZR_Zpower radix2 1024) by lia; apply IZR_le; exact Hn).
  assert (G : bpow radix2 1024 <= rnd (IZR n)).
  { apply round_ge_generic; [apply fexp_correct; exact eq_refl | apply valid_rnd_round_mode | apply generic_format_bpow; unfold SpecFloat.fexp, SpecFloat.emin; lia | exact P]. }
  pose proof (bpow_gt_0 radix2 1024) as P0. rewrite Rlt_bool_false in C by (rewrite Rabs_pos_eq by lra; exact G).
  rewrite Rlt_bool_false in C by lra. unfold binary_overflow, overflow_to_inf in C. cbn in C. unfold fint.
  destruct (binary_normalize 53 1024 _ _ mode_NE n 0 false) as [s|[|]| |s m e b]; cbn in C; try discriminate C. reflexivity.
Qed.
Lemma pi_float_inf : forall L t n, L finf = finf -> (2 ^ 1024 <= n)%Z -> pi_float L t n = None.
Proof.
  intros L t n HL Hn. unfold pi_float, pi_lo. replace (468049 <=? n)%Z with true by (symmetry; apply Z.leb_le; eapply Z.le_trans; [|exact Hn]; vm_compute; discriminate).
  unfold pi_q, frecip. rewrite (fint_inf n Hn), HL. reflexivity.
Qed.
Lemma nth_float_inf : forall L t n, L finf = finf -> (2 ^ 1024 <= n)%Z -> nth_float L t n = None.
Proof.
  intros L t n HL Hn. unfold nth_float, nth_lo. replace (317200 <=? n)%Z with true by (symmetry; apply Z.leb_le; eapply Z.le_trans; [|exact Hn]; vm_compute; discriminate).
  unfold nth_f3. rewrite (fint_inf n Hn), !HL. reflexivity.
Qed.

(** ** The table of Gram's series *)
Lemma zeta_nearest : forallb (fun '(x, y) => nearest_float x y) (combine ZETA_LOG_DECIMALS ZETA_LOG_FLOATS) = true /\ length ZETA_LOG_DECIMALS = 64%nat /\ length ZETA_LOG_FLOATS = 64%nat.
Proof. vm_compute. repeat split. Qed.
Lemma zeta_exact : forall m e, (0 < m < 2 ^ 53)%Z -> (53 <= e <= 1000)%Z -> fin (binary_normalize 53 1024 _ _ mode_NE m (- e) false) /\ 0 <= val (binary_normalize 53 1024 _ _ mode_NE m (- e) false) <= 1.
Proof.
  intros m e Hm He. pose proof (binary_normalize_correct 53 1024 _ _ mode_NE m (- e) false) as C. cbv zeta in C.
  assert (Q : 0 <= F2R (Float radix2 m (- e)) <= 1).
  { unfold F2R; cbn [Fnum Fexp]. assert (0 < IZR m < IZR (2 ^ 53)) by (split; apply IZR_lt; lia). assert (B : bpow radix2 (- e) <= bpow radix2 (-53)) by (apply bpow_le; lia). pose proof (bpow_gt_0 radix2 (- e)).
    split; [apply Rmult_le_pos; lra|]. apply Rle_trans with (IZR (2 ^ 53) * bpow radix2 (-53)); [apply Rmult_le_compat; lra|]. change (bpow radix2 (-53)) with (/ 9007199254740992). change (2 ^ 53)%Z with 9007199254740992%Z. lra. }
  assert (R : 0 <= rnd (F2R (Float radix2 m (- e))) <= 1).
  { split; [apply round_ge_generic | apply round_le_generic]; try (apply fexp_correct; exact eq_refl); try apply valid_rnd_round_mode; try lra; [apply generic_format_0|].
    change 1 with (bpow radix2 0). apply generic_format_bpow. unfold SpecFloat.fexp, SpecFloat.emin. lia. }
  rewrite Rlt_bool_true in C by (rewrite Rabs_pos_eq by lra; apply Rle_lt_trans with 1; [lra | change 1 with (bpow radix2 0); apply bpow_lt; lia]).
  destruct C as [C1 [C2 _]]. split; [exact C2|]. unfold val. rewrite C1. exact R.
Qed.
Lemma zeta_table_ok : zeta_ok ZETA_LOG_TABLE.
Proof.
  unfold zeta_ok, ZETA_LOG_TABLE. apply Forall_map.
  assert (G : forallb (fun '(m, e) => ((0 <? m) && (m <? 2 ^ 53) && (53 <=? e) && (e <=? 1000))%Z) ZETA_LOG_FLOATS = true) by (vm_compute; reflexivity).
  apply Forall_forall. intros [m e] Hin. pose proof (proj1 (forallb_forall _ _) G _ Hin) as H. cbv beta iota in H. apply andb_true_iff in H. destruct H as [H H4]. apply andb_true_iff in H. destruct H as [H H3]. apply andb_true_iff in H. destruct H as [H1 H2].
  apply zeta_exact; lia.
Qed.
