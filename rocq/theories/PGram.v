(** * Gram's series in prime_pi_est (big-table) neither overflows nor gets out of range *)
From Coq Require Import Reals ZArith Lia Lra Bool List.
From Flocq Require Import Core BinarySingleNaN.
From Interval Require Import Tactic.
From Verif Require Import Base PBase FArith MFloat PFloat.
Import ListNotations.
Local Open Scope R_scope.

(** What is asked of the platform's exponential, between -700 and 700 *)
Definition exp_ok (X : f64 -> f64) : Prop :=
  forall x, fin x -> Rabs (val x) <= 700 -> fin (X x) /\ Rabs (val (X x) - exp (val x)) <= exp (val x) / 2 ^ 50.
Definition zeta_ok (l : list f64) : Prop := Forall (fun z => fin z /\ 0 <= val z <= 1) l.

(** ln k! *)
Fixpoint lf (k : nat) : R := match k with O => 0 | S k' => lf k' + ln (INR (S k')) end.
Lemma gram_term : forall k y, 0 < y -> INR k * ln y - lf k <= y.
Proof.
  induction k as [|k IH]; intros y Hy; cbn [lf]; [cbn [INR]; lra|]. set (m := INR (S k)). assert (Hm : 0 < m) by (apply lt_0_INR; lia).
  assert (Em : m = INR k + 1) by (unfold m; apply S_INR).
  assert (A : forall z, 0 < z -> z <= m -> m * ln z - (lf k + ln m) <= z).
  { intros z Hz Hle. pose proof (IH z Hz). assert (ln z <= ln m) by (destruct Hle as [Hlt| ->]; [left; apply ln_increasing; assumption | right; reflexivity]).
    rewrite Em at 1. rewrite Rmult_plus_distr_r. lra. }
  destruct (Rle_or_lt y m) as [Hle|Hgt]; [apply A; assumption|].
  pose proof (A m Hm ltac:(lra)) as Am. assert (Q : 0 < y / m) by (apply Rdiv_lt_0_compat; lra).
  pose proof (ln_le_sub1 (y / m) Q) as L. unfold Rdiv in L. rewrite ln_mult, ln_Rinv in L by (try apply Rinv_0_lt_compat; lra).
  assert (m * (ln y - ln m) <= m * (y * / m - 1)) by (apply Rmult_le_compat_l; lra).
  replace (m * (y * / m - 1)) with (y - m) in H by (field; lra). lra.
Qed.
Lemma lf_nonneg : forall k, 0 <= lf k.
Proof.
  induction k as [|k IH]; cbn [lf]; [lra|]. assert (1 <= INR (S k)) by (rewrite S_INR; pose proof (pos_INR k); lra).
  assert (0 <= ln (INR (S k))); [|lra]. rewrite <- ln_1. destruct H as [H|H]; [left; apply ln_increasing; lra | right; rewrite <- H; reflexivity].
Qed.

Section Gram.
Context (L X : f64 -> f64) (HL : ln_ok L) (HX : exp_ok X) (zeta : list f64) (Hz : zeta_ok zeta).
Context (n : Z) (Hn : (252 <= n < 2 ^ 32)%Z).
Let y : R := ln (IZR n).
Let ll : R := ln y.
Lemma y_range : 11 / 2 <= y <= 23.
Proof. unfold y. assert (252 <= IZR n <= 4294967296) by (split; apply IZR_le; lia). split; interval with (i_prec 40). Qed.
Lemma ll_range : 1 <= ll <= 32 / 10.
Proof. pose proof y_range as R. unfold ll. revert R. generalize y. intros v R. split; interval with (i_prec 40). Qed.
Lemma in128_n : in128 n.
Proof. unfold in128. lia. Qed.
Lemma ap_ll : ap 1 ll 4 (410 * u53) (L (L (fint n))).
Proof. destruct (ap_lnln L n HL in128_n) as [A [B C]]. pose proof ll_range. split; [exact A|]. split; [rewrite Rabs_pos_eq; lra | exact C]. Qed.
Lemma ap_lnk : forall k, (1 <= k <= 99)%nat -> ap 1 (ln (INR k)) 5 (40 * u53) (L (fint (Z.of_nat k))) /\ 0 <= ln (INR k).
Proof.
  intros k Hk. destruct (fint_exact (Z.of_nat k) ltac:(lia)) as [A B]. rewrite <- INR_IZR_INZ in B.
  assert (R1 : 1 <= INR k <= 99) by (rewrite INR_IZR_INZ; split; apply IZR_le; lia).
  assert (R2 : 0 <= ln (INR k) <= 48 / 10) by (revert R1; generalize (INR k); intros v R1; split; interval with (i_prec 40)).
  destruct (HL (fint (Z.of_nat k)) A ltac:(rewrite B; lra)) as [C D]. rewrite B in D. split; [|lra]. split; [exact C|]. split; [rewrite Rabs_pos_eq; lra|]. rewrite !Rmult_1_l.
  eapply Rle_trans; [exact D|]. unfold u53. lra.
Qed.

Definition inv (k : nat) (s : f64 * f64 * f64) : Prop :=
  let '(total, lnp, lnfac) := s in
  ap 1 (INR k * ll) (4 * INR k) (1000 * INR k * u53) lnp /\ ap 1 (lf k) (5 * INR k) (1000 * INR k * u53) lnfac /\
  fin total /\ 0 <= val total <= INR k * 30000000000.

Lemma zeta_ap : forall k, exists z, 0 <= z <= 1 /\ ap 1 z 1 0 (if (64 <? k)%Z then fint 0 else nth (Z.to_nat (k - 1)) zeta (fint 0)).
Proof.
  intros k. destruct (fint_exact 0 ltac:(lia)) as [A B].
  assert (Z0 : ap 1 0 1 0 (fint 0)) by (split; [exact A|]; split; [rewrite Rabs_R0; lra | rewrite B; replace (0 - 1 * 0) with 0 by ring; rewrite Rabs_R0; lra]).
  destruct (64 <? k)%Z; [exists 0; split; [lra | exact Z0]|].
  destruct (nth_in_or_default (Z.to_nat (k - 1)) zeta (fint 0)) as [Hin|E]; [|rewrite E; exists 0; split; [lra | exact Z0]].
  destruct (proj1 (Forall_forall _ _) Hz _ Hin) as [F V]. exists (val (nth (Z.to_nat (k - 1)) zeta (fint 0))). split; [exact V|].
  split; [exact F|]. split; [rewrite Rabs_pos_eq; lra|]. rewrite !Rmult_1_l, Rminus_diag_eq, Rabs_R0 by reflexivity. lra.
Qed.
Lemma exp_mono : forall a b, a <= b -> exp a <= exp b.
Proof. intros a b [H|H]; [left; apply exp_increasing, H | right; rewrite H; reflexivity]. Qed.

Lemma gram_step_ok : forall k s s' stop, (k < 99)%nat -> inv k s ->
  gram_step L X zeta (L (L (fint n))) (Z.of_nat (S k)) s = (s', stop) -> 
  (stop = false -> inv (S k) s') /\ fin (fst (fst s')) /\ 0 <= val (fst (fst s')) <= INR (S k) * 30000000000.
Proof.
  intros k [[total lnp] lnfac] s' stop Hk [I1 [I2 [I3 I4]]] E. pose proof (pos_INR k) as Pk. pose proof u53_pos as Hu.
  assert (Hk98 : INR k <= 98) by (rewrite INR_IZR_INZ; apply IZR_le; lia).
  pose proof (S_INR k) as Sk. destruct (ap_lnk (S k) ltac:(lia)) as [Ak Ak0]. pose proof ap_ll as All. pose proof ll_range as Rl. pose proof y_range as Ry.
  assert (Hu1 : u53 <= / 9000000000000000) by (unfold u53; lra).
  assert (Ek : 0 <= INR k * u53 <= 98 * u53) by (split; [apply Rmult_le_pos; lra | apply Rmult_le_compat_r; lra]).
  assert (I1' : ap 1 (INR (S k) * ll) (4 * INR (S k)) (1000 * INR (S k) * u53) (fadd lnp (L (L (fint n))))).
  { replace (INR (S k) * ll) with (INR k * ll + ll) by (rewrite Sk; ring). eapply ap_weaken; [lra | apply ap_add; [lra | exact I1 | exact All | unfold big; nra] | rewrite Sk; lra | rewrite Sk; nra]. }
  assert (I2' : ap 1 (lf (S k)) (5 * INR (S k)) (1000 * INR (S k) * u53) (fadd lnfac (L (fint (Z.of_nat (S k)))))).
  { cbn [lf]. eapply ap_weaken; [lra | apply ap_add; [lra | exact I2 | exact Ak | unfold big; nra] | rewrite Sk; lra | rewrite Sk; nra]. }
  unfold gram_step in E. destruct (zeta_ap (Z.of_nat (S k))) as [z [Rz Az]].
  set (lnz := if (64 <? Z.of_nat (S k))%Z then fint 0 else nth (Z.to_nat (Z.of_nat (S k) - 1)) zeta (fint 0)) in *.
  set (lnp' := fadd lnp (L (L (fint n)))) in *. set (lnfac' := fadd lnfac (L (fint (Z.of_nat (S k))))) in *. set (lnk := L (fint (Z.of_nat (S k)))) in *.
  assert (B1 : ap 1 (INR (S k) * ll) 396 (99000 * u53) lnp') by (eapply ap_weaken; [lra | exact I1' | rewrite Sk; lra | rewrite Sk; nra]).
  assert (B2 : ap 1 (lf (S k)) 495 (99000 * u53) lnfac') by (eapply ap_weaken; [lra | exact I2' | rewrite Sk; lra | rewrite Sk; nra]).
  stepS T1 B1 Ak 401 (100000 * u53). stepS T2 T1 B2 896 (201000 * u53). stepS T3 T2 Az 897 (203000 * u53).
  set (t := fsub (fsub (fsub lnp' lnk) lnfac') lnz) in *. cbv zeta in E. fold t in E.
  destruct T3 as [Ft [_ Vt]]. rewrite !Rmult_1_l in Vt. apply Rabs_bd in Vt.
  assert (G : INR (S k) * ll - lf (S k) <= y) by (apply gram_term; lra).
  assert (Ut : val t <= 2301 / 100) by (assert (203000 * u53 <= / 100) by (unfold u53; lra); lra).
  destruct (fint_exact (-4) ltac:(lia)) as [F4 V4].
  destruct (flt t (fint (-4))) eqn:Fl.
  - injection E as <- <-. split; [discriminate|]. cbn [fst]. split; [exact I3 | rewrite Sk; lra].
  - injection E as <- <-.
    assert (Lt : -4 <= val t).
    { unfold flt in Fl. rewrite (Bcompare_correct 53 1024 t (fint (-4)) Ft F4) in Fl. fold (val t) (val (fint (-4))) in Fl. rewrite V4 in Fl.
      destruct (Rcompare_spec (val t) (-4)); try discriminate Fl; lra. }
    destruct (HX t Ft) as [FX VX]; [apply Rabs_le; lra|]. apply Rabs_bd in VX.
    assert (Pe : 0 < exp (val t)) by apply exp_pos.
    assert (Ue : exp (val t) <= 10000000000). { apply Rle_trans with (exp (2301 / 100)); [apply exp_mono; exact Ut | interval with (i_prec 40)]. }
    assert (Vx : 0 <= val (X t) <= 20000000000) by (split; [|]; lra).
    assert (Hk3 : INR k * 30000000000 <= 2940000000000) by lra.
    destruct (fadd_spec total (X t) I3 FX) as [FS VS]; [unfold big; rewrite Rabs_pos_eq; lra|].
    rewrite (Rabs_pos_eq (val total + val (X t))) in VS by lra. apply Rabs_bd in VS.
    assert (T : 0 <= val (fadd total (X t)) <= INR (S k) * 30000000000).
    { rewrite Sk. split.
      - assert (rnd 0 <= rnd (val total + val (X t))) by (apply round_le; [apply fexp_correct; exact eq_refl | apply valid_rnd_round_mode | lra]).
        rewrite round_0 in H by apply valid_rnd_round_mode.
        pose proof (Bplus_correct 53 1024 _ _ mode_NE total (X t) I3 FX) as BC. unfold val in VS |- *. 
        assert (Ob : Rabs (B2R total + B2R (X t)) <= big) by (fold (val total) (val (X t)); unfold big; rewrite Rabs_pos_eq; lra).
        rewrite (rnd_bound _ Ob) in BC. unfold fadd. rewrite (proj1 BC). exact H.
      - assert (U3 : (val total + val (X t) + 1) * u53 <= 3000000000000 * u53) by (apply Rmult_le_compat_r; lra). assert (3000000000000 * u53 <= 1) by (unfold u53; lra). lra. }
    split; [intros _; split; [exact I1'|]; split; [exact I2'|]; split; [exact FS | exact T]|]. cbn [fst]. split; [exact FS | exact T].
Qed.
Lemma gram_loop_ok : forall j k s, (k + j = 99)%nat -> inv k s ->
  fin (gram_loop L X zeta (L (L (fint n))) (map Z.of_nat (seq (S k) j)) s) /\ 0 <= val (gram_loop L X zeta (L (L (fint n))) (map Z.of_nat (seq (S k) j)) s) <= 99 * 30000000000.
Proof.
  induction j as [|j IH]; intros k s Hk I.
  - cbn [seq map gram_loop]. destruct s as [[total lnp] lnfac]. destruct I as [_ [_ [F V]]]. split; [exact F|]. assert (INR k = 99) by (replace k with 99%nat by lia; rewrite INR_IZR_INZ; reflexivity). lra.
  - cbn [seq map gram_loop]. destruct (gram_step L X zeta (L (L (fint n))) (Z.of_nat (S k)) s) as [s' stop] eqn:E.
    destruct (gram_step_ok k s s' stop ltac:(lia) I E) as [A [B C]]. destruct stop.
    + destruct s' as [[total lnp] lnfac]. cbn [fst] in B, C. split; [exact B|]. assert (INR (S k) <= 99) by (rewrite INR_IZR_INZ; apply IZR_le; lia). lra.
    + apply (IH (S k) s'); [lia | apply A; reflexivity].
Qed.
Lemma gram_ok : exists v, gram L X zeta (U 64) n = Some v /\ (0 <= v <= 4000000000000)%Z.
Proof.
  destruct (fint_exact 0 ltac:(lia)) as [F0 V0]. destruct (fint_exact 1 ltac:(lia)) as [F1 V1].
  assert (Z0 : forall B, 0 <= B -> ap 1 0 B 0 (fint 0)).
  { intros B HB. split; [exact F0|]. split; [rewrite Rabs_R0; lra|]. rewrite V0. replace (0 - 1 * 0) with 0 by ring. rewrite Rabs_R0. lra. }
  assert (I0 : inv 0 (fint 0, fint 0, fint 0)).
  { unfold inv. cbn [INR lf]. rewrite !Rmult_0_l, !Rmult_0_r, Rmult_0_l. split; [apply Z0; lra|]. split; [apply Z0; lra|]. split; [exact F0 | rewrite V0; lra]. }
  destruct (gram_loop_ok 99 0 _ eq_refl I0) as [A B]. unfold gram. change 1%nat with (S 0) in A, B. set (g := gram_loop L X zeta (L (L (fint n))) (map Z.of_nat (seq 1 99)) (fint 0, fint 0, fint 0)) in *.
  destruct (fadd_spec g (fint 1) A F1) as [C D]; [rewrite V1; unfold big; rewrite Rabs_pos_eq; lra|]. rewrite V1 in D. rewrite (Rabs_pos_eq (val g + 1)) in D by lra. apply Rabs_bd in D.
  assert (Hu : (val g + 1 + 1) * u53 <= / 2) by (assert (u53 <= / 9000000000000000) by (unfold u53; lra); assert (0 <= val g + 1 + 1 <= 4000000000000) by lra; pose proof u53_pos; nra).
  assert (Hv : 0 <= val (fadd g (fint 1)) <= 3000000000000) by lra.
  rewrite (from_f64_u64 _ 64); [|exact C | change (Z.to_nat 64) with 64%nat; lra | lia].
  exists (Zfloor (val (fadd g (fint 1)))). split; [reflexivity|]. split; [apply Zfloor_lub; lra|]. apply le_IZR. pose proof (Zfloor_lb (val (fadd g (fint 1)))). lra.
Qed.
End Gram.
