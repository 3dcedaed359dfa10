(** * The floating point loop of Gram's series against the series over the reals, up to 2^128 *)
From Coq Require Import Reals ZArith Lia Lra Bool List.
From Flocq Require Import Core BinarySingleNaN.
From Interval Require Import Tactic.
From Verif Require Import Base PBase SpecGram FArith MFloat PFloat PFloat2 PGram PZeta PZetaTab PGramR.
Import ListNotations.
Local Open Scope R_scope.

Definition eps0 : R := 3 / 10000000000.
Lemma exp_rel : forall (X : f64 -> f64) t w, exp_ok X -> fin t -> -5 <= val t <= 91 -> Rabs (val t - w) <= 152000 * u53 + / 4294967296 ->
  fin (X t) /\ Rabs (val (X t) - exp w) <= eps0 * exp w.
Proof.
  intros X t w HX Ft Rt Hw. destruct (HX t Ft) as [A B]; [apply Rabs_le; lra|]. split; [exact A|]. assert (D : -25 / 100000000000 <= val t - w <= 25 / 100000000000) by (apply Rabs_bd in Hw; unfold u53 in Hw; lra).
  replace (val t) with (w + (val t - w)) in B by ring. rewrite exp_plus in B. revert B D. generalize (val t - w). intros d B D. pose proof (exp_pos w) as P. set (E := exp w) in *. set (F := exp d) in *.
  assert (HF : -26 / 100000000000 <= F - 1 <= 26 / 100000000000) by (unfold F; split; interval with (i_prec 90)). clearbody E F. apply Rabs_bd in B. replace (2 ^ 50) with 1125899906842624 in B by (cbn [pow]; lra). unfold eps0.
  assert (E1 : E * F - E = E * (F - 1)) by ring. assert (E * (-26 / 100000000000) <= E * (F - 1) <= E * (26 / 100000000000)) by (split; apply Rmult_le_compat_l; lra).
  assert (0 <= E * F <= E * 2) by (split; [apply Rmult_le_pos; lra | apply Rmult_le_compat_l; lra]). apply Rabs_le. lra.
Qed.

Section Gram2.
Context (L X : f64 -> f64) (HL : ln_ok L) (HX : exp_ok X).
Context (n : Z) (Hn : (252 <= n < 2 ^ 128)%Z) (Z : nat -> R) (HZ : forall k, (1 <= k)%nat -> zeta_is (S k) (Z k)).
Let y : R := ln (IZR n).
Let ll : R := ln y.
Let Hy : 11 / 2 <= y <= 90 := ln_range_pi n Hn.
Let tm (k : nat) : R := T y Z k.
Let sm (k : nat) : R := Sm y Z k.
Lemma ll_range2 : 13 / 10 <= ll <= 45 / 10.
Proof. apply lnln_range. unfold in128. lia. Qed.
Lemma y_exp : exp y = IZR n.
Proof. unfold y. apply exp_ln. apply IZR_lt. lia. Qed.
Lemma sm_le : forall k, 0 <= sm k <= 2 / y * IZR n.
Proof. intros k. split; [apply (Sm_mono y Hy Z HZ 0 k)|]. rewrite <- y_exp. apply (Sm_le y Hy Z HZ). Qed.
Lemma n_le : 252 <= IZR n <= 2 ^ 128.
Proof. split; [apply IZR_le; lia|]. change (2 ^ 128) with (2 ^ (Z.to_nat 128)). rewrite pow_IZR. rewrite Z2Nat.id by lia. apply IZR_le. lia. Qed.
Lemma sm_le2 : forall k, sm k <= 2 / 5 * IZR n.
Proof.
  intros k. eapply Rle_trans; [apply sm_le|]. pose proof n_le. apply Rmult_le_compat_r; [lra|]. unfold Rdiv. apply Rmult_le_compat_l; [lra|]. apply Rinv_le_contravar; lra.
Qed.
Lemma sm_ge1 : forall k, 1 <= sm (S k).
Proof.
  intros k. pose proof (Sm_mono y Hy Z HZ 1 k) as A. change (1 + k)%nat with (S k) in A. fold (sm (S k)) in A. pose proof (T_one y Hy Z HZ) as B. cbn [Sm] in A. lra.
Qed.
Lemma lnz_ap : forall k, (1 <= k)%nat -> 0 <= ln (Z k) <= 1 /\ ap 1 (ln (Z k)) 1 (/ 4294967296) (if (64 <? Z.of_nat k)%Z then fint 0 else nth (Z.to_nat (Z.of_nat k - 1)) ZETA_LOG_TABLE (fint 0)).
Proof.
  intros k Hk. assert (R : 0 <= ln (Z k) <= 1).
  { pose proof (Z_ge1 Z HZ k Hk) as A. pose proof (Z_small Z HZ k Hk) as B. pose proof (k_pos k Hk) as K. assert (/ INR k <= 1) by (rewrite <- Rinv_1; apply Rinv_le_contravar; lra). pose proof (ln_le_sub1 (Z k) ltac:(lra)). split; [|lra].
    rewrite <- ln_1. destruct A as [A| <-]; [left; apply ln_increasing; lra | right; reflexivity]. }
  split; [exact R|]. destruct (Z.ltb_spec 64 (Z.of_nat k)) as [H|H].
  - destruct (fint_exact 0 ltac:(lia)) as [A B]. split; [exact A|]. split; [rewrite Rabs_pos_eq; lra|]. rewrite B, !Rmult_1_l. pose proof (table_tail k (Z k) ltac:(lia) (HZ k Hk)) as Q. rewrite Rabs_left1; lra.
  - replace (Z.to_nat (Z.of_nat k - 1)) with (k - 1)%nat by lia. destruct (table_close k (Z k) ltac:(lia) (HZ k Hk)) as [A B]. split; [exact A|]. split; [rewrite Rabs_pos_eq; lra|]. rewrite !Rmult_1_l. exact B.
Qed.

Definition inv2 (k : nat) (s : f64 * f64 * f64) : Prop :=
  let '(total, lnp, lnfac) := s in
  ap 1 (INR k * ll) (9 / 2 * INR k) (900 * INR k * u53) lnp /\ ap 1 (lf k) (5 * INR k) (600 * INR k * u53) lnfac /\
  fin total /\ Rabs (val total - sm k) <= (eps0 + 4 * INR k * u53) * sm k.

Lemma gram_step2 : forall k s s' stop, (k < 99)%nat -> inv2 k s ->
  gram_step L X ZETA_LOG_TABLE (L (L (fint n))) (Z.of_nat (S k)) s = (s', stop) ->
  (stop = false -> inv2 (S k) s') /\ (stop = true -> fst (fst s') = fst (fst s) /\ tm (S k) <= 19 / 1000).
Proof.
  intros k [[total lnp] lnfac] s' stop Hk [I1 [I2 [I3 I4]]] E. pose proof (pos_INR k) as Pk. pose proof u53_pos as Hu.
  assert (Hk98 : INR k <= 98) by (rewrite INR_IZR_INZ; apply IZR_le; lia).
  pose proof (S_INR k) as Sk. destruct (ap_lnk L HL (S k) ltac:(lia)) as [Ak Ak0]. assert (All : ap 1 ll (45 / 10) (410 * u53) (L (L (fint n)))) by (apply ap_lnln; [exact HL | unfold in128; lia]). pose proof ll_range2 as Rl.
  assert (Hu1 : u53 <= / 9000000000000000) by (unfold u53; lra).
  assert (Ek : 0 <= INR k * u53 <= 98 * u53) by (split; [apply Rmult_le_pos; lra | apply Rmult_le_compat_r; lra]).
  assert (I1' : ap 1 (INR (S k) * ll) (9 / 2 * INR (S k)) (900 * INR (S k) * u53) (fadd lnp (L (L (fint n))))).
  { replace (INR (S k) * ll) with (INR k * ll + ll) by (rewrite Sk; ring). eapply ap_weaken; [lra | apply ap_add; [lra | exact I1 | exact All | unfold big; nra] | rewrite Sk; lra | rewrite Sk; nra]. }
  assert (I2' : ap 1 (lf (S k)) (5 * INR (S k)) (600 * INR (S k) * u53) (fadd lnfac (L (fint (Z.of_nat (S k)))))).
  { cbn [lf]. eapply ap_weaken; [lra | apply ap_add; [lra | exact I2 | exact Ak | unfold big; nra] | rewrite Sk; lra | rewrite Sk; nra]. }
  unfold gram_step in E. destruct (lnz_ap (S k) ltac:(lia)) as [Rz Az].
  set (lnz := if (64 <? Z.of_nat (S k))%Z then fint 0 else nth (Z.to_nat (Z.of_nat (S k) - 1)) ZETA_LOG_TABLE (fint 0)) in *.
  set (lnp' := fadd lnp (L (L (fint n)))) in *. set (lnfac' := fadd lnfac (L (fint (Z.of_nat (S k))))) in *. set (lnk := L (fint (Z.of_nat (S k)))) in *.
  assert (B1 : ap 1 (INR (S k) * ll) 446 (89100 * u53) lnp') by (eapply ap_weaken; [lra | exact I1' | rewrite Sk; lra | rewrite Sk; nra]).
  assert (B2 : ap 1 (lf (S k)) 495 (59400 * u53) lnfac') by (eapply ap_weaken; [lra | exact I2' | rewrite Sk; lra | rewrite Sk; nra]).
  stepS T1 B1 Ak 451 (89600 * u53). stepS T2 T1 B2 946 (150000 * u53). stepS T3 T2 Az 947 (152000 * u53 + / 4294967296).
  set (t := fsub (fsub (fsub lnp' lnk) lnfac') lnz) in *. cbv zeta in E. fold t in E.
  destruct T3 as [Ft [_ Vt]]. rewrite !Rmult_1_l in Vt.
  set (w := INR (S k) * ll - ln (INR (S k)) - lf (S k) - ln (Z (S k))) in *. assert (Ew : tm (S k) = exp w) by (apply (T_exp y Hy Z HZ); lia).
  assert (G : INR (S k) * ll - lf (S k) <= y) by (apply gram_term; lra).
  pose proof Vt as Vt'. apply Rabs_bd in Vt'. assert (Ht : 152000 * u53 + / 4294967296 <= / 1000) by (unfold u53; lra).
  assert (Ut : val t <= 91) by (unfold w in Vt'; lra).
  destruct (fint_exact (-4) ltac:(lia)) as [F4 V4].
  destruct (flt t (fint (-4))) eqn:Fl; injection E as <- <-; (split; intros Hs; try discriminate Hs).
  - cbn [fst]. split; [reflexivity|]. rewrite Ew.
    assert (Lt : val t <= -4).
    { unfold flt in Fl. rewrite (Bcompare_correct 53 1024 t (fint (-4)) Ft F4) in Fl. fold (val t) (val (fint (-4))) in Fl. rewrite V4 in Fl.
      destruct (Rcompare_spec (val t) (-4)); try discriminate Fl; lra. }
    apply Rle_trans with (exp (-3999 / 1000)); [apply exp_mono; lra | interval with (i_prec 40)].
  - assert (Lt : -4 <= val t).
    { unfold flt in Fl. rewrite (Bcompare_correct 53 1024 t (fint (-4)) Ft F4) in Fl. fold (val t) (val (fint (-4))) in Fl. rewrite V4 in Fl.
      destruct (Rcompare_spec (val t) (-4)); try discriminate Fl; lra. }
    destruct (exp_rel X t w HX Ft ltac:(lra) Vt) as [FX VX]. rewrite <- Ew in VX. apply Rabs_bd in VX.
    assert (ES : sm (S k) = sm k + tm (S k)) by reflexivity. pose proof (sm_le k) as S0. pose proof (sm_ge1 k) as S1. pose proof (sm_le2 (S k)) as S2. pose proof n_le as Nl. pose proof (T_pos y Hy Z HZ (S k) ltac:(lia)) as Tp. fold (tm (S k)) in Tp.
    assert (Hb : 2 / 5 * 2 ^ 128 <= 340282366920938463463374607431768211456) by (cbn [pow]; lra). assert (Nb : sm (S k) <= 340282366920938463463374607431768211456) by lra. clear Hb Nl S2. set (s0 := sm k) in *. set (tk := tm (S k)) in *. clearbody s0 tk.
    assert (De : 0 <= eps0 + 4 * INR k * u53 <= / 1000000000) by (unfold eps0; lra). set (de := eps0 + 4 * INR k * u53) in *.
    assert (I5 : - (de * s0) <= val total - s0 <= de * s0) by (apply Rabs_bd, I4).
    assert (D1 : 0 <= de * s0 <= / 1000000000 * s0) by (split; [apply Rmult_le_pos; lra | apply Rmult_le_compat_r; lra]). assert (D2 : 0 <= eps0 * tk <= de * tk) by (split; [apply Rmult_le_pos; [unfold eps0|]; lra | apply Rmult_le_compat_r; [lra | unfold de; lra]]). assert (D3 : de * tk <= / 1000000000 * tk) by (apply Rmult_le_compat_r; lra).
    destruct (fadd_spec total (X t) I3 FX) as [FS VS]; [unfold big; rewrite Rabs_pos_eq; lra|].
    rewrite (Rabs_pos_eq (val total + val (X t))) in VS by lra. apply Rabs_bd in VS.
    split; [exact I1'|]. split; [exact I2'|]. split; [exact FS|]. rewrite ES in *. set (s1 := s0 + tk) in *.
    assert (V3 : (val total + val (X t) + 1) * u53 <= 4 * s1 * u53) by (apply Rmult_le_compat_r; [lra | unfold s1 in *; lra]).
    replace ((eps0 + 4 * INR (S k) * u53) * s1) with (de * s0 + de * tk + 4 * s1 * u53) by (unfold s1, de; rewrite Sk; ring).
    apply Rabs_le. unfold s1 in *. lra.
Qed.
Lemma gram_loop2 : forall j k s, (k + j = 99)%nat -> inv2 k s ->
  let g := gram_loop L X ZETA_LOG_TABLE (L (L (fint n))) (map Z.of_nat (seq (S k) j)) s in
  fin g /\ exists m, (m <= 99)%nat /\ Rabs (val g - sm m) <= (eps0 + 400 * u53) * sm m /\ sm m <= sm 99 <= sm m + 19 / 10.
Proof.
  assert (W : forall k g, (k <= 99)%nat -> Rabs (val g - sm k) <= (eps0 + 4 * INR k * u53) * sm k -> Rabs (val g - sm k) <= (eps0 + 400 * u53) * sm k).
  { intros k g Hk H. eapply Rle_trans; [exact H|]. apply Rmult_le_compat_r; [apply sm_le|]. assert (INR k <= 99) by (rewrite INR_IZR_INZ; apply IZR_le; lia). pose proof u53_pos. assert (INR k * u53 <= 99 * u53) by (apply Rmult_le_compat_r; lra). lra. }
  induction j as [|j IH]; intros k s Hk I; cbv zeta; cbn [seq map gram_loop].
  - destruct s as [[total lnp] lnfac]. destruct I as [_ [_ [F V]]]. split; [exact F|]. exists k. split; [lia|]. split; [apply W; [lia | exact V]|]. replace k with 99%nat by lia. lra.
  - destruct (gram_step L X ZETA_LOG_TABLE (L (L (fint n))) (Z.of_nat (S k)) s) as [s' stop] eqn:E.
    destruct (gram_step2 k s s' stop ltac:(lia) I E) as [A B]. destruct stop; [|apply (IH (S k) s'); [lia | apply A; reflexivity]].
    destruct (B eq_refl) as [B1 B2]. destruct s as [[total lnp] lnfac]. destruct s' as [[total' lnp'] lnfac']. cbn [fst] in B1. subst total'. destruct I as [_ [_ [F V]]].
    split; [exact F|]. exists k. split; [lia|]. split; [apply W; [lia | exact V]|].
    assert (Hyk : y <= INR (S (S k))).
    { destruct (Rle_or_lt (INR (S k)) y) as [C|C]; [|rewrite S_INR; lra]. pose proof (T_before y Hy Z HZ (S k) ltac:(lia) C) as D. fold (tm (S k)) in D. lra. }
    pose proof (Sm_after y Hy Z HZ k (S j) (19 / 1000) Hyk B2) as C. pose proof (Sm_mono y Hy Z HZ k (S j)) as D. rewrite Hk in C, D. fold (sm 99) (sm k) in C, D. split; [exact D|]. eapply Rle_trans; [exact C|].
    assert (INR (S j) <= 99) by (rewrite INR_IZR_INZ; apply IZR_le; lia). fold (sm k). lra.
Qed.
Lemma gram2 : forall t, in_range t n -> exists v, gram L X ZETA_LOG_TABLE t n = Some v /\ (0 <= v <= n)%Z /\ Rabs (IZR v - (1 + sm 99)) <= 3 + sm 99 / 2 ^ 31.
Proof.
  intros t Ht. destruct (fint_exact 0 ltac:(lia)) as [F0 V0]. destruct (fint_exact 1 ltac:(lia)) as [F1 V1].
  assert (Z0 : forall B, 0 <= B -> ap 1 0 B 0 (fint 0)).
  { intros B HB. split; [exact F0|]. split; [rewrite Rabs_R0; lra|]. rewrite V0. replace (0 - 1 * 0) with 0 by ring. rewrite Rabs_R0. lra. }
  assert (I0 : inv2 0 (fint 0, fint 0, fint 0)).
  { unfold inv2. assert (S0 : sm 0 = 0) by reflexivity. rewrite S0, V0. change (INR 0) with 0. cbn [lf]. rewrite !Rmult_0_l, !Rmult_0_r, Rmult_0_l, Rminus_0_r, Rabs_R0. split; [apply Z0; lra|]. split; [apply Z0; lra|]. split; [exact F0 | lra]. }
  destruct (gram_loop2 99 0 _ eq_refl I0) as [A [m [Hm [B C]]]]. unfold gram. change (S 0) with 1%nat in A, B. set (g := gram_loop L X ZETA_LOG_TABLE (L (L (fint n))) (map Z.of_nat (seq 1 99)) (fint 0, fint 0, fint 0)) in *.
  pose proof (sm_le m) as S0. pose proof (sm_le2 99) as S2. pose proof n_le as Nl. pose proof (sm_ge1 98) as S1. assert (Hb : 2 / 5 * 2 ^ 128 <= 340282366920938463463374607431768211456) by (cbn [pow]; lra).
  apply Rabs_bd in B. assert (B2 : 0 <= (eps0 + 400 * u53) * sm m <= 4 / 10000000000 * sm m) by (split; [apply Rmult_le_pos; [unfold eps0, u53|]; lra | apply Rmult_le_compat_r; [lra | unfold eps0, u53; lra]]).
  destruct (fadd_spec g (fint 1) A F1) as [Cf D]; [rewrite V1; unfold big; rewrite Rabs_pos_eq; lra|]. rewrite V1 in D. rewrite (Rabs_pos_eq (val g + 1)) in D by lra. apply Rabs_bd in D.
  assert (Hu : (val g + 1 + 1) * u53 <= / 100000000000000 * sm 99 + / 1000000) by (unfold u53; lra).
  replace (2 ^ 31) with 2147483648 by (cbn [pow]; lra).
  set (h := fadd g (fint 1)) in *. assert (Hh : 0 <= val h <= IZR n) by lra.
  assert (Fl : (0 <= Zfloor (val h) <= n)%Z) by (split; [apply Zfloor_lub; lra | apply le_IZR; eapply Rle_trans; [apply Zfloor_lb | lra]]).
  destruct (from_f64_spec t h Cf ltac:(lra)) as [E _]. rewrite E by (destruct t; cbn in Ht |- *; lia). exists (Zfloor (val h)). split; [reflexivity|]. split; [exact Fl|].
  pose proof (Zfloor_lb (val h)). pose proof (Zfloor_ub (val h)). apply Rabs_le. lra.
Qed.
End Gram2.
