(** * Properties C41-C44: exact roots and bit operations. *)
From Coq Require Import ZArith Znumtheory List Lia Bool.
From Verif Require Import Base Spec Ext NT PBase Tables MInteger PInteger.
Import ListNotations.
Local Open Scope Z_scope.

(** ** C41: machine integers of any width (signed or unsigned, so x < 0 is included) *)
Theorem C41_sqrt_exact_machine : forall pf w x, 0 < x < 2 ^ w ->
  (forall r, sqrt_exact_prim pf w x = Ret (Some r) <-> 0 <= r /\ r * r = x) /\
  (sqrt_exact_prim pf w x = Ret None <-> ~ exists r, r * r = x).
Proof.
  intros pf w x Hx. destruct (sqrt_exact_prim_spec pf w x Hx) as [o [E H]]. rewrite E. destruct o as [r0|]; cbn [exact_root] in H.
  - destruct H as [H0 H]. rewrite Z.pow_2_r in H. split.
    + intros r. split; [intros C; injection C as <-; auto|]. intros [Hr C]. repeat f_equal. nia.
    + split; [discriminate|]. intros C. exfalso. apply C. exists r0. exact H.
  - split.
    + intros r. split; [discriminate|]. intros [Hr C]. exfalso. apply (H r Hr). rewrite Z.pow_2_r. exact C.
    + split; [|reflexivity]. intros _ [r C]. apply (H (Z.abs r) (Z.abs_nonneg r)). rewrite Z.pow_2_r. nia.
Qed.
Theorem C41_sqrt_exact_negative : forall pf w x, x < 0 -> sqrt_exact_prim pf w x = Ret None.
Proof. intros pf w x H. unfold sqrt_exact_prim. apply Z.ltb_lt in H. rewrite H. reflexivity. Qed.
(** 0 is a square, but debug builds panic and release builds answer None, at every width. *)
Theorem C41_sqrt_exact_zero_refuted : forall w, w = 8 \/ w = 16 \/ w = 32 \/ w = 64 \/ w = 128 ->
  sqrt_exact_prim Debug w 0 = Panic /\ sqrt_exact_prim Release w 0 = Ret None.
Proof. intros w H. repeat destruct H as [->|H]; try subst w; split; vm_compute; reflexivity. Qed.

(** ** C42: big integers of any size *)
Theorem C42_sqrt_exact_biguint : forall f pf x, 0 <= x ->
  (forall r, sqrt_exact_big f pf x = Ret (Some r) <-> 0 <= r /\ r * r = x) /\
  (sqrt_exact_big f pf x = Ret None <-> ~ exists r, r * r = x).
Proof.
  intros f pf x Hx. destruct (sqrt_exact_big_spec f pf x Hx) as [o [E H]]. rewrite E. destruct o as [r0|]; cbn [exact_root] in H.
  - destruct H as [H0 H]. rewrite Z.pow_2_r in H. split.
    + intros r. split; [intros C; injection C as <-; auto|]. intros [Hr C]. repeat f_equal. nia.
    + split; [discriminate|]. intros C. exfalso. apply C. exists r0. exact H.
  - split.
    + intros r. split; [discriminate|]. intros [Hr C]. exfalso. apply (H r Hr). rewrite Z.pow_2_r. exact C.
    + split; [|reflexivity]. intros _ [r C]. apply (H (Z.abs r) (Z.abs_nonneg r)). rewrite Z.pow_2_r. nia.
Qed.
Lemma cube_inj : forall a b, a ^ 3 = b ^ 3 -> a = b.
Proof.
  intros a b H. assert (F : (a - b) * (a * a + a * b + b * b) = 0).
  { replace ((a - b) * (a * a + a * b + b * b)) with (a ^ 3 - b ^ 3) by ring. lia. }
  apply Z.mul_eq_0 in F. destruct F as [F|F]; [lia|].
  assert (Q : (2 * a + b) * (2 * a + b) + 3 * (b * b) = 0).
  { replace ((2 * a + b) * (2 * a + b) + 3 * (b * b)) with (4 * (a * a + a * b + b * b)) by ring. lia. }
  assert (b * b = 0) by nia. assert (b = 0) by nia. subst b. nia.
Qed.
Theorem C42_cbrt_exact_biguint : forall f pf x, 0 <= x ->
  (forall r, cbrt_exact_big f pf x = Ret (Some r) <-> r ^ 3 = x) /\
  (cbrt_exact_big f pf x = Ret None <-> ~ exists r, r ^ 3 = x).
Proof.
  intros f pf x Hx. destruct (cbrt_exact_big_spec f pf x Hx) as [o [E H]]. rewrite E.
  assert (N : forall r, r ^ 3 = x -> 0 <= r).
  { intros r C. destruct (Z.lt_ge_cases r 0); [|assumption]. replace (r ^ 3) with (r * (r * r)) in C by ring. nia. }
  destruct o as [r0|]; cbn [exact_root] in H.
  - destruct H as [H0 H]. split.
    + intros r. split; [intros C; injection C as <-; auto|]. intros C. repeat f_equal. apply cube_inj. congruence.
    + split; [discriminate|]. intros C. exfalso. apply C. exists r0. exact H.
  - split.
    + intros r. split; [discriminate|]. intros C. exfalso. apply (H r (N r C) C).
    + split; [|reflexivity]. intros _ [r C]. apply (H r (N r C) C).
Qed.
Theorem C42_sqrt_exact_bigint : forall f pf x,
  (forall r, sqrt_exact_bigint f pf x = Ret (Some r) <-> 0 <= r /\ r * r = x) /\
  (sqrt_exact_bigint f pf x = Ret None <-> ~ exists r, r * r = x).
Proof.
  intros f pf x. unfold sqrt_exact_bigint. destruct (Z.ltb_spec x 0) as [L|L]; [|apply C42_sqrt_exact_biguint, L]. split.
  - intros r. split; [discriminate|]. intros [Hr C]. nia.
  - split; [|reflexivity]. intros _ [r C]. nia.
Qed.
Theorem C42_cbrt_exact_bigint : forall f pf x,
  (forall r, cbrt_exact_bigint f pf x = Ret (Some r) <-> r ^ 3 = x) /\
  (cbrt_exact_bigint f pf x = Ret None <-> ~ exists r, r ^ 3 = x).
Proof.
  intros f pf x. unfold cbrt_exact_bigint.
  destruct (C42_cbrt_exact_biguint f pf (Z.abs x) (Z.abs_nonneg x)) as [H1 H2].
  assert (S : forall r, r ^ 3 = x <-> (if x <? 0 then - r else r) ^ 3 = Z.abs x).
  { intros r. destruct (Z.ltb_spec x 0) as [L|L].
    - replace ((- r) ^ 3) with (- r ^ 3) by ring. lia.
    - rewrite Z.abs_eq by lia. tauto. }
  destruct (cbrt_exact_big_spec f pf (Z.abs x) (Z.abs_nonneg x)) as [o [E H]]. rewrite E in *. cbn [bind].
  destruct o as [v|].
  - assert (Hv : v ^ 3 = Z.abs x) by apply H. split.
    + intros r. rewrite S. split.
      * intros C. injection C as <-. destruct (x <? 0); [rewrite Z.opp_involutive|]; exact Hv.
      * intros C. assert (Er : v = if x <? 0 then - r else r) by (apply cube_inj; congruence). rewrite Er.
        destruct (x <? 0); [rewrite Z.opp_involutive|]; reflexivity.
    + split; [discriminate|]. intros C. exfalso. apply C. exists (if x <? 0 then - v else v). apply S.
      destruct (x <? 0); [rewrite Z.opp_involutive|]; exact Hv.
  - assert (Hn : ~ exists r, r ^ 3 = Z.abs x) by (apply H2; reflexivity). split.
    + intros r. split; [discriminate|]. intros C. exfalso. apply Hn. apply S in C. eauto.
    + split; [|reflexivity]. intros _ [r C]. apply Hn. apply S in C. eauto.
Qed.

(** ** C43 *)
Theorem C43_nth_root_exact_nonneg : forall x k, 1 <= k -> 0 <= x ->
  (forall r, nth_root_exact x k = Ret (Some r) <-> 0 <= r /\ r ^ k = x) /\
  (is_nth_power x k = Ret true <-> exists r, 0 <= r /\ r ^ k = x) /\
  (exists b, is_nth_power x k = Ret b).
Proof.
  intros x k Hk Hx. unfold is_nth_power. destruct (nth_root_exact_nonneg x k Hk Hx) as [o [E H]]. rewrite E. cbn [bind].
  split; [|split; [|eauto]].
  - intros r. destruct o as [r0|].
    + destruct H as [H0 H]. split; [intros C; injection C as <-; auto|]. intros [Hr C]. repeat f_equal.
      rewrite <- (iroot_exact k r0), <- (iroot_exact k r) by lia. congruence.
    + split; [discriminate|]. intros [Hr C]. exfalso. exact (H r Hr C).
  - destruct o as [r0|]; [split; [eauto | reflexivity]|]. split; [discriminate|]. intros [r [Hr C]]. exfalso. exact (H r Hr C).
Qed.
Theorem C43_nth_root_exact_odd_degree : forall x k, 1 <= k -> Z.odd k = true ->
  (forall r, nth_root_exact x k = Ret (Some r) -> r ^ k = x) /\
  (nth_root_exact x k = Ret None <-> ~ exists r, r ^ k = x) /\
  (is_nth_power x k = Ret true <-> exists r, r ^ k = x).
Proof.
  intros x k Hk Ho. unfold is_nth_power. destruct (nth_root_exact_odd x k Hk Ho) as [o [E H]]. rewrite E. cbn [bind].
  split; [|split].
  - intros r C. injection C as ->. exact H.
  - destruct o as [r0|]; [split; [discriminate|]; intros C; exfalso; apply C; eauto|].
    split; [|reflexivity]. intros _ [r C]. exact (H r C).
  - destruct o as [r0|]; [split; [eauto | reflexivity]|]. split; [discriminate|]. intros [r C]. exfalso. exact (H r C).
Qed.
(** degree 0, and even degree of a negative number, panic *)
Theorem C43_nth_root_exact_invalid : forall x k, k <= 0 \/ (x < 0 /\ Z.odd k = false) -> nth_root_exact x k = Panic.
Proof.
  intros x k H. unfold nth_root_exact, ext_nth_root. destruct (Z.leb_spec k 0); [reflexivity|].
  destruct H as [H|[H1 H2]]; [lia|]. destruct (Z.leb_spec 0 x); [lia|]. rewrite H2. reflexivity.
Qed.
Theorem C43_is_square_is_cubic : forall pf w x, 0 < x < 2 ^ w ->
  (is_square_prim pf w x = Ret true <-> exists r, r * r = x) /\
  (is_square_prim pf w x = Ret false <-> ~ exists r, r * r = x) /\
  (is_cubic_prim x = Ret true <-> exists r, r ^ 3 = x) /\
  (is_cubic_prim x = Ret false <-> ~ exists r, r ^ 3 = x).
Proof.
  intros pf w x Hx. destruct (C41_sqrt_exact_machine pf w x Hx) as [H1 H2].
  destruct (C43_nth_root_exact_odd_degree x 3 ltac:(lia) eq_refl) as [H3 [H4 _]].
  unfold is_square_prim, is_cubic_prim, cbrt_exact_prim.
  destruct (sqrt_exact_prim_spec pf w x Hx) as [o [E H]]. rewrite E in *. cbn [bind].
  destruct (nth_root_exact_odd x 3 ltac:(lia) eq_refl) as [o' [E' H']]. rewrite E' in *. cbn [bind].
  split; [|split; [|split]].
  - destruct o as [r|]; [split; [|reflexivity]; intros _; exists r; apply H1; reflexivity|].
    split; [discriminate|]. intros C. exfalso. apply H2; auto.
  - destruct o as [r|]; [split; [discriminate|]; intros C; exfalso; apply C; exists r; apply H1; reflexivity|].
    split; [|reflexivity]. intros _. apply H2. reflexivity.
  - destruct o' as [r|]; [split; [eauto | reflexivity]|]. split; [discriminate|]. intros C. exfalso. apply H4; auto.
  - destruct o' as [r|]; [split; [discriminate|]; intros C; exfalso; apply C; eauto|]. split; [|reflexivity]. intros _. apply H4. reflexivity.
Qed.

(** ** C44 *)
Theorem C44_bits : forall n, 0 <= n -> bt_bits n = bit_length n /\ n < 2 ^ bt_bits n /\ (0 < n -> 2 ^ (bt_bits n - 1) <= n).
Proof.
  intros n Hn. unfold bt_bits, bit_length. destruct (Z.eqb_spec n 0) as [->|H0].
  - split; [reflexivity|]. split; [reflexivity | lia].
  - destruct (Z.leb_spec n 0); [lia|]. pose proof (Z.log2_spec n ltac:(lia)) as HH.
    split; [reflexivity|]. split; [apply HH|]. intros _. replace (Z.log2 n + 1 - 1) with (Z.log2 n) by ring. apply HH.
Qed.
Theorem C44_bit_machine : forall pf w n i, 0 <= n < 2 ^ w -> 0 <= i < w ->
  bt_bit pf (U w) n i = Ret (Z.odd (n / 2 ^ i)).
Proof.
  intros pf w n i Hn Hi. unfold bt_bit, shl_.
  replace (0 <=? i) with true by (symmetry; apply Z.leb_le; lia).
  replace (i <? w) with true by (symmetry; apply Z.ltb_lt; lia). cbn [andb bind].
  rewrite Z.shiftl_1_l, Z.mod_small by (split; [apply Z.pow_nonneg; lia | apply Z.pow_lt_mono_r; lia]).
  rewrite land_pow2 by lia. rewrite <- Z.shiftr_div_pow2, <- Z.bit0_odd, Z.shiftr_spec, Z.add_0_l by lia.
  f_equal. destruct (Z.testbit n i); [|reflexivity]. apply Z.ltb_lt. apply Z.pow_pos_nonneg; lia.
Qed.
Theorem C44_bit_big : forall pf n i, 0 <= n -> 0 <= i -> bt_bit pf Big n i = Ret (Z.odd (n / 2 ^ i)).
Proof.
  intros pf n i Hn Hi. cbn [bt_bit]. rewrite <- Z.shiftr_div_pow2, <- Z.bit0_odd, Z.shiftr_spec, Z.add_0_l by lia. reflexivity.
Qed.
(** a position outside the type panics in debug builds *)
Theorem C44_bit_out_of_range : forall w n i, w <= i -> bt_bit Debug (U w) n i = Panic.
Proof.
  intros w n i H. unfold bt_bit, shl_. replace (i <? w) with false by (symmetry; apply Z.ltb_ge; lia).
  rewrite andb_false_r. reflexivity.
Qed.
Theorem C44_trailing_zeros : forall t n, 0 < n ->
  0 <= bt_trailing_zeros t n /\ (2 ^ bt_trailing_zeros t n | n) /\ ~ (2 ^ (bt_trailing_zeros t n + 1) | n).
Proof.
  intros t n Hn. unfold bt_trailing_zeros. replace (n =? 0) with false by (symmetry; apply Z.eqb_neq; lia).
  destruct (ztz_spec n Hn) as [A [m [E [Hm _]]]]. split; [exact A|]. split.
  - exists m. rewrite E at 1. ring.
  - intros [k Hk]. rewrite Z.pow_add_r, Z.pow_1_r in Hk by lia.
    assert (E' : 2 ^ ztz n * m = 2 ^ ztz n * (2 * k)) by (rewrite <- E; lia).
    apply Z.mul_cancel_l in E'; [|apply Z.pow_nonzero; lia]. rewrite E', Z.odd_mul in Hm. discriminate.
Qed.
Theorem C44_trailing_zeros_0 : forall w, bt_trailing_zeros (U w) 0 = w /\ bt_trailing_zeros Big 0 = 0.
Proof. intros w. split; reflexivity. Qed.

(** ** Concrete cases *)
Example ex_sqrt_u64 : sqrt_exact_prim Debug 64 (4294967295 * 4294967295) = Ret (Some 4294967295).
Proof. vm_compute. reflexivity. Qed.
Example ex_sqrt_big : sqrt_exact_big BigTable Debug (123456789012345678901 ^ 2) = Ret (Some 123456789012345678901)
  /\ sqrt_exact_big BigTable Debug (123456789012345678901 ^ 2 + 8) = Ret None.
Proof. split; vm_compute; reflexivity. Qed.
Example ex_cbrt_bigint : cbrt_exact_bigint SmallTable Debug (- (12345678901 ^ 3)) = Ret (Some (-12345678901)).
Proof. vm_compute. reflexivity. Qed.
Example ex_root5 : nth_root_exact (-243) 5 = Ret (Some (-3)) /\ is_nth_power 244 5 = Ret false.
Proof. split; vm_compute; reflexivity. Qed.
Example ex_bits : bt_bits 255 = 8 /\ bt_bit Debug (U 8) 128 7 = Ret true /\ bt_trailing_zeros u64 96 = 5.
Proof. vmc. Qed.

Print Assumptions C41_sqrt_exact_machine.
Print Assumptions C41_sqrt_exact_negative.
Print Assumptions C41_sqrt_exact_zero_refuted.
Print Assumptions C42_sqrt_exact_biguint.
Print Assumptions C42_cbrt_exact_biguint.
Print Assumptions C42_sqrt_exact_bigint.
Print Assumptions C42_cbrt_exact_bigint.
Print Assumptions C43_nth_root_exact_nonneg.
Print Assumptions C43_nth_root_exact_odd_degree.
Print Assumptions C43_nth_root_exact_invalid.
Print Assumptions C43_is_square_is_cubic.
Print Assumptions C44_bits.
Print Assumptions C44_bit_machine.
Print Assumptions C44_bit_big.
Print Assumptions C44_bit_out_of_range.
Print Assumptions C44_trailing_zeros.
Print Assumptions C44_trailing_zeros_0.
