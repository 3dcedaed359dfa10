(** * Property C63: nth_prime_est with the floating point formulas.

    [L] and [X] are the platform's logarithm and exponential, accurate to a relative error of 2^-50. *)
From Coq Require Import Reals ZArith List Lia Lra Bool.
From Flocq Require Import Core BinarySingleNaN.
From Interval Require Import Tactic.
From Verif Require Import Base Tables Spec Ext NT PBase PTables MInteger PInteger MSieve MIsPrime PSieve PBuffer PropBuffer PIsPrime NTPhi MPi PPi PPi2 PropPi FArith MFloat PFloat PFloat2 PGram PropFloat SpecGram PZeta PZetaTab PGramR PGram2 PropGram PNthEst.
Local Open Scope Z_scope.

(** nth_prime_est at the type [t] as compiled *)
Definition nth_est (f : feature) (pf : profile) (t : ity) (fuel : Z) (L X : f64 -> f64) : Z -> res (option Z) :=
  nth_prime_est f pf t fuel (nth_float L t) (prime_pi_est f pf t (pi_float L t) (gram L X ZETA_LOG_TABLE t)).

(** the bisection ends inside the bracket, at the target or where the estimate crosses it *)
Theorem C63_crossing : forall f pf t fuel bounds pi_est n lo hi, nth_prime_bounds f t bounds n = Ret (Some (lo, hi)) ->
  0 <= lo < hi -> in_range t (2 * hi) -> (forall x, lo <= x <= hi -> exists v, pi_est x = Ret v) -> hi - lo < fuel ->
  exists r, nth_prime_est f pf t fuel bounds pi_est n = Ret (Some r) /\ lo <= r < hi /\
    (pi_est r = Ret n \/
     (r = lo \/ exists v, pi_est r = Ret v /\ v < n) /\ (r + 1 = hi \/ exists v, pi_est (r + 1) = Ret v /\ n < v)).
Proof.
  intros f pf t fuel bounds pi_est n lo hi Hb Hle Hs Hest Hf. unfold nth_prime_est. rewrite Hb. cbn [bind]. destruct (Z.eqb_spec lo hi) as [E|_]; [lia|].
  set (Q := fun o => exists r, o = Some r /\ lo <= r < hi /\ (pi_est r = Ret n \/
     (r = lo \/ exists v, pi_est r = Ret v /\ v < n) /\ (r + 1 = hi \/ exists v, pi_est (r + 1) = Ret v /\ n < v))).
  match goal with |- context [loop fuel ?g (lo, hi)] => assert (R : run False False Q (loop fuel g (lo, hi))) end.
  { apply (run_loop_measure _ _ False False (fun '(l, h) => (lo <= l /\ l < h /\ h <= hi) /\ (l = lo \/ exists v, pi_est l = Ret v /\ v < n) /\ (h = hi \/ exists v, pi_est h = Ret v /\ n < v)) Q (fun '(l, h) => h - l)); [lia | lia |].
    intros [l h] [[H1 [H2 H3]] [H4 H5]].
    rewrite sub_ok by (destruct t; cbn [in_range] in *; lia). cbn [bind]. destruct (Z.eqb_spec l (h - 1)) as [E|E].
    { cbn [run]. exists l. split; [reflexivity|]. split; [lia|]. right. split; [exact H4|]. replace (l + 1) with h by lia. exact H5. }
    rewrite add_ok by (destruct t; cbn [in_range] in *; lia). cbn [bind]. rewrite div_ok by lia. cbn [bind].
    pose proof (Z.div_mod (l + h) 2 ltac:(lia)). pose proof (Z.mod_pos_bound (l + h) 2 ltac:(lia)).
    destruct (Hest ((l + h) / 2) ltac:(lia)) as [v Ev]. rewrite Ev. cbn [bind]. destruct (Z.ltb_spec v n); [cbn [run]; split; [|lia]; split; [lia|]; split; [right; exists v; auto | exact H5]|].
    destruct (Z.ltb_spec n v); [cbn [run]; split; [|lia]; split; [lia|]; split; [exact H4 | right; exists v; auto]|]. cbn [run]. exists ((l + h) / 2). split; [reflexivity|]. split; [lia|]. left. rewrite Ev. f_equal. lia. }
  apply run_total in R. destruct R as [o [E [r [-> Hr]]]]. exists r. split; [exact E | exact Hr].
Qed.

(** it returns whenever twice the upper bound fits the type *)
Lemma bounds_ok : forall f t L n lo hi, ln_ok L -> 1 <= n < 2 ^ 128 -> nth_prime_bounds f t (nth_float L t) n = Ret (Some (lo, hi)) -> 0 <= lo <= hi /\ in_range t hi.
Proof.
  intros f t L n lo hi HL Hn Hb. destruct (Z.le_gt_cases n (table_len f)) as [H|H].
  - destruct (nth_prime_bounds_table f t (nth_float L t) n ltac:(rewrite small_len'; lia)) as [q [Hq [Hlt E]]]. rewrite E in Hb. unfold from_prim in Hb. destruct (in_rangeb t q) eqn:R; cbn in Hb; [|discriminate]. injection Hb as <- <-.
    apply in_rangeb_spec in R. split; [|exact R]. pose proof (prime_ge2 q (proj1 Hq)). lia.
  - destruct (C52_nth_prime_bounds_rounding L f t n HL ltac:(lia)) as [vl [vh [_ [_ [A E]]]]]. rewrite E in Hb. destruct (in_rangeb t (Zfloor vh)) eqn:R; [|discriminate]. injection Hb as <- <-. apply in_rangeb_spec in R. split; [lia | exact R].
Qed.
Theorem C63_nth_prime_est_returns : forall f pf t fuel L X n lo hi, ln_ok L -> exp_ok X -> valid_ity t -> 1 <= n < 2 ^ 128 ->
  nth_prime_bounds f t (nth_float L t) n = Ret (Some (lo, hi)) -> in_range t (2 * hi) -> hi < 2 ^ 128 -> hi < fuel ->
  exists r, nth_est f pf t fuel L X n = Ret (Some r) /\ lo <= r <= hi.
Proof.
  intros f pf t fuel L X n lo hi HL HX Ht Hn Hb H2 H128 Hf. destruct (bounds_ok f t L n lo hi HL Hn Hb) as [A B]. apply (C46_nth_prime_est_in_bracket f pf t fuel _ _ n lo hi); auto; [|lia].
  intros x Hx. destruct (pi_est_total f pf t L X x HL HX Ht) as [v [E _]]; [destruct t; cbn [in_range] in *; lia | lia|]. exists v. exact E.
Qed.
Lemma tl_upper : forall f, table_len f <= 1024.
Proof. destruct f; cbn; lia. Qed.
Lemma in_u : forall w x, 0 <= x < 2 ^ w -> in_rangeb (U w) x = true.
Proof. intros w x H. apply in_rangeb_spec. exact H. Qed.
(** real bounds of the two sides, in the four ranges of [overflows] *)
Lemma overflow_reals : forall w n, overflows w n -> (IZR (2 ^ (w - 1)) <= IZR n * r_nth_lo n - IZR n * tol)%R /\ (IZR n * r_nth_hi n + IZR n * tol < IZR (2 ^ w))%R /\ (3 <= IZR n * r_nth_hi n - IZR n * r_nth_lo n - 2 * (IZR n * tol))%R.
Proof.
  intros w n Ho. unfold overflows in Ho. assert (H55 : in128 n) by (unfold in128; lia). destruct (nth_order n H55) as [_ [O _]]. unfold tol.
  assert (W : (125000000 <= n)%Z -> (3 <= IZR n * r_nth_hi n - IZR n * r_nth_lo n - 2 * (IZR n * / 274877906944))%R).
  { intros Hn. assert (N : (125000000 <= IZR n)%R) by (apply IZR_le; exact Hn). assert (IZR n * (r_nth_lo n + / 1000000) <= IZR n * r_nth_hi n)%R by (apply Rmult_le_compat_l; lra). lra. }
  assert (P : forall a b, (a <= n <= b)%Z -> (IZR a <= IZR n <= IZR b)%R) by (intros a b H; split; apply IZR_le; lia).
  destruct Ho as [[-> Ho]|[[-> Ho]|[[-> Ho]|[-> Ho]]]]; repeat match goal with |- context [IZR (2 ^ ?e)%Z] => let z := eval vm_compute in (2 ^ e)%Z in change (2 ^ e)%Z with z end; pose proof (P _ _ Ho) as R; clear P O H55.
  - clear W. unfold r_nth_lo, r_nth_hi, r_f1, r_f2. destruct (Z.leb_spec 317200 n); [lia|]. destruct (Z.leb_spec 3520 n); [|lia]. destruct (Z.leb_spec 46254381 n); [lia|]. destruct (Z.leb_spec 8009824 n); [lia|]. destruct (Z.leb_spec 688383 n); [lia|]. destruct (Z.leb_spec 178974 n); [lia|]. destruct (Z.leb_spec 39017 n); [lia|]. destruct (Z.leb_spec 27076 n); [lia|].
    revert R. generalize (IZR n). intros r R. split; [interval with (i_bisect r, i_prec 60)|]. split; [interval with (i_bisect r, i_prec 60)|]. 
    assert (D : (4 / 10 <= (ln r + ln (ln r) - 5 / 10) - (ln r + ln (ln r) - 1 + (ln (ln r) - 21 / 10) / ln r))%R) by (assert ((ln (ln r) - 21 / 10) / ln r <= / 10)%R by (interval with (i_bisect r, i_prec 60)); lra).
    rewrite <- Rmult_minus_distr_l. assert (r * (4 / 10) <= r * ((ln r + ln (ln r) - 5 / 10) - (ln r + ln (ln r) - 1 + (ln (ln r) - 21 / 10) / ln r)))%R by (apply Rmult_le_compat_l; lra). lra.
  - specialize (W ltac:(lia)). split; [|split; [|exact W]]; clear W; unfold r_nth_lo, r_nth_hi, r_f3.
    + destruct (Z.leb_spec 317200 n); [|lia]. revert R. generalize (IZR n). intros r R. interval with (i_bisect r, i_prec 60).
    + destruct (Z.leb_spec 46254381 n); [|lia]. revert R. generalize (IZR n). intros r R. interval with (i_bisect r, i_prec 60).
  - specialize (W ltac:(lia)). split; [|split; [|exact W]]; clear W; unfold r_nth_lo, r_nth_hi, r_f3.
    + destruct (Z.leb_spec 317200 n); [|lia]. revert R. generalize (IZR n). intros r R. interval with (i_bisect r, i_prec 60).
    + destruct (Z.leb_spec 46254381 n); [|lia]. revert R. generalize (IZR n). intros r R. interval with (i_bisect r, i_prec 60).
  - specialize (W ltac:(lia)). split; [|split; [|exact W]]; clear W; unfold r_nth_lo, r_nth_hi, r_f3; repeat match type of R with context [IZR ?a] => match a with (_ * _)%Z => let z := eval vm_compute in a in change a with z in R end end.
    + destruct (Z.leb_spec 317200 n); [|lia]. revert R. generalize (IZR n). intros r R. interval with (i_bisect r, i_prec 60).
    + destruct (Z.leb_spec 46254381 n); [|lia]. revert R. generalize (IZR n). intros r R. interval with (i_bisect r, i_prec 60).
Qed.
(** The bisection adds the two ends of the interval in the target's type. For these n (the n-th prime lies
    in the upper half of the type) debug builds panic and release builds never return. *)
Theorem C63_overflow_refuted : forall f fuel w n L X, ln_ok L -> exp_ok X ->
  w = 16 /\ 4500 <= n <= 6200 \/ w = 32 /\ 125000000 <= n <= 200000000 \/
  w = 64 /\ 250000000000000000 <= n <= 420000000000000000 \/ w = 128 /\ 2300 * 10 ^ 33 <= n <= 3800 * 10 ^ 33 ->
  (1 <= fuel -> nth_est f Debug (U w) fuel L X n = Panic) /\ nth_est f Release (U w) fuel L X n = NoFuel.
Proof.
  intros f fuel w n L X HL HX Ho. change (overflows w n) in Ho. assert (Hw : 16 <= w) by (unfold overflows in Ho; lia). assert (H128 : in128 n) by (unfold overflows in Ho; unfold in128; lia). destruct (overflow_reals w n Ho) as [A [B C]].
  destruct (nth_float_spec L (U w) n HL H128) as [vl [vh [D [E [F [G _]]]]]]. apply near_bd in D, E.
  assert (B1 : 2 ^ (w - 1) <= Zfloor vl) by (apply Zfloor_lub; lra). assert (B2 : Zfloor vh < 2 ^ w) by (apply lt_IZR; eapply Rle_lt_trans; [apply Zfloor_lb | lra]).
  assert (B3 : Zfloor vl + 2 <= Zfloor vh). { assert (Zfloor vl + 2 < Zfloor vh + 1); [|lia]. apply lt_IZR. rewrite !plus_IZR. pose proof (Zfloor_lb vl). pose proof (Zfloor_ub vh). lra. }
  assert (N : nth_prime_bounds f (U w) (nth_float L (U w)) n = Ret (Some (Zfloor vl, Zfloor vh))).
  { rewrite bounds_float; [f_equal; apply G; cbn [in_range]; lia|]. pose proof (tl_upper f). unfold overflows in Ho. lia. }
  split; [apply (est_overflow f w fuel _ _ n _ _ ltac:(lia) N B1 B3 B2) | apply (est_overflow f w fuel _ _ n _ _ ltac:(lia) N B1 B3 B2)]; intros x Hx; apply half_est; assumption.
Qed.
(** nth_prime starts from this estimate, so it shares the defect *)
Theorem C63_nth_prime_overflow_refuted : forall f fuel fn fw k b n L X, ln_ok L -> exp_ok X -> 250000000000000000 <= n <= 420000000000000000 -> Z.of_nat (length (b_list b)) <= n ->
  (1 <= fuel -> nth_prime f Debug (nth_float L u64) (nth_est f Debug u64 fuel L X) fn fw (S k) b n = Panic) /\
  nth_prime f Release (nth_float L u64) (nth_est f Release u64 fuel L X) fn fw (S k) b n = NoFuel.
Proof.
  intros f fuel fn fw k b n L X HL HX Hn Hb. destruct (C63_overflow_refuted f fuel 64 n L X HL HX ltac:(lia)) as [A B]. change (U 64) with u64 in A, B.
  assert (E : forall pf est, nth_prime f pf (nth_float L u64) est fn fw (S k) b n = nth_prime_body f pf (nth_float L u64) est fn fw (prime_pi f pf (nth_float L u64) est fn fw k) b n) by reflexivity.
  split; intros; rewrite E; unfold nth_prime_body; (destruct (Z.ltb_spec n (Z.of_nat (length (b_list b)))); [lia|]); (destruct (Z.leb_spec n 4096); [lia|]); [rewrite A by assumption | rewrite B]; reflexivity.
Qed.
(** Below these ranges it does return. *)
Lemma small_reals : forall w n, 55 <= n -> w = 16 /\ 1 <= n <= 3300 \/ w = 32 /\ 1 <= n <= 100000000 \/ w = 64 /\ 1 <= n <= 200000000000000000 \/ w = 128 /\ 1 <= n <= 1900 * 10 ^ 33 ->
  (IZR n * r_nth_hi n + IZR n * tol < IZR (2 ^ (w - 1)))%R.
Proof.
  intros w n H55 Ho. assert (H128 : in128 n) by (unfold in128; lia). destruct (nth_order n H128) as [_ [_ O3]]. unfold tol.
  assert (S : forall h, (100 * n <= h)%Z -> (IZR n * r_nth_hi n + IZR n * / 274877906944 < IZR h)%R).
  { intros h Hh. apply IZR_le in Hh. rewrite mult_IZR in Hh. assert (55 <= IZR n)%R by (apply IZR_le; lia). assert (IZR n * r_nth_hi n <= IZR n * 99)%R by (apply Rmult_le_compat_l; lra). lra. }
  assert (P : forall a b, (a <= n <= b)%Z -> (IZR a <= IZR n <= IZR b)%R) by (intros a b H; split; apply IZR_le; lia).
  destruct Ho as [[-> Ho]|[[-> Ho]|[[-> Ho]|[-> Ho]]]]; repeat match goal with |- context [IZR (2 ^ ?e)%Z] => let z := eval vm_compute in (2 ^ e)%Z in change (2 ^ e)%Z with z end.
  - destruct (Z.le_gt_cases n 327) as [Q|Q]; [apply S; lia|]. clear S. unfold r_nth_hi, r_f1. destruct (Z.leb_spec 46254381 n); [lia|]. destruct (Z.leb_spec 8009824 n); [lia|]. destruct (Z.leb_spec 688383 n); [lia|]. destruct (Z.leb_spec 178974 n); [lia|]. destruct (Z.leb_spec 39017 n); [lia|]. destruct (Z.leb_spec 27076 n); [lia|].
    pose proof (P 327 3300 ltac:(lia)) as R. revert R. generalize (IZR n). intros r R. interval with (i_bisect r, i_prec 60).
  - destruct (Z.le_gt_cases n 21000000) as [Q|Q]; [apply S; lia|]. clear S. unfold r_nth_hi, r_f3. pose proof (P 21000000 100000000 ltac:(lia)) as R. destruct (Z.leb_spec 8009824 n); [|lia]. revert R. destruct (46254381 <=? n)%Z; generalize (IZR n); intros r R; interval with (i_bisect r, i_prec 60).
  - destruct (Z.le_gt_cases n 92000000000000000) as [Q|Q]; [apply S; lia|]. clear S. unfold r_nth_hi, r_f3. pose proof (P 92000000000000000 200000000000000000 ltac:(lia)) as R. destruct (Z.leb_spec 46254381 n); [|lia]. revert R. generalize (IZR n); intros r R; interval with (i_bisect r, i_prec 60).
  - destruct (Z.le_gt_cases n (1700 * 10 ^ 33)) as [Q|Q]; [apply S; lia|]. clear S. unfold r_nth_hi, r_f3. pose proof (P (1700 * 10 ^ 33) (1900 * 10 ^ 33) ltac:(lia)) as R. destruct (Z.leb_spec 46254381 n); [|lia].
    repeat match type of R with context [IZR ?a] => match a with (_ * _)%Z => let z := eval vm_compute in a in change a with z in R end end. revert R. generalize (IZR n); intros r R; interval with (i_bisect r, i_prec 60).
Qed.
Theorem C63_nth_prime_est_small : forall f pf fuel w n L X, ln_ok L -> exp_ok X -> 2 ^ w <= fuel ->
  w = 16 /\ 1 <= n <= 3300 \/ w = 32 /\ 1 <= n <= 100000000 \/ w = 64 /\ 1 <= n <= 200000000000000000 \/ w = 128 /\ 1 <= n <= 1900 * 10 ^ 33 ->
  exists lo r hi, nth_prime_bounds f (U w) (nth_float L (U w)) n = Ret (Some (lo, hi)) /\ nth_est f pf (U w) fuel L X n = Ret (Some r) /\ lo <= r <= hi.
Proof.
  intros f pf fuel w n L X HL HX Hf Ho. assert (Hv : valid_ity (U w)) by (cbn; lia). assert (P : 2 ^ w = 2 * 2 ^ (w - 1)) by (rewrite <- Z.pow_succ_r by lia; f_equal; lia).
  assert (K : exists lo hi, nth_prime_bounds f (U w) (nth_float L (U w)) n = Ret (Some (lo, hi)) /\ 0 <= hi < 2 ^ (w - 1)).
  { destruct (Z.le_gt_cases n (table_len f)) as [H|H].
    - destruct (nth_prime_bounds_table f (U w) (nth_float L (U w)) n ltac:(rewrite small_len'; lia)) as [q [Hq [Hlt E]]]. rewrite small_next in Hlt. pose proof (prime_ge2 q (proj1 Hq)).
      assert (32768 <= 2 ^ (w - 1)) by (change 32768 with (2 ^ 15); apply Z.pow_le_mono_r; lia). exists q, q. split; [|destruct f; lia]. apply C45_nth_prime_bounds_table; [rewrite small_len'; lia | exact Hq | cbn [in_range]; destruct f; lia].
    - assert (H128 : in128 n) by (unfold in128; destruct f; cbn in H; lia). destruct (nth_float_spec L (U w) n HL H128) as [vl [vh [D [E [F [G _]]]]]]. apply near_bd in E. rewrite bounds_float by exact H.
      assert (B2 : Zfloor vh < 2 ^ (w - 1)); [|exists (Zfloor vl), (Zfloor vh); split; [f_equal; apply G; cbn [in_range]; lia | lia]].
      apply lt_IZR. eapply Rle_lt_trans; [apply Zfloor_lb|]. eapply Rle_lt_trans; [apply E|]. apply small_reals; [unfold in128 in H128; lia | exact Ho]. }
  destruct K as [lo [hi [E B]]]. assert (H1 : 1 <= n < 2 ^ 128) by lia.
  assert (W : 2 ^ w <= 2 ^ 128) by (apply Z.pow_le_mono_r; lia).
  destruct (C63_nth_prime_est_returns f pf (U w) fuel L X n lo hi HL HX Hv H1 E) as [r [Er Hr]]; [cbn [in_range]; lia | lia | lia|]. exists lo, r, hi. auto.
Qed.

(** ** The hypotheses are met by concrete cases *)
Local Lemma ideal_x : exp_ok ideal_exp.
Proof. exact ideal_exp_ok. Qed.
Example C63_case : (exists lo r hi, nth_prime_bounds BigTable (U 32) (nth_float ideal_ln (U 32)) 1000000 = Ret (Some (lo, hi)) /\ nth_est BigTable Debug (U 32) (2 ^ 32) ideal_ln ideal_exp 1000000 = Ret (Some r) /\ lo <= r <= hi)
  /\ nth_est SmallTable Debug (U 32) (2 ^ 32) ideal_ln ideal_exp 150000000 = Panic /\ nth_est SmallTable Release (U 32) (2 ^ 32) ideal_ln ideal_exp 150000000 = NoFuel.
Proof.
  split; [apply C63_nth_prime_est_small; [apply ideal | apply ideal_x | lia | lia]|]. split; apply C63_overflow_refuted; try apply ideal; try apply ideal_x; lia.
Qed.
Example C63_crossing_case : nth_prime_est SmallTable Debug (U 32) 1000 (fun _ => Some (400, 800)) (fun x => Ret (x / 7)) 90 = Ret (Some 631).
Proof. vm_compute. reflexivity. Qed.

Print Assumptions C63_crossing.
Print Assumptions C63_nth_prime_est_returns.
Print Assumptions C63_overflow_refuted.
Print Assumptions C63_nth_prime_overflow_refuted.
Print Assumptions C63_nth_prime_est_small.
