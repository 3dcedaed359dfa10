(** * C66: the fixed points of prime_pi_test and nth_prime_test (src/buffer.rs:510-544). *)
From Coq Require Import ZArith Znumtheory List Lia Bool Reals Lra Uint63.
From Flocq Require Import Core.Raux.
From Interval Require Import Tactic.
From Verif Require Import Base Spec NT NTPhi PBase MInteger MSieve MIsPrime PSieve PBuffer PSprp PIsPrime PropBuffer MPi PPi PPi2 PropPi PExact FArith MFloat PFloat PFloatTab PGram PFloat2 PropFloat PPiVals PropBigPi.
Import ListNotations.
Local Open Scope Z_scope.
Local Notation V := Uint63.to_Z.

Lemma pi_point : forall x v, In (x, v) pi_points -> prime_count x = v.
Proof. intros x v H. exact (proj1 (Forall_forall _ _) pi_points_ok (x, v) H). Qed.
(** prime_pi_test, after any history of the buffer and for every profile, table and mathematical library. The counts
    themselves are computed by Legendre's formula (PPiVals.v). *)
Theorem C66_prime_pi_test : forall f pf L X fn fw fuel limit v, ln_ok L -> exp_ok X -> 2 ^ 20 <= fuel -> 2 ^ 64 <= fn -> 2 ^ 64 <= fw ->
  In (limit, v) [(8161, 1024); (10000, 1229); (20000, 2262); (38873, 4096); (10 ^ 5, 9592); (10 ^ 6, 78498); (10 ^ 7, 664579); (10 ^ 8, 5761455)] ->
  exists k0, forall k ops b, (k0 <= k)%nat -> Forall (op_ok f (nth_float L u64)) ops -> history f pf (nth_float L u64) ops = Ret b ->
  exists b', prime_pi f pf (nth_float L u64) (float_est f pf fuel L X) fn fw k b limit = Ret (v, b').
Proof.
  intros f pf L X fn fw fuel limit v HL HX Hf Hfn Hfw Hin.
  assert (Q : prime_count limit = v /\ 0 <= limit < 1015810 * 1015810).
  { cbn [In] in Hin. change (10 ^ 5) with 100000 in Hin. change (10 ^ 6) with 1000000 in Hin. change (10 ^ 7) with 10000000 in Hin. change (10 ^ 8) with 100000000 in Hin.
    repeat (destruct Hin as [E|Hin]; [injection E as <- <-; split; [first [exact pi_million | apply pi_point; cbn [pi_points In]; tauto | apply big_point; cbn [pi_points2 In]; tauto] | split; [discriminate | reflexivity]]|]). destruct Hin. }
  destruct Q as [<- Q]. exact (C54_prime_pi f pf L X fn fw fuel limit HL HX Hf Hfn Hfw Q).
Qed.
Lemma nth_at : forall n p, In (p, n) (pi_points ++ pi_points2) -> In (p - 1, n - 1) (pi_points ++ pi_points2) -> 2 <= p -> nth_prime_is n p.
Proof.
  assert (P : forall x v, In (x, v) (pi_points ++ pi_points2) -> prime_count x = v).
  { intros x v H. apply in_app_or in H. destruct H as [H|H]; [exact (proj1 (Forall_forall _ _) pi_points_ok (x, v) H) | exact (big_point x v H)]. }
  intros n p A B Hp. apply P in A, B. split; [|exact A]. pose proof (pc_step (p - 1) ltac:(lia)) as S. replace (p - 1 + 1) with p in S by lia. apply primeb_spec. destruct (primeb p); [reflexivity | lia].
Qed.
(** ** nth_prime_test *)
Definition nth_prime_points : list (Z * Z) := [(10000, 104729); (20000, 224737); (10 ^ 5, 1299709); (10 ^ 6, 15485863); (10 ^ 7, 179424673)].
Lemma nth_prime_points_ok : forall n p, In (n, p) nth_prime_points -> nth_prime_is n p.
Proof.
  intros n p H. unfold nth_prime_points in H. change (10 ^ 5) with 100000 in H. change (10 ^ 6) with 1000000 in H. change (10 ^ 7) with 10000000 in H. cbn [In] in H.
  repeat (destruct H as [E|H]; [injection E as <- <-; apply nth_at; [cbn [pi_points pi_points2 app In]; tauto | cbn [pi_points pi_points2 app In Z.sub Z.add Z.opp Z.pos_sub Pos.pred_double Z.succ_double Z.pred_double Z.double]; tauto | discriminate]|]). destruct H.
Qed.
Lemma nth_prime_is_unique : forall n p q, nth_prime_is n p -> nth_prime_is n q -> p = q.
Proof. intros n p q A B. pose proof (nth_prime_mono n p n q A B ltac:(lia)). pose proof (nth_prime_mono n q n p B A ltac:(lia)). lia. Qed.
(** With the small table C76 covers every index. With the big table is_prime64 is not known to be exact above 2^20, but it is
    in the brackets of these three indices: it accepts as many numbers there as there are primes. *)
(** 1298893 passes Fermat's test, but not the strong test, to its base *)
Definition quick (x : int) : bool :=
  if (x =? 1298893)%uint63 then false else
  if (x land 1 =? 0)%uint63 then false else if (x mod 3 =? 0)%uint63 then false else if (x mod 5 =? 0)%uint63 then false else if (x mod 7 =? 0)%uint63 then false
  else if (x mod 11 =? 0)%uint63 then false else (powi 28 (nthi bases32 (hashi x) mod x) (x - 1) x 1 =? 1)%uint63.
Fixpoint accepts (k : nat) (x : int) (c : Z) : Z := match k with O => c | S k' => accepts k' (x + 1)%uint63 (if quick x then c + 1 else c) end.
Lemma hash28 : forall x, V x < 2 ^ 28 -> V (hashi x) = hash32 (V x).
Proof.
  intros x Hx. pose proof (to_Z_bounded x) as B. unfold hashi, hash32.
  rewrite land_spec', lxor_spec', lsr_spec. change (V 255) with 255. change (2 ^ V 16) with (2 ^ 16). rewrite <- Z.shiftr_div_pow2 by lia.
  set (h1 := (((x >> 16) lxor x) * 73244475)%uint63).
  assert (S1 : 0 <= Z.lxor (Z.shiftr (V x) 16) (V x) < 2 ^ 28).
  { apply lxor_small; [lia| |lia]. rewrite Z.shiftr_div_pow2 by lia. split; [apply Z.div_pos; lia|]. apply Z.div_lt_upper_bound; lia. }
  assert (E1 : V h1 = (Z.lxor (Z.shiftr (V x) 16) (V x) * 73244475) mod 2 ^ 64).
  { assert (Ex : V ((x >> 16) lxor x) = Z.lxor (Z.shiftr (V x) 16) (V x)) by (rewrite lxor_spec', lsr_spec; change (2 ^ V 16) with (2 ^ 16); rewrite <- Z.shiftr_div_pow2 by lia; reflexivity).
    unfold h1. rewrite imul; [| rewrite Ex; lia | reflexivity]. rewrite Ex. change (V 73244475) with 73244475. rewrite Z.mod_small by lia. reflexivity. }
  rewrite mul_spec, lxor_spec', lsr_spec. change (2 ^ V 16) with (2 ^ 16). change (V 73244475) with 73244475. rewrite <- Z.shiftr_div_pow2 by lia. rewrite E1. change wB with (2 ^ 63). apply low_bits.
Qed.
Lemma exception : z_is_prime64 BigTable 1298893 = false.
Proof. apply rejected_z; [reflexivity | vm_compute; reflexivity]. Qed.
Lemma quick_accepts : forall x, 10000 <= V x < 2 ^ 28 -> z_is_prime64 BigTable (V x) = true -> quick x = true.
Proof.
  intros x Hx E. pose proof E as E'. apply z_is_prime64_sound_partial in E. rewrite small_next in E. destruct (Z.ltb_spec (V x) (8167 - 1)) as [H|_]; [lia|]. destruct E as [Ho [Hw Hb]].
  assert (D : forall d : int, prime (V d) -> (V d | WHEEL_SIZE BigTable) -> (x mod d =? 0)%uint63 = false).
  { intros d Pd Wd. destruct (x mod d =? 0)%uint63 eqn:C; [|reflexivity]. exfalso. apply ieqb in C. rewrite mod_spec in C. change (V 0) with 0 in C. pose proof (prime_ge2 _ Pd). apply (Hw (V d) Pd Wd). apply Z.mod_divide; [lia | exact C]. }
  unfold quick. destruct (x =? 1298893)%uint63 eqn:C0.
  { exfalso. apply ieqb in C0. change (V x = 1298893) in C0. rewrite C0, exception in E'. discriminate E'. }
  destruct (x land 1 =? 0)%uint63 eqn:C1.
  { exfalso. apply ieqb in C1. rewrite iland1 in C1. change (V 0) with 0 in C1. rewrite Zmod_even in C1. rewrite <- Z.negb_even in Ho. destruct (Z.even (V x)); [discriminate Ho | discriminate C1]. }
  rewrite (D 3%uint63 prime_3 ltac:(apply Z.mod_divide; [vm_compute; discriminate | vm_compute; reflexivity])), (D 5%uint63 ltac:(apply (proj1 (primeb_spec 5)); vm_compute; reflexivity) ltac:(apply Z.mod_divide; [vm_compute; discriminate | vm_compute; reflexivity])),
    (D 7%uint63 ltac:(apply (proj1 (primeb_spec 7)); vm_compute; reflexivity) ltac:(apply Z.mod_divide; [vm_compute; discriminate | vm_compute; reflexivity])), (D 11%uint63 ltac:(apply (proj1 (primeb_spec 11)); vm_compute; reflexivity) ltac:(apply Z.mod_divide; [vm_compute; discriminate | vm_compute; reflexivity])).
  apply ieqb. change (V 1) with 1. pose proof (to_Z_bounded (nthi bases32 (hashi x))) as Bb.
  assert (E : V (x - 1) = V x - 1) by (rewrite sub_spec; change (V 1) with 1; apply Z.mod_small; change wB with (2 ^ 63); lia).
  assert (Eb : V (nthi bases32 (hashi x)) = base32 (V x)) by (rewrite nthi_spec, bases32_eq, hash28 by lia; unfold base32; reflexivity).
  rewrite powi_spec; [| lia | rewrite imod; apply Z.mod_pos_bound; lia | change (V 1) with 1; lia | rewrite E; change (Z.of_nat 28) with 28; lia].
  change (V 1) with 1. rewrite Z.mul_1_l, E, imod, <- pow_mod_l, Eb by lia. apply strong_fermat; [lia|]. apply Hb. unfold miller_bases. replace (V x <? 2 ^ 32) with true by (symmetry; apply Z.ltb_lt; lia). left. reflexivity.
Qed.
Lemma accepts_exact : forall k x c, 10000 <= V x -> V x + Z.of_nat k < 2 ^ 28 ->
  c + (prime_count (V x + Z.of_nat k - 1) - prime_count (V x - 1)) <= accepts k x c /\
  (accepts k x c <= c + (prime_count (V x + Z.of_nat k - 1) - prime_count (V x - 1)) -> sound_on BigTable (V x) (V x + Z.of_nat k - 1)).
Proof.
  induction k as [|k IH]; intros x c Hm Hk; cbn [accepts].
  - change (Z.of_nat 0) with 0. rewrite Z.add_0_r. split; [lia|]. intros _ y Hy. lia.
  - rewrite Nat2Z.inj_succ in *. assert (E1 : V (x + 1) = V x + 1) by (rewrite add_spec; change (V 1) with 1; apply Z.mod_small; change wB with (2 ^ 63); lia).
    replace (V x + Z.succ (Z.of_nat k) - 1) with (V x + 1 + Z.of_nat k - 1) by lia.
    pose proof (pc_step (V x - 1) ltac:(lia)) as S. replace (V x - 1 + 1) with (V x) in S by lia. specialize (IH (x + 1)%uint63 (if quick x then c + 1 else c) ltac:(lia) ltac:(lia)). rewrite E1 in IH. replace (V x + 1 - 1) with (V x) in IH by lia. destruct IH as [I1 I2].
    assert (Q : primeb (V x) = true -> quick x = true) by (intros P; apply quick_accepts; [lia|]; apply z_is_prime64_complete, primeb_spec, P).
    destruct (primeb (V x)) eqn:P.
    + rewrite (Q eq_refl) in *. split; [lia|]. intros H y Hy E. destruct (Z.eq_dec y (V x)) as [->|]; [apply primeb_spec, P|]. apply I2; [lia | lia | exact E].
    + destruct (quick x) eqn:Qm; [split; [lia | intros H; lia]|]. split; [lia|]. intros H y Hy E. destruct (Z.eq_dec y (V x)) as [->|]; [apply quick_accepts in E; [congruence | lia]|]. apply I2; [lia | lia | exact E].
Qed.
(** (index, prime below the bracket, end of the bracket) *)
Definition windows : list (Z * Z * Z) := [(100000, 1298617, 1300804); (1000000, 15480137, 15486603); (10000000, 179418667, 179438847)].
Lemma windows_sound : Forall (fun '(n, a, b) => prime a /\ sound_on BigTable a b) windows.
Proof.
  assert (P : forall x v, In (x, v) pi_points2 -> prime_count x = v) by exact big_point.
  assert (G : forall k x a b u v, V x = a -> 10000 <= a -> b < 2 ^ 28 - 1 -> a + Z.of_nat k - 1 = b -> In (a - 1, u) pi_points2 -> In (b, v) pi_points2 -> z_is_prime64 BigTable a = true -> accepts k x 0 = v - u -> (1 <= k)%nat -> prime a /\ sound_on BigTable a b).
  { intros k x a b u v Ex Ha Hb E Hu Hv Q Hk K1. apply P in Hu, Hv. destruct (accepts_exact k x 0 ltac:(lia) ltac:(lia)) as [_ H]. rewrite Ex, E, Hu, Hv in H. specialize (H ltac:(lia)).
    split; [|exact H]. apply H; [lia | exact Q]. }
  assert (Z64 : forall m, m < 2 ^ 64 -> is_prime64 BigTable Debug m = Ret true -> z_is_prime64 BigTable m = true) by (intros m Hm E; rewrite is_prime64_law in E by exact Hm; injection E as E; exact E).
  unfold windows. constructor; [|constructor; [|constructor; [|constructor]]].
  - apply (G (Z.to_nat 2188) 1298617%uint63 1298617 1300804 99923 100079); [reflexivity | lia | lia | reflexivity | change (1298617 - 1) with 1298616; cbn [pi_points2 In]; tauto | cbn [pi_points2 In]; tauto | apply Z64; [lia | vm_compute; reflexivity] | vm_compute; reflexivity | lia].
  - apply (G (Z.to_nat 6467) 15480137%uint63 15480137 15486603 999661 1000044); [reflexivity | lia | lia | reflexivity | change (15480137 - 1) with 15480136; cbn [pi_points2 In]; tauto | cbn [pi_points2 In]; tauto | apply Z64; [lia | vm_compute; reflexivity] | vm_compute; reflexivity | lia].
  - apply (G (Z.to_nat 20181) 179418667%uint63 179418667 179438847 9999677 10000751); [reflexivity | lia | lia | reflexivity | change (179418667 - 1) with 179418666; cbn [pi_points2 In]; tauto | cbn [pi_points2 In]; tauto | apply Z64; [lia | vm_compute; reflexivity] | vm_compute; reflexivity | lia].
Qed.
Lemma window_bounds : forall n a b, In (n, a, b) windows -> (IZR (a + 2) <= IZR n * r_nth_lo n /\ IZR n * r_nth_hi n <= IZR (b - 2))%R.
Proof.
  intros n a b H. unfold windows in H. cbn [In] in H. destruct H as [E|[E|[E|[]]]]; injection E as <- <- <-; unfold r_nth_lo, r_nth_hi; cbn [Z.leb Z.compare Pos.compare Pos.compare_cont Z.add Z.sub Z.opp Z.pos_sub Pos.add Pos.succ Pos.pred_double Z.succ_double Z.pred_double Z.double];
    unfold r_f1, r_f2, r_f3; split; interval with (i_prec 60).
Qed.
Lemma window_est : forall pf L X fuel n a b, ln_ok L -> exp_ok X -> 2 ^ 32 <= fuel -> In (n, a, b) windows ->
  exists e, float_est BigTable pf fuel L X n = Ret (Some e) /\ a < e <= b.
Proof.
  intros pf L X fuel n a b HL HX Hf Hin. pose proof (window_bounds n a b Hin) as [W1 W2].
  assert (R : 100000 <= n <= 10000000 /\ 0 < a < 2 ^ 28 /\ b < 2 ^ 28).
  { unfold windows in Hin. cbn [In] in Hin. destruct Hin as [E|[E|[E|[]]]]; injection E as <- <- <-; lia. }
  destruct (C52_nth_prime_bounds_rounding L BigTable u64 n HL ltac:(cbn [table_len]; lia)) as [vl [vh [A [B [C D]]]]]. apply Rabs_bd in A, B.
  assert (T : (0 <= IZR n / 2 ^ 38 <= 1)%R) by (assert (100000 <= IZR n <= 10000000)%R by (split; apply IZR_le; lia); lra).
  rewrite plus_IZR in W1. rewrite minus_IZR in W2. 
  assert (L1 : a < Zfloor vl) by (apply Z.lt_le_trans with (a + 1); [lia|]; apply Zfloor_lub; rewrite plus_IZR; lra).
  assert (H1 : Zfloor vh <= b) by (apply le_IZR; apply Rle_trans with vh; [apply Zfloor_lb | lra]).
  rewrite (proj2 (in_rangeb_spec u64 (Zfloor vh))) in D by (cbn; lia).
  destruct (C46_nth_prime_est_in_bracket BigTable pf u64 fuel (nth_float L u64) (prime_pi_est BigTable pf u64 (pi_float L u64) (gram L X ZETA_LOG_TABLE u64)) n (Zfloor vl) (Zfloor vh)) as [r [E Hr]];
    [exact D | lia | change (0 <= 2 * Zfloor vh < 2 ^ 64); lia | intros x Hx; apply pi_est_ok; auto; lia | lia|].
  exists r. split; [exact E | lia].
Qed.
Lemma windows_index : forall n p, In (n, p) nth_prime_points -> n <= 79667 \/ exists a b, In (n, a, b) windows /\ a <= p <= b.
Proof.
  intros n p H. unfold nth_prime_points in H. change (10 ^ 5) with 100000 in H. change (10 ^ 6) with 1000000 in H. change (10 ^ 7) with 10000000 in H. cbn [In] in H.
  destruct H as [E|[E|[E|[E|[E|[]]]]]]; injection E as <- <-; try (left; lia); right; [exists 1298617, 1300804 | exists 15480137, 15486603 | exists 179418667, 179438847]; (split; [unfold windows; cbn [In]; tauto | lia]).
Qed.
Lemma points_range : forall n p, In (n, p) nth_prime_points -> 1 <= n <= 203236859.
Proof.
  intros n p Hin. unfold nth_prime_points in Hin. cbn [In] in Hin. repeat (destruct Hin as [E|Hin]; [injection E as <- _; split; vm_compute; discriminate|]). destruct Hin.
Qed.
Theorem C66_nth_prime_test : forall f pf L X fn fw fuel n p, ln_ok L -> exp_ok X -> 2 ^ 32 <= fuel -> 2 ^ 64 <= fn -> 2 ^ 64 <= fw ->
  In (n, p) [(10000, 104729); (20000, 224737); (10 ^ 5, 1299709); (10 ^ 6, 15485863); (10 ^ 7, 179424673)] ->
  exists k0, forall k ops b, (k0 <= k)%nat -> Forall (op_ok f (nth_float L u64)) ops -> history f pf (nth_float L u64) ops = Ret b ->
  exists b', nth_prime f pf (nth_float L u64) (float_est f pf fuel L X) fn fw k b n = Ret (p, b').
Proof.
  intros f pf L X fn fw fuel n p HL HX Hf Hfn Hfw Hin. change (In (n, p) nth_prime_points) in Hin. pose proof (nth_prime_points_ok n p Hin) as N. pose proof (points_range n p Hin) as Hn.
  assert (G : (exists k0, forall k ops b, (k0 <= k)%nat -> Forall (op_ok f (nth_float L u64)) ops -> history f pf (nth_float L u64) ops = Ret b ->
    exists q b', nth_prime f pf (nth_float L u64) (float_est f pf fuel L X) fn fw k b n = Ret (q, b') /\ nth_prime_is n q)).
  2:{ destruct G as [k0 K]. exists k0. intros k ops b Hk Hops Hh. destruct (K k ops b Hk Hops Hh) as [q [b' [E Q]]]. exists b'. rewrite E, (nth_prime_is_unique n p q N Q). reflexivity. }
  destruct f; [|apply C76_nth_prime; auto]. destruct (windows_index n p Hin) as [Hs|[a [b [Hw Hp]]]]; [apply C54_nth_prime; auto; lia|].
  destruct (proj1 (Forall_forall _ _) windows_sound _ Hw) as [Pa Sa]. destruct (window_est pf L X fuel n a b HL HX Hf Hw) as [e [Ee He]].
  assert (R : 4096 < n /\ b < 2 ^ 28 /\ 2 <= a). { unfold windows in Hw. cbn [In] in Hw. destruct Hw as [E|[E|[E|[]]]]; injection E as <- <- <-; lia. }
  pose proof (C54_estimates_ok BigTable pf L X fuel HL HX ltac:(lia)) as O. pose proof (estimates_reach _ _ _ _ _ O) as Rch.
  destruct (nth_total_at BigTable pf (nth_float L u64) (float_est BigTable pf fuel L X) fn fw Hfn Hfw 79667 Rch ltac:(intros i e' Hi; apply est_square; auto; lia) n ltac:(lia)) as [k0 H].
  - split; [lia|]. intros _. exists e, p, a. split; [exact Ee|]. split; [lia|]. split; [exact N|]. split; [lia|]. split; [exact Pa|]. split; [lia|]. split; [lia|]. split; intros m Hm; apply Sa; lia.
  - intros e' _ E'. rewrite Ee in E'. injection E' as <-. apply sqrt_1015809. lia.
  - exists k0. intros k ops b0 Hk Hops Hh. pose proof (H k Hk b0 (history_inv BigTable pf (nth_float L u64) ops b0 Hops Hh)) as R0. apply run_total in R0. destruct R0 as [[q b'] [E [Hq _]]]. exists q, b'. auto.
Qed.
Example C66_case_pi : prime_count 38873 = 4096 /\ prime_count (10 ^ 8) = 5761455 /\ nth_prime_is (10 ^ 7) 179424673 /\ ln_ok ideal_ln /\ exp_ok ideal_exp.
Proof.
  split; [apply pi_point; cbn [pi_points In]; tauto|]. split; [apply big_point; change (10 ^ 8) with 100000000; cbn [pi_points2 In]; tauto|].
  split; [|split; [apply ideal_ln_ok | apply ideal_exp_ok]]. apply nth_prime_points_ok. unfold nth_prime_points. cbn [In]. tauto.
Qed.

Print Assumptions C66_prime_pi_test.
Print Assumptions C66_nth_prime_test.
