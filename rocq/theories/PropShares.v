(** * C71: which draws make gen_prime and gen_prime_exact return a given prime. *)
From Coq Require Import ZArith Znumtheory List Lia Bool.
From Verif Require Import Base Spec NT PBase PIsPrime NTPock NTRabin PRand MInteger MIsPrime MRand PropIsPrime PropRand PropSmall.
Import ListNotations.
Local Open Scope Z_scope.

Lemma lor_one : forall v, 0 <= v -> Z.lor v 1 = 2 * (v / 2) + 1.
Proof.
  intros v Hv. apply Z.bits_inj'. intros k Hk. rewrite Z.lor_spec. destruct (Z.eq_dec k 0) as [->|Nk].
  - rewrite !Z.bit0_odd. rewrite Z.odd_add, Z.odd_mul. cbn. apply orb_true_r.
  - replace k with (Z.succ (k - 1)) by lia. rewrite Z.testbit_odd_succ by lia. rewrite <- Z.div2_div, Z.div2_spec, Z.shiftr_spec by lia.
    replace (k - 1 + 1) with (Z.succ (k - 1)) by lia. replace (Z.testbit 1 (Z.succ (k - 1))) with false; [apply orb_false_r|]. symmetry. apply (Z.bits_above_log2 1); cbn; lia.
Qed.
Lemma lor_top : forall b v, 1 <= b -> 0 <= v < 2 ^ b -> Z.lor v (2 ^ (b - 1)) = v mod 2 ^ (b - 1) + 2 ^ (b - 1).
Proof.
  intros b v Hb Hv. assert (P : 0 < 2 ^ (b - 1)) by (apply Z.pow_pos_nonneg; lia). assert (Pb : 2 ^ b = 2 * 2 ^ (b - 1)) by (rewrite <- Z.pow_succ_r by lia; f_equal; lia).
  pose proof (Z.mod_pos_bound v (2 ^ (b - 1)) P) as Bm.
  assert (D : Z.land (v mod 2 ^ (b - 1)) (2 ^ (b - 1)) = 0).
  { apply Z.bits_inj'. intros k Hk. rewrite Z.land_spec, Z.bits_0, Z.pow2_bits_eqb by lia. destruct (Z.eqb_spec (b - 1) k) as [<-|]; [|apply andb_false_r]. rewrite Z.mod_pow2_bits_high by lia. reflexivity. }
  rewrite (Z.add_nocarry_lxor _ _ D), Z.lxor_lor by exact D. apply Z.bits_inj'. intros k Hk. rewrite !Z.lor_spec, Z.pow2_bits_eqb by lia.
  destruct (Z.eqb_spec (b - 1) k) as [<-|Nk]; [rewrite !orb_true_r; reflexivity|]. rewrite !orb_false_r. destruct (Z.lt_ge_cases k (b - 1)); [rewrite Z.mod_pow2_bits_low by lia; reflexivity|].
  rewrite (Z.mod_pow2_bits_high v) by lia. destruct (Z.eq_dec v 0) as [->|]; [apply Z.bits_0|]. apply Z.bits_above_log2; [lia|]. apply Z.log2_lt_pow2; [lia|]. eapply Z.lt_le_trans; [apply Hv|]. apply Z.pow_le_mono_r; lia.
Qed.

(** the draw that counts: with [exact] the top bit of [x] is set *)
Lemma shaped_flat : forall w b (exact : bool) x, 1 <= b <= w -> 0 <= x < 2 ^ w ->
  let y := if exact then x mod 2 ^ (w - 1) + 2 ^ (w - 1) else x in
  0 <= y < 2 ^ w /\ shaped w b exact x = 2 * (y / 2 ^ (w - b) / 2) + 1.
Proof.
  intros w b exact x Hb Hx y. assert (P1 : 0 < 2 ^ (w - b)) by (apply Z.pow_pos_nonneg; lia). assert (P2 : 0 < 2 ^ (b - 1)) by (apply Z.pow_pos_nonneg; lia). assert (P3 : 0 < 2 ^ (w - 1)) by (apply Z.pow_pos_nonneg; lia).
  assert (Pw : 2 ^ w = 2 * 2 ^ (w - 1)) by (rewrite <- Z.pow_succ_r by lia; f_equal; lia). assert (Pk : 2 ^ (w - 1) = 2 ^ (w - b) * 2 ^ (b - 1)) by (rewrite <- Z.pow_add_r by lia; f_equal; lia).
  assert (Hd : 0 <= x / 2 ^ (w - b) < 2 ^ b). { split; [apply Z.div_pos; lia|]. apply Z.div_lt_upper_bound; [lia|]. rewrite <- Z.pow_add_r by lia. replace (w - b + b) with w by lia. lia. }
  unfold shaped. destruct exact; unfold y.
  - pose proof (Z.mod_pos_bound x (2 ^ (w - 1)) P3). split; [lia|]. rewrite <- Z.lor_assoc, (Z.lor_comm 1), Z.lor_assoc, lor_top by (try exact Hd; lia). rewrite lor_one by (pose proof (Z.mod_pos_bound (x / 2 ^ (w - b)) (2 ^ (b - 1)) P2); lia).
    do 3 f_equal. rewrite Pk. rewrite Z.rem_mul_r by lia. set (m := (x / 2 ^ (w - b)) mod 2 ^ (b - 1)).
    replace (x mod 2 ^ (w - b) + 2 ^ (w - b) * m + 2 ^ (w - b) * 2 ^ (b - 1)) with (x mod 2 ^ (w - b) + (m + 2 ^ (b - 1)) * 2 ^ (w - b)) by ring.
    rewrite Z.div_add, Z.div_small by (try apply Z.mod_pos_bound; lia). reflexivity.
  - split; [lia|]. rewrite Z.lor_0_r. apply lor_one. lia.
Qed.

Lemma prime_form : forall p, prime p -> 3 <= p -> exists c, p = 2 * c + 1.
Proof.
  intros p Pp Hp. exists (p / 2). pose proof (Z.div_mod p 2 ltac:(lia)) as D. pose proof (Z.mod_pos_bound p 2 ltac:(lia)) as B. destruct (Z.eq_dec (p mod 2) 0) as [E|]; [|lia].
  exfalso. apply prime_alt in Pp. destruct Pp as [_ Pp]. apply (Pp 2); [lia|]. exists (p / 2). lia.
Qed.
Section Share.
Variables (f : feature) (pf : profile) (lf : nat) (fuel w b : Z) (dr : draws).
Hypotheses (Hw : valid_ity (U w)) (Hw64 : w <= 64) (Hb : 1 <= b <= w) (Hlf : Z.of_nat lf <= 2 ^ 31).

Lemma one_round : forall exact p x, prime p -> p < 2 ^ w -> p < fuel -> f = BigTable \/ p <> 257 -> 0 <= x < 2 ^ w ->
  (forall n, shaped w b exact x <= n < p -> is_prime64 f pf n = Ret false) ->
  (gen_prime_prim f pf lf fuel w exact b (x :: dr) = Ret (p, dr) <-> shaped w b exact x <= p).
Proof.
  intros exact p x Pp Hp Hfuel Hg Hx Hn. pose proof (prime_ge2 p Pp) as Hp2. pose proof (shaped_bounds w b exact x Hb Hx) as [_ [Ht _]]. pose proof (Z.mod_small x (2 ^ w) Hx) as Em. split.
  - intros E. pose proof (gen_prime_prim_spec f pf lf fuel w Hw Hw64 Hlf b exact (x :: dr) Hb) as R. rewrite E in R. cbn [run gen_post] in R. destruct R as [pre [x' [Ed R]]].
    assert (pre = []) as -> by (destruct pre as [|z pre]; [reflexivity|]; exfalso; injection Ed as _ Ed; apply (f_equal (@length Z)) in Ed; rewrite app_length in Ed; cbn in Ed; lia).
    injection Ed as <-. rewrite Em in R. lia.
  - intros Hs. assert (K : ~ (f = SmallTable /\ 252 <= shaped w b exact x <= 255)).
    { intros [Ef K]. destruct Hg as [C|C]; [congruence|]. destruct (Z.lt_ge_cases p 257) as [Hl|Hl].
      - assert (p = 252 \/ p = 253 \/ p = 254 \/ p = 255 \/ p = 256) as D by lia. assert (Q : forall a, 1 < a < p -> ~ (a | p)) by (intros a Ha; apply prime_alt in Pp; destruct Pp as [_ Pp]; apply Pp; lia).
        destruct D as [D | [D | [D | [D | D]]]]; rewrite D in *; first [apply (Q 2); [lia | exists 126; lia] | apply (Q 11); [lia | exists 23; lia] | apply (Q 2); [lia | exists 127; lia] | apply (Q 5); [lia | exists 51; lia] | apply (Q 2); [lia | exists 128; lia]].
      - assert (H257 : is_prime64 f pf 257 = Ret true) by (apply C10_is_prime64_accepts_primes; [small_prime | lia]). rewrite Hn in H257 by lia. discriminate. }
    destruct (gen_prime_prim_returns f pf lf fuel w Hw Hw64 b exact x dr p Hb) as [r [E Hr]]; try assumption; try (rewrite Em; assumption); try (rewrite Em; lia). rewrite Em in Hr.
    destruct (Z.eq_dec r p) as [->|N]; [exact E|]. exfalso. pose proof (gen_prime_prim_spec f pf lf fuel w Hw Hw64 Hlf b exact (x :: dr) Hb) as R. rewrite E in R. cbn [run gen_post] in R. destruct R as [pre [x' [_ [_ [R _]]]]].
    specialize (Hn r ltac:(lia)). rewrite is_prime64_law in Hn by (assert (2 ^ w <= 2 ^ 64) by (apply Z.pow_le_mono_r; lia); lia). congruence.
Qed.
End Share.

(** [q] and [p] are consecutive for the primality test. One draw [x] yields [p] exactly when its top [b] bits
    lie above [q] and not above [p]: the share of a prime is the gap below it. *)
Theorem C71_share : forall f pf lf fuel w b dr q p x, valid_ity (U w) -> w <= 64 -> 1 <= b <= w -> Z.of_nat lf <= 2 ^ 31 ->
  prime q -> prime p -> 3 <= q < p -> p < 2 ^ w -> p < fuel -> f = BigTable \/ p <> 257 -> (forall n, q < n < p -> is_prime64 f pf n = Ret false) -> 0 <= x < 2 ^ w ->
  (gen_prime_prim f pf lf fuel w false b (x :: dr) = Ret (p, dr) <-> (q + 1) * 2 ^ (w - b) <= x < (p + 1) * 2 ^ (w - b)) /\
  (gen_prime_prim f pf lf fuel w true b (x :: dr) = Ret (p, dr) <-> (q + 1) * 2 ^ (w - b) <= x mod 2 ^ (w - 1) + 2 ^ (w - 1) < (p + 1) * 2 ^ (w - b)).
Proof.
  intros f pf lf fuel w b dr q p x Hw Hw64 Hb Hlf Pq Pp Hqp Hp Hfuel Hg Hn Hx.
  assert (Oq : exists c, q = 2 * c + 1) by (apply prime_form; [exact Pq | lia]). assert (Op : exists c, p = 2 * c + 1) by (apply prime_form; [exact Pp | lia]).
  assert (P1 : 0 < 2 ^ (w - b)) by (apply Z.pow_pos_nonneg; lia).
  assert (G : forall exact : bool, let y := if exact then x mod 2 ^ (w - 1) + 2 ^ (w - 1) else x in
    gen_prime_prim f pf lf fuel w exact b (x :: dr) = Ret (p, dr) <-> (q + 1) * 2 ^ (w - b) <= y < (p + 1) * 2 ^ (w - b)).
  { intros exact y. destruct (shaped_flat w b exact x Hb Hx) as [Hy Et]. fold y in Hy, Et. set (t := shaped w b exact x) in *.
    assert (Iv : q < t <= p <-> (q + 1) * 2 ^ (w - b) <= y < (p + 1) * 2 ^ (w - b)).
    { pose proof (Z.div_mod y (2 ^ (w - b)) ltac:(lia)) as D1. pose proof (Z.mod_pos_bound y (2 ^ (w - b)) P1) as B1. set (v := y / 2 ^ (w - b)) in *.
      pose proof (Z.div_mod v 2 ltac:(lia)) as D2. pose proof (Z.mod_pos_bound v 2 ltac:(lia)) as B2. destruct Oq as [cq Oq]. destruct Op as [cp Op].
      assert (V : q < t <= p <-> q + 1 <= v < p + 1) by lia. rewrite V. clear V Et. split; intros H; nia. }
    rewrite <- Iv. destruct (Z.lt_ge_cases q t) as [Hqt|Hqt].
    - rewrite (one_round f pf lf fuel w b dr Hw Hw64 Hb Hlf exact p x Pp Hp Hfuel Hg Hx); [fold t; lia|]. intros n H. apply Hn. fold t in H. lia.
    - split; [|lia]. intros E. exfalso. pose proof (gen_prime_prim_spec f pf lf fuel w Hw Hw64 Hlf b exact (x :: dr) Hb) as R. rewrite E in R. cbn [run gen_post] in R. destruct R as [pre [x' [Ed [_ [_ R]]]]].
      assert (pre = []) as -> by (destruct pre as [|z pre]; [reflexivity|]; exfalso; injection Ed as _ Ed; apply (f_equal (@length Z)) in Ed; rewrite app_length in Ed; cbn in Ed; lia).
      injection Ed as <-. rewrite (Z.mod_small x (2 ^ w) Hx) in R. apply (R q Pq). fold t. lia. }
  split; [apply (G false) | apply (G true)].
Qed.
(** So [p] gets exactly (p - q) * 2^(w-b) of the 2^w first draws, and twice as many with gen_prime_exact. *)
Lemma interval_list : forall lo n, 0 <= n -> exists l : list Z, NoDup l /\ (forall x, In x l <-> lo <= x < lo + n) /\ Z.of_nat (length l) = n.
Proof.
  intros lo n Hn. exists (map (fun i => lo + Z.of_nat i) (seq 0 (Z.to_nat n))). split; [|split].
  - apply FinFun.Injective_map_NoDup; [intros i j E; lia | apply seq_NoDup].
  - intros x. rewrite in_map_iff. split; [intros [i [<- Hi]]; apply in_seq in Hi; lia|]. intros H. exists (Z.to_nat (x - lo)). split; [lia|]. apply in_seq. lia.
  - rewrite map_length, seq_length. lia.
Qed.
Theorem C71_count : forall f pf lf fuel w b dr q p, valid_ity (U w) -> w <= 64 -> 1 <= b <= w -> Z.of_nat lf <= 2 ^ 31 ->
  prime q -> prime p -> 3 <= q < p -> p < 2 ^ b -> p < fuel -> f = BigTable \/ p <> 257 -> (forall n, q < n < p -> is_prime64 f pf n = Ret false) ->
  (exists l, NoDup l /\ (forall x, In x l <-> 0 <= x < 2 ^ w /\ gen_prime_prim f pf lf fuel w false b (x :: dr) = Ret (p, dr)) /\
     Z.of_nat (length l) = (p - q) * 2 ^ (w - b)) /\
  (2 ^ (b - 1) <= q -> exists l, NoDup l /\ (forall x, In x l <-> 0 <= x < 2 ^ w /\ gen_prime_prim f pf lf fuel w true b (x :: dr) = Ret (p, dr)) /\
     Z.of_nat (length l) = 2 * (p - q) * 2 ^ (w - b)).
Proof.
  intros f pf lf fuel w b dr q p Hw Hw64 Hb Hlf Pq Pp Hqp Hp Hfuel Hg Hn. assert (P1 : 0 < 2 ^ (w - b)) by (apply Z.pow_pos_nonneg; lia). assert (P2 : 0 < 2 ^ (b - 1)) by (apply Z.pow_pos_nonneg; lia).
  assert (Ew : 2 ^ w = 2 ^ b * 2 ^ (w - b)) by (rewrite <- Z.pow_add_r by lia; f_equal; lia). assert (Eh : 2 ^ (w - 1) = 2 ^ (b - 1) * 2 ^ (w - b)) by (rewrite <- Z.pow_add_r by lia; f_equal; lia).
  assert (Pw : 2 ^ w = 2 * 2 ^ (w - 1)) by (rewrite <- Z.pow_succ_r by lia; f_equal; lia). assert (Hpw : p < 2 ^ w) by nia.
  pose proof (fun x Hx => C71_share f pf lf fuel w b dr q p x Hw Hw64 Hb Hlf Pq Pp Hqp Hpw Hfuel Hg Hn Hx) as K. set (k := 2 ^ (w - b)) in *. set (h := 2 ^ (w - 1)) in *. split.
  - destruct (interval_list ((q + 1) * k) ((p - q) * k) ltac:(nia)) as [l [N [I L]]]. exists l. split; [exact N|]. split; [|exact L]. intros x. rewrite I. split.
    + intros H. assert (Hx : 0 <= x < 2 ^ w) by nia. split; [exact Hx|]. apply (K x Hx). lia.
    + intros [Hx E]. apply (K x Hx) in E. lia.
  - intros Hq. destruct (interval_list ((q + 1) * k) ((p - q) * k) ltac:(nia)) as [l1 [N1 [I1 L1]]]. destruct (interval_list ((q + 1) * k - h) ((p - q) * k) ltac:(nia)) as [l2 [N2 [I2 L2]]].
    assert (B1 : h <= (q + 1) * k) by nia. assert (B2 : (p + 1) * k <= 2 * h) by nia. assert (Ek : (q + 1) * k + (p - q) * k = (p + 1) * k) by ring.
    exists (l1 ++ l2). split; [|split].
    + apply NoDup_app_disj; auto. intros x H1 H2. apply I1 in H1. apply I2 in H2. lia.
    + intros x. rewrite in_app_iff, I1, I2. split.
      * intros H. assert (Hx : 0 <= x < 2 ^ w) by lia. split; [exact Hx|]. apply (K x Hx). destruct H as [H|H].
        -- replace (x mod h) with (x - h) by (apply Zmod_unique with 1; lia). lia.
        -- rewrite Z.mod_small by lia. lia.
      * intros [Hx E]. apply (K x Hx) in E. destruct (Z.lt_ge_cases x h) as [C|C]; [rewrite Z.mod_small in E by lia; right; lia|].
        replace (x mod h) with (x - h) in E by (apply Zmod_unique with 1; lia). left. lia.
    + rewrite app_length, Nat2Z.inj_add, L1, L2. ring.
Qed.
(** Below 2^20 the test is exact, so the gap is the gap between the primes. *)
Theorem C71_share_small : forall f pf lf fuel w b dr q p x, valid_ity (U w) -> w <= 64 -> 1 <= b <= w -> Z.of_nat lf <= 2 ^ 31 ->
  prime q -> prime p -> 3 <= q < p -> p < 2 ^ w -> p <= 2 ^ 20 -> p < fuel -> f = BigTable \/ p <> 257 -> (forall n, q < n < p -> ~ prime n) -> 0 <= x < 2 ^ w ->
  (gen_prime_prim f pf lf fuel w false b (x :: dr) = Ret (p, dr) <-> (q + 1) * 2 ^ (w - b) <= x < (p + 1) * 2 ^ (w - b)) /\
  (gen_prime_prim f pf lf fuel w true b (x :: dr) = Ret (p, dr) <-> (q + 1) * 2 ^ (w - b) <= x mod 2 ^ (w - 1) + 2 ^ (w - 1) < (p + 1) * 2 ^ (w - b)).
Proof.
  intros f pf lf fuel w b dr q p x Hw Hw64 Hb Hlf Pq Pp Hqp Hp H20 Hfuel Hg Hn Hx. apply C71_share; try assumption. intros n H. destruct (exact64 f pf n ltac:(lia)) as [c [E B]]. rewrite E. destruct c; [|reflexivity].
  exfalso. apply (Hn n H). apply B. reflexivity.
Qed.
(** The primes 2 and 3 of gen_prime. *)
Theorem C71_two_three : forall f pf lf fuel w b dr x, valid_ity (U w) -> w <= 64 -> 1 <= b <= w -> Z.of_nat lf <= 2 ^ 31 -> 3 < fuel -> 0 <= x < 2 ^ w ->
  (gen_prime_prim f pf lf fuel w false b (x :: dr) = Ret (2, dr) <-> x < 2 * 2 ^ (w - b)) /\
  (gen_prime_prim f pf lf fuel w false b (x :: dr) = Ret (3, dr) <-> 2 * 2 ^ (w - b) <= x < 4 * 2 ^ (w - b)).
Proof.
  intros f pf lf fuel w b dr x Hw Hw64 Hb Hlf Hfuel Hx. assert (P1 : 0 < 2 ^ (w - b)) by (apply Z.pow_pos_nonneg; lia). assert (2 ^ 8 <= 2 ^ w) by (apply Z.pow_le_mono_r; cbn [valid_ity] in Hw; lia).
  destruct (shaped_flat w b false x Hb Hx) as [Hy Et]. cbv iota in Hy, Et. pose proof (Z.div_mod x (2 ^ (w - b)) ltac:(lia)) as D1. pose proof (Z.mod_pos_bound x (2 ^ (w - b)) P1) as B1. set (v := x / 2 ^ (w - b)) in *.
  pose proof (Z.div_mod v 2 ltac:(lia)) as D2. pose proof (Z.mod_pos_bound v 2 ltac:(lia)) as B2. assert (Hv : 0 <= v) by (apply Z.div_pos; lia).
  assert (V2 : x < 2 * 2 ^ (w - b) <-> v < 2) by (split; nia). assert (V4 : x < 4 * 2 ^ (w - b) <-> v < 4) by (split; nia). split.
  - rewrite V2. rewrite (one_round f pf lf fuel w b dr Hw Hw64 Hb Hlf false 2 x prime_2 ltac:(lia) ltac:(lia) ltac:(lia) Hx); [lia|]. intros n Hn. assert (n = 1) as -> by lia. rewrite is_prime64_law by lia. destruct f; reflexivity.
  - destruct (Z.lt_ge_cases v 2) as [C|C].
    + assert (E2 : gen_prime_prim f pf lf fuel w false b (x :: dr) = Ret (2, dr)).
      { apply (one_round f pf lf fuel w b dr Hw Hw64 Hb Hlf false 2 x prime_2 ltac:(lia) ltac:(lia) ltac:(lia) Hx); [|lia]. intros n Hn. assert (n = 1) as -> by lia. rewrite is_prime64_law by lia. destruct f; reflexivity. }
      rewrite E2. split; [intros E; discriminate | lia].
    + rewrite (one_round f pf lf fuel w b dr Hw Hw64 Hb Hlf false 3 x prime_3 ltac:(lia) ltac:(lia) ltac:(lia) Hx); [lia|]. intros n Hn. lia.
Qed.
(** The distribution is not uniform: of the 256 draws of an 8-bit prime 4 give 113 and 14 give 127. *)
Theorem C71_uniform_refuted : forall pf, let hits p := length (filter (fun x => match gen_prime_prim BigTable pf 50 300 8 false 8 [x] with Ret (r, _) => r =? p | _ => false end) (map Z.of_nat (seq 0 256))) in
  hits 113 = 4%nat /\ hits 127 = 14%nat.
Proof. destruct pf; vm_compute; split; reflexivity. Qed.

Example C71_case : (113 + 1) * 2 ^ (8 - 8) = 114 /\ gen_prime_prim BigTable Debug 50 300 8 false 8 [113] = Ret (113, []) /\ gen_prime_prim BigTable Debug 50 300 8 false 8 [114] = Ret (127, [])
  /\ gen_prime_prim BigTable Debug 50 300 8 false 8 [127] = Ret (127, []) /\ gen_prime_prim BigTable Debug 50 300 8 false 8 [128] = Ret (131, [])
  /\ prime 113 /\ prime 127 /\ forallb (fun n => match is_prime64 BigTable Debug n with Ret false => true | _ => false end) (map Z.of_nat (seq 114 13)) = true.
Proof. repeat match goal with |- _ /\ _ => split end; try (vm_compute; reflexivity); small_prime. Qed.

Print Assumptions C71_share.
Print Assumptions C71_count.
Print Assumptions C71_share_small.
Print Assumptions C71_two_three.
Print Assumptions C71_uniform_refuted.
