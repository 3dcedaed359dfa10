(** * C38-C40: random primes. The random generator is an arbitrary list of draws. *)
From Coq Require Import ZArith Znumtheory List Lia Bool Sorted.
From Verif Require Import Base Tables Spec Ext NT PBase PTables MInteger PInteger Ops POps MPrimality MTraits PSprp MFactor MSieve MIsPrime PBuffer PIsPrime PIsPrime2 PropIsPrime PNext PropNext MRand PRand.
Import ListNotations.
Local Open Scope Z_scope.

(** C38 (machine integers up to 64 bits): the result comes from the last draw x. Let t be the top [b] bits
    of x made odd; the result is the first number from t on, in the type, that is_prime64 accepts, so no
    prime is skipped. It has at most [b] bits whenever some prime does from t on. *)
Theorem C38_gen_prime : forall f pf lf fuel w b dr p dr', valid_ity (U w) -> w <= 64 -> 1 <= b <= w -> Z.of_nat lf <= 2 ^ 31 ->
  gen_prime_prim f pf lf fuel w false b dr = Ret (p, dr') ->
  exists pre x, dr = pre ++ x :: dr' /\ let t := Z.lor ((x mod 2 ^ w) / 2 ^ (w - b)) 1 in
    0 < t < 2 ^ b /\ t <= p < 2 ^ w /\ is_prime64 f pf p = Ret true /\ (forall q, prime q -> ~ (t <= q < p)) /\
    (forall q, prime q -> t <= q < 2 ^ b -> p < 2 ^ b).
Proof.
  intros f pf lf fuel w b dr p dr' Hw Hw64 Hb Hlf E. pose proof (gen_prime_prim_spec f pf lf fuel w Hw Hw64 Hlf b false dr Hb) as R. rewrite E in R. cbn [run gen_post] in R.
  destruct R as [pre [x [Ed R]]]. exists pre, x. split; [exact Ed|]. cbv zeta in *. assert (Et : Z.lor ((x mod 2 ^ w) / 2 ^ (w - b)) 1 = shaped w b false (x mod 2 ^ w)) by (unfold shaped; rewrite Z.lor_0_r; reflexivity). rewrite Et.
  destruct (shaped_bounds w b false (x mod 2 ^ w) Hb (Z.mod_pos_bound x (2 ^ w) ltac:(apply Z.pow_pos_nonneg; lia))) as [_ [H3 _]]. destruct R as [R1 [R2 R3]]. split; [exact H3|]. split; [exact R1|].
  split; [rewrite is_prime64_law, R2; [reflexivity | apply (small64 w Hw Hw64); cbn [in_range]; lia]|]. split; [exact R3|]. intros q Pq Hq. destruct (Z.le_gt_cases p q); [lia|]. exfalso. apply (R3 q Pq). lia.
Qed.
(** One draw suffices when the type has a prime from t on. *)
Theorem C38_one_draw : forall f pf lf fuel w b x dr q, valid_ity (U w) -> w <= 64 -> 1 <= b <= w -> Z.of_nat lf <= 2 ^ 31 ->
  let t := Z.lor ((x mod 2 ^ w) / 2 ^ (w - b)) 1 in ~ (f = SmallTable /\ 252 <= t <= 255) -> prime q -> t <= q < 2 ^ w -> q < fuel ->
  exists p, gen_prime_prim f pf lf fuel w false b (x :: dr) = Ret (p, dr) /\ t <= p <= q.
Proof.
  intros f pf lf fuel w b x dr q Hw Hw64 Hb Hlf t. assert (Et : t = shaped w b false (x mod 2 ^ w)) by (unfold shaped; rewrite Z.lor_0_r; reflexivity). rewrite Et. intros. apply gen_prime_prim_returns; assumption.
Qed.
(** The documented limit "at most bit_size bits" is false. *)
Theorem C38_bit_limit_refuted : gen_prime_prim BigTable Debug 50 300 16 false 8 [65280] = Ret (257, []) /\ gen_prime_prim BigTable Debug 50 300 32 false 1 [0] = Ret (2, []).
Proof. vmc. Qed.
(** A request wider than the type panics. 0 bits panics in debug builds and ignores the limit in release. *)
Theorem C38_too_wide : forall f pf lf fuel w exact b dr, w < b -> gen_prime_prim f pf lf fuel w exact b dr = Panic.
Proof. intros f pf lf fuel w exact b dr H. unfold gen_prime_prim. apply Z.ltb_lt in H. rewrite H. reflexivity. Qed.
Theorem C38_zero_bits_panics : forall f lf fuel w exact x dr, valid_ity (U w) -> 1 <= fuel -> gen_prime_prim f Debug lf fuel w exact 0 (x :: dr) = Panic.
Proof.
  intros f lf fuel w exact x dr Hw Hfuel. unfold gen_prime_prim, loop. assert (w < 0 \/ 8 <= w <= 128) as [C|Hb] by (cbn [valid_ity] in Hw; lia); [cbn [valid_ity] in Hw; lia|].
  replace (w <? 0) with false by (symmetry; apply Z.ltb_ge; lia). replace fuel with (fuel - 1 + 1) by lia. rewrite iter_succ by lia. cbn [draw bind]. unfold shape_prim. rewrite sub_ok by (cbn [in_range]; lia). cbn [bind].
  unfold shr_. replace (w - 0 <? w) with false by (symmetry; apply Z.ltb_ge; lia). rewrite andb_false_r. reflexivity.
Qed.
Theorem C38_zero_bits_refuted : gen_prime_prim BigTable Release 50 300 8 false 0 [200] = Ret (211, []).
Proof. vmc. Qed.
(** Without the big-table feature an 8-bit request panics on some draws. *)
Theorem C38_small_table_refuted : forall pf lf fuel dr, 1 <= fuel -> gen_prime_prim SmallTable pf lf fuel 8 false 8 (255 :: dr) = Panic.
Proof.
  intros pf lf fuel dr Hfuel. unfold gen_prime_prim, loop. change (8 <? 8) with false. cbv iota. replace fuel with (fuel - 1 + 1) by lia. rewrite iter_succ by lia. cbn [draw bind].
  replace (shape_prim pf 8 8 false (255 mod 2 ^ 8)) with (Ret 255) by (destruct pf; reflexivity). cbn [bind]. rewrite is_prime64_law by lia. replace (z_is_prime64 SmallTable 255) with false by (vm_compute; reflexivity). cbn [bind].
  rewrite C36_table_gap_refuted by lia. reflexivity.
Qed.
Example C38_case : gen_prime_prim BigTable Debug 50 300 32 false 20 [3000000000] = Ret (732439, []) /\ gen_prime_prim BigTable Debug 50 300 64 false 64 [2 ^ 64 - 1; 2 ^ 64 - 100] = Ret (2 ^ 64 - 95, []).
Proof. vmc. Qed.

(** C38 for u128 and big integers: as above; the result is accepted by the primality test (with u128, by the
    test with the given configuration or, after next_prime, with the default one). The draws also feed the
    primality test; its random witnesses have to be non-zero (C13). *)
Theorem C38_gen_prime_u128 : forall f pf lf fuel b config dr p dr', 1 <= b <= 128 -> Z.of_nat lf <= 2 ^ 31 -> eslprp_test (the_config config) = false ->
  gen_prime_u128 f pf lf fuel false b config dr = Ret (p, dr') ->
  exists x, In x dr /\ let t := Z.lor ((x mod 2 ^ 128) / 2 ^ (128 - b)) 1 in
    0 < t < 2 ^ b /\ t <= p < 2 ^ 128 /\ (exists c d d', (c = config \/ c = None) /\ prime_probably f pf u128 lf p c d = Ret (true, d')) /\
    ((forall y, In y dr -> y mod 2 ^ 64 <> 0) -> forall q, prime q -> ~ (t <= q < p)).
Proof.
  intros f pf lf fuel b config dr p dr' Hb Hlf He E. pose proof (gen_prime_u128_spec f pf lf fuel Hlf b false config dr Hb He) as R. rewrite E in R. cbn [run wide_post] in R. destruct R as [_ [x [Hx R]]]. exists x. split; [exact Hx|].
  cbv zeta in *. assert (Et : Z.lor ((x mod 2 ^ 128) / 2 ^ (128 - b)) 1 = shaped 128 b false (x mod 2 ^ 128)) by (unfold shaped; rewrite Z.lor_0_r; reflexivity). rewrite Et.
  destruct (shaped_bounds 128 b false (x mod 2 ^ 128) Hb (Z.mod_pos_bound x (2 ^ 128) ltac:(lia))) as [_ [H3 _]]. destruct R as [R1 [R2 [R3 R4]]]. cbn [u128 in_range] in R2. split; [exact H3|]. split; [lia|].
  split; [destruct R3 as [[d [d' R3]]|[d [d' R3]]]; [exists config | exists None]; exists d, d'; auto|]. intros N. apply (R4 N).
  assert (Z.log2 (p + 1) < 129) by (apply Z.log2_lt_pow2; [lia|]; change (2 ^ 129) with (2 * 2 ^ 128); lia). lia.
Qed.
Theorem C38_gen_prime_big : forall f pf lf fuel b config dr p dr', 1 <= b < 2 ^ 64 -> Z.of_nat lf <= 2 ^ 31 ->
  gen_prime_big f pf lf fuel false b config dr = Ret (p, dr') ->
  exists x, In x dr /\ let t := Z.lor (x mod 2 ^ b) 1 in
    0 < t < 2 ^ b /\ t <= p /\ (exists d d', prime_probably f pf Big lf p config d = Ret (true, d')) /\
    ((forall y, In y dr -> y mod 2 ^ 64 <> 0) -> Z.log2 (p + 1) < 2 ^ 64 -> forall q, prime q -> ~ (t <= q < p)).
Proof.
  intros f pf lf fuel b config dr p dr' Hb Hlf E. pose proof (gen_prime_big_spec f pf lf fuel Hlf b false config dr Hb) as R. rewrite E in R. cbn [run wide_post] in R. destruct R as [_ [x [Hx R]]]. exists x. split; [exact Hx|].
  cbv zeta in *. assert (Et : Z.lor (x mod 2 ^ b) 1 = shaped b b false (x mod 2 ^ b)) by (unfold shaped; rewrite Z.lor_0_r, Z.sub_diag, Z.pow_0_r, Z.div_1_r; reflexivity). rewrite Et.
  assert (P0 : 0 < 2 ^ b) by (apply Z.pow_pos_nonneg; lia). destruct (shaped_bounds b b false (x mod 2 ^ b) ltac:(lia) (Z.mod_pos_bound x (2 ^ b) P0)) as [_ [H3 _]]. destruct R as [R1 [R2 [R3 R4]]]. split; [exact H3|]. split; [lia|].
  split; [destruct R3 as [R3|R3]; exact R3 | exact R4].
Qed.
Example C38_big_case : gen_prime_big BigTable Debug 50 300 false 40 None [1000000000000] = Ret (1000000000039, []) /\ gen_prime_u128 BigTable Debug 50 300 false 30 None [2 ^ 127 + 12345] = Ret (536870923, []).
Proof. vmc. Qed.

(** C39: the result is at least 2^(b-1); it has exactly [b] bits whenever some prime does from t on, and
    always when [b] is the width of the type. *)
Theorem C39_gen_prime_exact : forall f pf lf fuel w b dr p dr', valid_ity (U w) -> w <= 64 -> 1 <= b <= w -> Z.of_nat lf <= 2 ^ 31 ->
  gen_prime_prim f pf lf fuel w true b dr = Ret (p, dr') ->
  exists pre x, dr = pre ++ x :: dr' /\ let t := Z.lor (Z.lor ((x mod 2 ^ w) / 2 ^ (w - b)) 1) (2 ^ (b - 1)) in
    2 ^ (b - 1) <= t < 2 ^ b /\ t <= p < 2 ^ w /\ is_prime64 f pf p = Ret true /\ (forall q, prime q -> ~ (t <= q < p)) /\
    (forall q, prime q -> t <= q < 2 ^ b -> 2 ^ (b - 1) <= p < 2 ^ b).
Proof.
  intros f pf lf fuel w b dr p dr' Hw Hw64 Hb Hlf E. pose proof (gen_prime_prim_spec f pf lf fuel w Hw Hw64 Hlf b true dr Hb) as R. rewrite E in R. cbn [run gen_post] in R.
  destruct R as [pre [x [Ed R]]]. exists pre, x. split; [exact Ed|]. cbv zeta in *. fold (shaped w b true (x mod 2 ^ w)).
  destruct (shaped_bounds w b true (x mod 2 ^ w) Hb (Z.mod_pos_bound x (2 ^ w) ltac:(apply Z.pow_pos_nonneg; lia))) as [_ [H3 H4]]. specialize (H4 eq_refl). destruct R as [R1 [R2 R3]]. unfold shaped in *. split; [lia|]. split; [exact R1|].
  split; [rewrite is_prime64_law, R2; [reflexivity | apply (small64 w Hw Hw64); cbn [in_range]; lia]|]. split; [exact R3|]. intros q Pq Hq. destruct (Z.le_gt_cases p q); [lia|]. exfalso. apply (R3 q Pq). lia.
Qed.
Theorem C39_full_width : forall f pf lf fuel w dr p dr', valid_ity (U w) -> w <= 64 -> Z.of_nat lf <= 2 ^ 31 ->
  gen_prime_prim f pf lf fuel w true w dr = Ret (p, dr') -> 2 ^ (w - 1) <= p < 2 ^ w /\ is_prime64 f pf p = Ret true.
Proof.
  intros f pf lf fuel w dr p dr' Hw Hw64 Hlf E. destruct (C39_gen_prime_exact f pf lf fuel w w dr p dr' Hw Hw64 ltac:(cbn [valid_ity] in Hw; lia) Hlf E) as [pre [x [_ [H1 [H2 [H3 _]]]]]]. split; [lia | exact H3].
Qed.
Theorem C39_gen_prime_exact_u128 : forall f pf lf fuel b config dr p dr', 1 <= b <= 128 -> Z.of_nat lf <= 2 ^ 31 -> eslprp_test (the_config config) = false ->
  gen_prime_u128 f pf lf fuel true b config dr = Ret (p, dr') ->
  exists x, In x dr /\ let t := Z.lor (Z.lor ((x mod 2 ^ 128) / 2 ^ (128 - b)) 1) (2 ^ (b - 1)) in
    2 ^ (b - 1) <= t < 2 ^ b /\ t <= p < 2 ^ 128 /\ (exists c d d', (c = config \/ c = None) /\ prime_probably f pf u128 lf p c d = Ret (true, d')) /\
    ((forall y, In y dr -> y mod 2 ^ 64 <> 0) -> forall q, prime q -> ~ (t <= q < p)).
Proof.
  intros f pf lf fuel b config dr p dr' Hb Hlf He E. pose proof (gen_prime_u128_spec f pf lf fuel Hlf b true config dr Hb He) as R. rewrite E in R. cbn [run wide_post] in R. destruct R as [_ [x [Hx R]]]. exists x. split; [exact Hx|].
  cbv zeta in *. fold (shaped 128 b true (x mod 2 ^ 128)).
  destruct (shaped_bounds 128 b true (x mod 2 ^ 128) Hb (Z.mod_pos_bound x (2 ^ 128) ltac:(lia))) as [_ [H3 H4]]. specialize (H4 eq_refl). destruct R as [R1 [R2 [R3 R4]]]. cbn [u128 in_range] in R2. unfold shaped in *. split; [lia|]. split; [lia|].
  split; [destruct R3 as [[d [d' R3]]|[d [d' R3]]]; [exists config | exists None]; exists d, d'; auto|]. intros N. apply (R4 N).
  assert (Z.log2 (p + 1) < 129) by (apply Z.log2_lt_pow2; [lia|]; change (2 ^ 129) with (2 * 2 ^ 128); lia). lia.
Qed.
Theorem C39_gen_prime_exact_big : forall f pf lf fuel b config dr p dr', 1 <= b < 2 ^ 64 -> Z.of_nat lf <= 2 ^ 31 ->
  gen_prime_big f pf lf fuel true b config dr = Ret (p, dr') ->
  exists x, In x dr /\ let t := Z.lor (Z.lor (x mod 2 ^ b) 1) (2 ^ (b - 1)) in
    2 ^ (b - 1) <= t < 2 ^ b /\ t <= p /\ (exists d d', prime_probably f pf Big lf p config d = Ret (true, d')) /\
    ((forall y, In y dr -> y mod 2 ^ 64 <> 0) -> Z.log2 (p + 1) < 2 ^ 64 -> forall q, prime q -> ~ (t <= q < p)).
Proof.
  intros f pf lf fuel b config dr p dr' Hb Hlf E. pose proof (gen_prime_big_spec f pf lf fuel Hlf b true config dr Hb) as R. rewrite E in R. cbn [run wide_post] in R. destruct R as [_ [x [Hx R]]]. exists x. split; [exact Hx|].
  cbv zeta in *. assert (Et : Z.lor (Z.lor (x mod 2 ^ b) 1) (2 ^ (b - 1)) = shaped b b true (x mod 2 ^ b)) by (unfold shaped; rewrite Z.sub_diag, Z.pow_0_r, Z.div_1_r; reflexivity). rewrite Et.
  assert (P0 : 0 < 2 ^ b) by (apply Z.pow_pos_nonneg; lia). destruct (shaped_bounds b b true (x mod 2 ^ b) ltac:(lia) (Z.mod_pos_bound x (2 ^ b) P0)) as [_ [H3 H4]]. specialize (H4 eq_refl). destruct R as [R1 [R2 [R3 R4]]]. split; [lia|]. split; [lia|].
  split; [destruct R3 as [R3|R3]; exact R3 | exact R4].
Qed.
(** The documented "exactly bit_size bits" is false below the full width. *)
Theorem C39_exact_bits_refuted : gen_prime_prim BigTable Debug 50 300 16 true 8 [65280] = Ret (257, []).
Proof. vmc. Qed.
Example C39_case : gen_prime_prim BigTable Debug 50 300 32 true 20 [5] = Ret (524309, []) /\ gen_prime_prim BigTable Debug 50 300 8 true 8 [253; 1] = Ret (131, []) /\ gen_prime_big BigTable Debug 50 300 true 41 None [1] = Ret (1099511627791, []).
Proof. vmc. Qed.

(** C40: a returned number passes is_safe_prime with a definite yes (machine integers up to 64 bits). *)
Theorem C40_gen_safe_prime : forall f pf lf fuel w b dr p dr' d, valid_ity (U w) -> w <= 64 -> 1 <= b <= w -> Z.of_nat lf <= 2 ^ 31 ->
  gen_safe_prime_prim f pf lf fuel w b dr = Ret (p, dr') -> in_range (U w) p /\ is_safe_prime f pf (U w) no_probs lf p d = Ret (Yes, d).
Proof.
  intros f pf lf fuel w b dr p dr' d Hw Hw64 Hb Hlf E. pose proof (gen_safe_prim_spec f pf lf fuel w Hw Hw64 Hlf b dr Hb) as R. rewrite E in R. cbn [run safe_post] in R. destruct R as [R1 [R2 R3]]. split; [exact R1|].
  pose proof (small64 w Hw Hw64 p R1) as Hs. destruct (C35_is_safe_prime64 unit no_probs f pf (U w) lf p d Hw R1 Hs) as [b1 [b2 [E1 [E2 ->]]]]. assert (0 <= p / 2 <= p) by (split; [apply Z.div_pos; lia | apply Z.div_le_upper_bound; lia]).
  rewrite is_prime64_law in E1, E2 by lia. rewrite R3 in E1. rewrite R2 in E2. injection E1 as <-. injection E2 as <-. reflexivity.
Qed.
Theorem C40_gen_safe_prime_exact : forall f pf lf fuel w b dr p dr' d, valid_ity (U w) -> w <= 64 -> 1 <= b <= w -> Z.of_nat lf <= 2 ^ 31 ->
  gen_safe_prime_exact_prim f pf lf fuel w b dr = Ret (p, dr') -> 2 ^ (b - 1) <= p < 2 ^ w /\ is_safe_prime f pf (U w) no_probs lf p d = Ret (Yes, d).
Proof.
  intros f pf lf fuel w b dr p dr' d Hw Hw64 Hb Hlf E. pose proof (gen_safe_exact_prim_spec f pf lf fuel w Hw Hw64 Hlf b dr Hb) as R. rewrite E in R. cbn [run safe_post fst] in R. destruct R as [[R1 [R2 R3]] R4]. split; [lia|].
  pose proof (small64 w Hw Hw64 p R1) as Hs. destruct (C35_is_safe_prime64 unit no_probs f pf (U w) lf p d Hw R1 Hs) as [b1 [b2 [E1 [E2 ->]]]]. assert (0 <= p / 2 <= p) by (split; [apply Z.div_pos; lia | apply Z.div_le_upper_bound; lia]).
  rewrite is_prime64_law in E1, E2 by lia. rewrite R3 in E1. rewrite R2 in E2. injection E1 as <-. injection E2 as <-. reflexivity.
Qed.
(** u128 and big integers: both p and (p-1)/2 are accepted by the primality test. *)
Theorem C40_gen_safe_prime_u128 : forall f pf lf fuel b dr p dr', 1 <= b <= 128 -> Z.of_nat lf <= 2 ^ 31 ->
  gen_safe_prime_u128 f pf lf fuel b dr = Ret (p, dr') \/ gen_safe_prime_exact_u128 f pf lf fuel b dr = Ret (p, dr') ->
  0 <= p < 2 ^ 128 /\ forall n, n = p \/ n = p / 2 -> exists c d d', (c = Some pc_strict \/ c = None) /\ prime_probably f pf u128 lf n c d = Ret (true, d').
Proof.
  intros f pf lf fuel b dr p dr' Hb Hlf E. assert (H : 0 <= p < 2 ^ 128 /\ any_config f pf lf u128 p /\ any_config f pf lf u128 (p / 2)).
  { destruct E as [E|E]; [pose proof (gen_safe_u128_spec f pf lf fuel Hlf b dr Hb) as R | pose proof (gen_safe_exact_u128_spec f pf lf fuel Hlf b dr Hb) as R]; rewrite E in R; cbn [run fst] in R; [exact R|].
    assert (0 < 2 ^ (b - 1)) by (apply Z.pow_pos_nonneg; lia). split; [lia | apply R]. }
  destruct H as [H0 [H1 H2]]. split; [exact H0|]. intros n [->| ->]; [destruct H1 as [[d [d' H]]|[d [d' H]]] | destruct H2 as [[d [d' H]]|[d [d' H]]]]; eexists; exists d, d'; split; try exact H; auto.
Qed.
Theorem C40_gen_safe_prime_big : forall f pf lf fuel b dr p dr', 1 <= b < 2 ^ 64 -> Z.of_nat lf <= 2 ^ 31 ->
  gen_safe_prime_big f pf lf fuel b dr = Ret (p, dr') \/ gen_safe_prime_exact_big f pf lf fuel b dr = Ret (p, dr') ->
  0 <= p /\ forall n, n = p \/ n = p / 2 -> exists d d', prime_probably f pf Big lf n (Some pc_strict) d = Ret (true, d').
Proof.
  intros f pf lf fuel b dr p dr' Hb Hlf E. assert (H : 0 <= p /\ accepted_by f pf lf Big (Some pc_strict) p /\ accepted_by f pf lf Big (Some pc_strict) (p / 2)).
  { destruct E as [E|E]; [pose proof (gen_safe_big_spec f pf lf fuel Hlf b dr Hb) as R | pose proof (gen_safe_exact_big_spec f pf lf fuel Hlf b dr Hb) as R]; rewrite E in R; cbn [run fst] in R; [exact R|].
    assert (0 < 2 ^ (b - 1)) by (apply Z.pow_pos_nonneg; lia). split; [lia | apply R]. }
  destruct H as [H0 [H1 H2]]. split; [exact H0|]. intros n [->| ->]; assumption.
Qed.
Theorem C40_exact_size_wide : forall f pf lf fuel b dr p dr', Z.of_nat lf <= 2 ^ 31 ->
  (1 <= b <= 128 /\ gen_safe_prime_exact_u128 f pf lf fuel b dr = Ret (p, dr')) \/ (1 <= b < 2 ^ 64 /\ gen_safe_prime_exact_big f pf lf fuel b dr = Ret (p, dr')) -> 2 ^ (b - 1) <= p.
Proof.
  intros f pf lf fuel b dr p dr' Hlf [[Hb E]|[Hb E]]; [pose proof (gen_safe_exact_u128_spec f pf lf fuel Hlf b dr Hb) as R | pose proof (gen_safe_exact_big_spec f pf lf fuel Hlf b dr Hb) as R]; rewrite E in R; cbn [run fst] in R; lia.
Qed.
(** The bit limit of gen_safe_prime is not kept, and gen_safe_prime_exact never returns for 1 or 2 bits. *)
Theorem C40_bit_limit_refuted : gen_safe_prime_prim BigTable Debug 50 300 8 2 [192] = Ret (7, []).
Proof. vmc. Qed.
Theorem C40_exact_diverges_refuted : forall f pf lf fuel w b dr, valid_ity (U w) -> w <= 64 -> b = 1 \/ b = 2 -> 1 <= fuel -> gen_safe_prime_exact_prim f pf lf fuel w b dr = NoFuel.
Proof. exact gen_safe_exact_diverges. Qed.
Example C40_case : gen_safe_prime_prim BigTable Debug 50 300 32 16 [3000000000; 3006160384] = Ret (45887, []) /\ gen_safe_prime_exact_prim BigTable Debug 50 300 32 16 [3000000000; 2152202240] = Ret (32843, [])
  /\ gen_safe_prime_u128 BigTable Debug 50 300 16 [3000000000 * 2 ^ 96; 3006160384 * 2 ^ 96] = Ret (45887, []) /\ gen_safe_prime_exact_big BigTable Debug 50 300 16 [45776; 32840] = Ret (32843, []).
Proof. repeat split; vmc. Qed.

Print Assumptions C38_gen_prime.
Print Assumptions C38_one_draw.
Print Assumptions C38_bit_limit_refuted.
Print Assumptions C38_too_wide.
Print Assumptions C38_zero_bits_panics.
Print Assumptions C38_zero_bits_refuted.
Print Assumptions C38_small_table_refuted.
Print Assumptions C38_gen_prime_u128.
Print Assumptions C38_gen_prime_big.
Print Assumptions C39_gen_prime_exact.
Print Assumptions C39_full_width.
Print Assumptions C39_gen_prime_exact_u128.
Print Assumptions C39_gen_prime_exact_big.
Print Assumptions C39_exact_bits_refuted.
Print Assumptions C40_gen_safe_prime.
Print Assumptions C40_gen_safe_prime_exact.
Print Assumptions C40_gen_safe_prime_u128.
Print Assumptions C40_gen_safe_prime_big.
Print Assumptions C40_exact_size_wide.
Print Assumptions C40_bit_limit_refuted.
Print Assumptions C40_exact_diverges_refuted.
