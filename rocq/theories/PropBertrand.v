(** * C74: searches for a prime end before twice (above half) the argument. *)
From Coq Require Import ZArith Znumtheory List Lia Bool Sorted.
From Verif Require Import Base Tables Spec Ext NT PBase PTables MInteger PInteger Ops POps MPrimality MTraits PSprp MFactor MSieve PSieve MIsPrime PIsPrime PIsPrime2 PNext PRand MRand NTBertrand PBertrand PropNext PropRand.
Import ListNotations.
Local Open Scope Z_scope.

(** Bertrand's postulate *)
Theorem C74_bertrand : forall n, 1 <= n -> exists p, prime p /\ n < p <= 2 * n.
Proof. exact bertrand. Qed.

(** Whatever the type, the configuration and the (non-zero) draws: the result of next_prime is at most twice the argument,
    and None means that twice the argument is not representable. *)
Theorem C74_next_prime : forall f pf t lf config fuel n dr o dr', valid_ity t -> in_range t n -> Z.of_nat lf <= 2 ^ 31 -> 1 <= n ->
  (forall x, In x dr -> x mod 2 ^ 64 <> 0) \/ (forall y, in_range t y -> y < 2 ^ 64) ->
  next_prime f pf t lf fuel n config dr = Ret (o, dr') ->
  match o with
  | Some p => n < p /\ (Z.log2 (p + 1) < 2 ^ 64 -> p <= 2 * n)
  | None => Z.log2 (2 * n + 1) < 2 ^ 64 -> ~ in_range t (2 * n)
  end.
Proof.
  intros f pf t lf config fuel n dr o dr' Ht Hn Hlf H1 Hdr E. pose proof (C36_next_prime f pf t lf config fuel n dr o dr' Ht Hn Hlf Hdr E) as H.
  destruct (bertrand n H1) as [q [Pq Hq]]. destruct o as [p|].
  - destruct H as [Hp [_ [_ H]]]. split; [exact Hp|]. intros Hl. destruct (Z.le_gt_cases p q) as [L|L]; [lia|]. exfalso. apply (H Hl q Pq). lia.
  - intros Hl Hr. apply (H q Pq ltac:(lia)); [|eapply in_range_le; [|exact Hr]; lia]. eapply Z.le_lt_trans; [apply Z.log2_le_mono|exact Hl]. lia.
Qed.
(** Below 2^63 it returns, at every type that holds 2n, without using a draw. The exception is the table gap of C36. *)
Theorem C74_next_prime64 : forall f pf t lf config fuel n dr, valid_ity t -> in_range t (2 * n) -> 1 <= n < 2 ^ 63 -> n < fuel -> ~ (f = SmallTable /\ 252 <= n <= 255) ->
  exists p, next_prime f pf t lf fuel n config dr = Ret (Some p, dr) /\ n < p <= 2 * n.
Proof.
  intros f pf t lf config fuel n dr Ht Hr Hn Hf Hg. destruct (bertrand n ltac:(lia)) as [q [Pq Hq]]. change (2 ^ 63) with 9223372036854775808 in Hn.
  destruct (C36_returns f pf t lf config fuel n q dr Ht ltac:(eapply in_range_le; [|exact Hr]; lia) Hg Pq ltac:(lia) ltac:(eapply in_range_le; [|exact Hr]; lia) ltac:(lia) ltac:(lia)) as [p [E Hp]].
  exists p. split; [exact E | lia].
Qed.
(** With a configuration without random witnesses, such as BPSW, it returns for numbers of any size; the strong Lucas test needs room for its parameter search. *)
Theorem C74_next_prime_quiet : forall f pf t lf config fuel n dr, valid_ity t -> in_range t (2 * n) -> 1 <= n < fuel -> ~ (f = SmallTable /\ 252 <= n <= 255) ->
  sprp_random_trials (match config with Some c => c | None => pc_default end) <= 0 -> eslprp_test (match config with Some c => c | None => pc_default end) = false ->
  (slprp_test (match config with Some c => c | None => pc_default end) = true -> 6 + Z.sqrt (2 * n) <= Z.of_nat lf <= 2 ^ 61) ->
  exists p, next_prime f pf t lf fuel n config dr = Ret (Some p, dr) /\ n < p <= 2 * n.
Proof.
  intros f pf t lf config fuel n dr Ht Hr Hn Hg Q1 Q2 Hlf. destruct (bertrand n ltac:(lia)) as [q [Pq Hq]].
  destruct (next_quiet f pf t lf config (2 * n) Ht (conj Q1 Q2) Hlf fuel n q dr ltac:(eapply in_range_le; [|exact Hr]; lia) Hg Pq ltac:(lia) ltac:(eapply in_range_le; [|exact Hr]; lia) ltac:(lia)) as [p [E Hp]].
  exists p. split; [exact E | lia].
Qed.

(** prev_prime stays above half the argument. *)
Theorem C74_prev_prime : forall f pf t lf config fuel n dr o dr', valid_ity t -> in_range t n -> Z.of_nat lf <= 2 ^ 31 -> 3 <= n -> Z.log2 n < 2 ^ 64 ->
  (forall x, In x dr -> x mod 2 ^ 64 <> 0) \/ (forall y, in_range t y -> y < 2 ^ 64) ->
  prev_prime f pf t lf fuel n config dr = Ret (o, dr') -> exists p, o = Some p /\ p < n < 2 * p.
Proof.
  intros f pf t lf config fuel n dr o dr' Ht Hn Hlf H3 Hl Hdr E. pose proof (C37_prev_prime f pf t lf config fuel n dr o dr' Ht Hn Hlf Hdr E) as H. destruct o as [p|]; [|lia]. exists p. split; [reflexivity|].
  destruct H as [Hp [_ H]]. split; [lia|]. destruct (Z.eq_dec n 3) as [-> |N3]; [lia|].
  assert (Hh : 2 <= n / 2 /\ n = 2 * (n / 2) + n mod 2 /\ 0 <= n mod 2 < 2).
  { split; [apply Z.div_le_lower_bound; lia|]. split; [apply Z.div_mod; lia | apply Z.mod_pos_bound; lia]. }
  destruct (bertrand_strict (n / 2) ltac:(lia)) as [q [Pq Hq]]. destruct (Z.le_gt_cases q p) as [L|L]; [lia|]. exfalso. apply (H Hl q Pq). lia.
Qed.
Theorem C74_prev_prime_quiet : forall f pf t lf config fuel n dr, valid_ity t -> in_range t n -> 3 <= n < fuel ->
  sprp_random_trials (match config with Some c => c | None => pc_default end) <= 0 -> eslprp_test (match config with Some c => c | None => pc_default end) = false ->
  (slprp_test (match config with Some c => c | None => pc_default end) = true -> 6 + Z.sqrt n <= Z.of_nat lf <= 2 ^ 61) ->
  exists p, prev_prime f pf t lf fuel n config dr = Ret (Some p, dr) /\ p < n < 2 * p /\ (forall q, prime q -> ~ (p < q < n)).
Proof.
  intros f pf t lf config fuel n dr Ht Hn H3 Q1 Q2 Hlf. destruct (prev_quiet f pf t lf config n Ht (conj Q1 Q2) Hlf fuel n dr Hn ltac:(lia) ltac:(lia)) as [p [E [Hp H]]].
  exists p. split; [exact E|]. split; [|exact H]. split; [lia|]. destruct (Z.eq_dec n 3) as [-> |N3]; [lia|].
  assert (Hh : 2 <= n / 2 /\ n = 2 * (n / 2) + n mod 2 /\ 0 <= n mod 2 < 2).
  { split; [apply Z.div_le_lower_bound; lia|]. split; [apply Z.div_mod; lia | apply Z.mod_pos_bound; lia]. }
  destruct (bertrand_strict (n / 2) ltac:(lia)) as [q [Pq Hq]]. destruct (Z.le_gt_cases q p) as [L|L]; [lia|]. exfalso. apply (H q Pq). lia.
Qed.

(** gen_prime exceeds the requested size (see C38) by at most one bit, and so does gen_prime_exact. *)
Theorem C74_gen_prime : forall f pf lf fuel w b exact dr p dr', valid_ity (U w) -> w <= 64 -> 1 <= b <= w -> Z.of_nat lf <= 2 ^ 31 ->
  gen_prime_prim f pf lf fuel w exact b dr = Ret (p, dr') -> (if exact then 2 ^ (b - 1) else 1) <= p < 2 ^ (b + 1).
Proof.
  intros f pf lf fuel w b exact dr p dr' Hw Hw64 Hb Hlf E. rewrite Z.pow_add_r, Z.pow_1_r by lia.
  assert (K : exists t, (if exact then 2 ^ (b - 1) else 1) <= t < 2 ^ b /\ 0 < t <= p /\ (forall q, prime q -> ~ (t <= q < p))).
  { destruct exact.
    - destruct (C39_gen_prime_exact f pf lf fuel w b dr p dr' Hw Hw64 Hb Hlf E) as [pre [x [_ H]]]. cbv zeta in H. destruct H as [H1 [H2 [_ [H3 _]]]]. eexists. assert (0 < 2 ^ (b - 1)) by (apply Z.pow_pos_nonneg; lia). split; [exact H1|]. split; [lia | exact H3].
    - destruct (C38_gen_prime f pf lf fuel w b dr p dr' Hw Hw64 Hb Hlf E) as [pre [x [_ H]]]. cbv zeta in H. destruct H as [H1 [H2 [_ [H3 _]]]]. eexists. split; [split; [|apply H1]; lia|]. split; [lia | exact H3]. }
  destruct K as [t [Ht [Htp Hno]]]. split; [lia|]. destruct (bertrand t ltac:(lia)) as [q [Pq Hq]]. destruct (Z.le_gt_cases p q) as [L|L]; [lia|]. exfalso. apply (Hno q Pq). lia.
Qed.
Theorem C74_gen_prime_u128 : forall f pf lf fuel b exact config dr p dr', 1 <= b <= 128 -> Z.of_nat lf <= 2 ^ 31 -> eslprp_test (match config with Some c => c | None => pc_default end) = false ->
  (forall y, In y dr -> y mod 2 ^ 64 <> 0) -> gen_prime_u128 f pf lf fuel exact b config dr = Ret (p, dr') -> (if exact then 2 ^ (b - 1) else 1) <= p < 2 ^ (b + 1).
Proof.
  intros f pf lf fuel b exact config dr p dr' Hb Hlf He Hdr E. rewrite Z.pow_add_r, Z.pow_1_r by lia.
  assert (K : exists t, (if exact then 2 ^ (b - 1) else 1) <= t < 2 ^ b /\ 0 < t <= p /\ (forall q, prime q -> ~ (t <= q < p))).
  { destruct exact.
    - destruct (C39_gen_prime_exact_u128 f pf lf fuel b config dr p dr' Hb Hlf He E) as [x [_ H]]. cbv zeta in H. destruct H as [H1 [H2 [_ H3]]]. eexists. assert (0 < 2 ^ (b - 1)) by (apply Z.pow_pos_nonneg; lia). split; [exact H1|]. split; [lia | exact (H3 Hdr)].
    - destruct (C38_gen_prime_u128 f pf lf fuel b config dr p dr' Hb Hlf He E) as [x [_ H]]. cbv zeta in H. destruct H as [H1 [H2 [_ H3]]]. eexists. split; [split; [|apply H1]; lia|]. split; [lia | exact (H3 Hdr)]. }
  destruct K as [t [Ht [Htp Hno]]]. split; [lia|]. destruct (bertrand t ltac:(lia)) as [q [Pq Hq]]. destruct (Z.le_gt_cases p q) as [L|L]; [lia|]. exfalso. apply (Hno q Pq). lia.
Qed.
Theorem C74_gen_prime_big : forall f pf lf fuel b exact config dr p dr', 1 <= b < 2 ^ 64 -> Z.of_nat lf <= 2 ^ 31 -> Z.log2 (p + 1) < 2 ^ 64 ->
  (forall y, In y dr -> y mod 2 ^ 64 <> 0) -> gen_prime_big f pf lf fuel exact b config dr = Ret (p, dr') -> (if exact then 2 ^ (b - 1) else 1) <= p < 2 ^ (b + 1).
Proof.
  intros f pf lf fuel b exact config dr p dr' Hb Hlf Hl Hdr E. rewrite Z.pow_add_r, Z.pow_1_r by lia.
  assert (K : exists t, (if exact then 2 ^ (b - 1) else 1) <= t < 2 ^ b /\ 0 < t <= p /\ (forall q, prime q -> ~ (t <= q < p))).
  { destruct exact.
    - destruct (C39_gen_prime_exact_big f pf lf fuel b config dr p dr' Hb Hlf E) as [x [_ H]]. cbv zeta in H. destruct H as [H1 [H2 [_ H3]]]. eexists. assert (0 < 2 ^ (b - 1)) by (apply Z.pow_pos_nonneg; lia). split; [exact H1|]. split; [lia | exact (H3 Hdr Hl)].
    - destruct (C38_gen_prime_big f pf lf fuel b config dr p dr' Hb Hlf E) as [x [_ H]]. cbv zeta in H. destruct H as [H1 [H2 [_ H3]]]. eexists. split; [split; [|apply H1]; lia|]. split; [lia | exact (H3 Hdr Hl)]. }
  destruct K as [t [Ht [Htp Hno]]]. split; [lia|]. destruct (bertrand t ltac:(lia)) as [q [Pq Hq]]. destruct (Z.le_gt_cases p q) as [L|L]; [lia|]. exfalso. apply (Hno q Pq). lia.
Qed.

(** For fewer bits than the type has, one draw is always enough, for both functions. (Without big-table the draws that hit the gap of C36 are left out.) *)
Theorem C74_one_draw : forall f pf lf fuel w b exact x dr, valid_ity (U w) -> w <= 64 -> 1 <= b < w -> Z.of_nat lf <= 2 ^ 31 -> 2 ^ (b + 1) <= fuel ->
  f = BigTable \/ b < 8 \/ (exact = true /\ 8 < b) ->
  exists p, gen_prime_prim f pf lf fuel w exact b (x :: dr) = Ret (p, dr) /\ (if exact then 2 ^ (b - 1) else 1) <= p < 2 ^ (b + 1).
Proof.
  intros f pf lf fuel w b exact x dr Hw Hw64 Hb Hlf Hf Hg. assert (Pw : 0 < 2 ^ w) by (apply Z.pow_pos_nonneg; lia). assert (E2 : 2 ^ (b + 1) <= 2 ^ w) by (apply Z.pow_le_mono_r; lia).
  pose proof (Z.mod_pos_bound x (2 ^ w) Pw) as Bx. destruct (shaped_bounds w b exact _ ltac:(lia) Bx) as [_ [Ht He]].
  rewrite Z.pow_add_r, Z.pow_1_r in * by lia. destruct (bertrand (shaped w b exact (x mod 2 ^ w)) ltac:(lia)) as [q [Pq Hq]].
  assert (Gap : ~ (f = SmallTable /\ 252 <= shaped w b exact (x mod 2 ^ w) <= 255)).
  { intros [-> Hg']. destruct Hg as [Hg|[Hg|[Hg1 Hg2]]]; [discriminate | assert (2 ^ b <= 2 ^ 7) by (apply Z.pow_le_mono_r; lia); change (2 ^ 7) with 128 in *; lia |].
    specialize (He Hg1). assert (2 ^ 8 <= 2 ^ (b - 1)) by (apply Z.pow_le_mono_r; lia). change (2 ^ 8) with 256 in *. lia. }
  destruct (gen_prime_prim_returns f pf lf fuel w Hw Hw64 b exact x dr q ltac:(lia) Gap Pq ltac:(lia) ltac:(lia)) as [p [E Hp]].
  exists p. split; [exact E|]. destruct exact; [specialize (He eq_refl); lia | lia].
Qed.
(** gen_prime keeps the limit for the lower half of the draws. *)
Theorem C74_lower_half : forall f pf lf fuel w b x dr, valid_ity (U w) -> w <= 64 -> 2 <= b <= w -> Z.of_nat lf <= 2 ^ 31 -> 2 ^ b <= fuel -> f = BigTable \/ b < 9 ->
  0 <= x < 2 ^ (w - 1) -> exists p, gen_prime_prim f pf lf fuel w false b (x :: dr) = Ret (p, dr) /\ p < 2 ^ b.
Proof.
  intros f pf lf fuel w b x dr Hw Hw64 Hb Hlf Hf Hg Hx. assert (Pw : 0 < 2 ^ (w - 1)) by (apply Z.pow_pos_nonneg; lia). assert (Ew : 2 ^ w = 2 * 2 ^ (w - 1)) by (rewrite <- Z.pow_succ_r by lia; f_equal; lia).
  assert (E2 : 2 ^ b <= 2 ^ w) by (apply Z.pow_le_mono_r; lia). assert (Eb : 2 ^ b = 2 * 2 ^ (b - 1)) by (rewrite <- Z.pow_succ_r by lia; f_equal; lia).
  assert (Es : shaped w b false x = shaped w (b - 1) false (2 * x)).
  { unfold shaped. do 2 f_equal. replace (w - (b - 1)) with (Z.succ (w - b)) by lia. rewrite Z.pow_succ_r by lia. rewrite Z.div_mul_cancel_l; [reflexivity | apply Z.pow_nonzero; lia | lia]. }
  destruct (shaped_bounds w (b - 1) false (2 * x) ltac:(lia) ltac:(lia)) as [_ [Ht _]]. rewrite <- Es in Ht.
  destruct (bertrand (shaped w b false x) ltac:(lia)) as [q [Pq Hq]].
  assert (Gap : ~ (f = SmallTable /\ 252 <= shaped w b false x <= 255)).
  { intros [-> Hg']. destruct Hg as [Hg|Hg]; [discriminate|]. assert (2 ^ (b - 1) <= 2 ^ 7) by (apply Z.pow_le_mono_r; lia). change (2 ^ 7) with 128 in *. lia. }
  pose proof (gen_prime_prim_returns f pf lf fuel w Hw Hw64 b false x dr q ltac:(lia)) as R. cbv zeta in R. rewrite (Z.mod_small x) in R by lia.
  destruct (R Gap Pq ltac:(lia) ltac:(lia)) as [p [E Hp]]. exists p. split; [exact E | lia].
Qed.
(** For 2 bits and more some draw makes gen_prime_exact return a prime of exactly this size: the draw 0. *)
Theorem C74_exact_possible : forall f pf lf fuel w b dr, valid_ity (U w) -> w <= 64 -> 2 <= b <= w -> Z.of_nat lf <= 2 ^ 31 -> 2 ^ b <= fuel ->
  exists p, gen_prime_prim f pf lf fuel w true b (0 :: dr) = Ret (p, dr) /\ 2 ^ (b - 1) <= p < 2 ^ b.
Proof.
  intros f pf lf fuel w b dr Hw Hw64 Hb Hlf Hf. assert (E2 : 2 ^ b <= 2 ^ w) by (apply Z.pow_le_mono_r; lia). assert (Eb : 2 ^ b = 2 * 2 ^ (b - 1)) by (rewrite <- Z.pow_succ_r by lia; f_equal; lia).
  assert (P1 : 2 <= 2 ^ (b - 1)) by (change 2 with (2 ^ 1) at 1; apply Z.pow_le_mono_r; lia).
  assert (Es : shaped w b true (0 mod 2 ^ w) = 2 ^ (b - 1) + 1).
  { unfold shaped. rewrite Z.mod_0_l, Z.div_0_l, Z.lor_0_l by (apply Z.pow_nonzero; lia). rewrite Z.lor_comm. replace (2 ^ (b - 1)) with (2 * 2 ^ (b - 2)) by (rewrite <- Z.pow_succ_r by lia; f_equal; lia).
    pose proof (Z.pow_pos_nonneg 2 (b - 2) ltac:(lia) ltac:(lia)). rewrite lor1 by lia. rewrite Z.odd_mul. reflexivity. }
  destruct (bertrand_strict (2 ^ (b - 1)) P1) as [q [Pq Hq]].
  assert (Gap : ~ (f = SmallTable /\ 252 <= shaped w b true (0 mod 2 ^ w) <= 255)).
  { rewrite Es. intros [_ Hg]. assert (b - 1 <= 7 \/ 8 <= b - 1) as [C|C] by lia; [assert (2 ^ (b - 1) <= 2 ^ 7) by (apply Z.pow_le_mono_r; lia) | assert (2 ^ 8 <= 2 ^ (b - 1)) by (apply Z.pow_le_mono_r; lia)]; change (2 ^ 7) with 128 in *; change (2 ^ 8) with 256 in *; lia. }
  destruct (gen_prime_prim_returns f pf lf fuel w Hw Hw64 b true 0 dr q ltac:(lia) Gap Pq ltac:(rewrite Es; lia) ltac:(lia)) as [p [E Hp]]. rewrite Es in Hp. exists p. split; [exact E | lia].
Qed.

Example C74_case : (exists p, next_prime BigTable Debug Big 100 (10 ^ 41) (10 ^ 40) (Some {| sprp_trials := 2; sprp_random_trials := 0; slprp_test := false; eslprp_test := false |}) [7] = Ret (Some p, [7]) /\ 10 ^ 40 < p <= 2 * 10 ^ 40)
  /\ next_prime BigTable Debug (U 8) 50 300 127 None [] = Ret (Some 131, []) /\ prev_prime BigTable Debug (U 8) 50 300 5 None [] = Ret (Some 3, []).
Proof.
  split; [|split; vm_compute; reflexivity]. apply C74_next_prime_quiet; cbn [sprp_random_trials eslprp_test slprp_test]; try exact I; try lia; try reflexivity; try discriminate; try (intros [E _]; discriminate); unfold in_range; lia.
Qed.
Print Assumptions C74_bertrand.
Print Assumptions C74_next_prime.
Print Assumptions C74_next_prime64.
Print Assumptions C74_next_prime_quiet.
Print Assumptions C74_prev_prime.
Print Assumptions C74_prev_prime_quiet.
Print Assumptions C74_gen_prime.
Print Assumptions C74_gen_prime_u128.
Print Assumptions C74_gen_prime_big.
Print Assumptions C74_one_draw.
Print Assumptions C74_lower_half.
Print Assumptions C74_exact_possible.
