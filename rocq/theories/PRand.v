(** * Proofs about random prime generation (src/rand.rs). *)
From Coq Require Import ZArith Znumtheory List Lia Bool Sorted.
From Verif Require Import Base Tables Spec Ext NT PBase PTables MInteger PInteger Ops POps MPrimality MTraits PSprp MFactor MSieve PSieve MIsPrime PBuffer PIsPrime PIsPrime2 PropIsPrime PFactorize3 PNext MRand.
Import ListNotations.
Local Open Scope Z_scope.

Lemma lor_lt : forall a b n, 0 <= n -> 0 <= a < 2 ^ n -> 0 <= b < 2 ^ n -> 0 <= Z.lor a b < 2 ^ n.
Proof.
  intros a b n Hn Ha Hb. split; [apply Z.lor_nonneg; lia|]. destruct (Z.eq_dec (Z.lor a b) 0) as [E|E]; [rewrite E; apply Z.pow_pos_nonneg; lia|].
  assert (0 <= Z.lor a b) by (apply Z.lor_nonneg; lia). apply Z.log2_lt_pow2; [lia|]. rewrite Z.log2_lor by lia.
  destruct (Z.eq_dec n 0) as [->|Nn]; [assert (a = 0 /\ b = 0) as [-> ->] by (change (2 ^ 0) with 1 in *; lia); exfalso; apply E; reflexivity|].
  apply Z.max_lub_lt; [destruct (Z.eq_dec a 0) as [->|]; [cbn; lia | apply Z.log2_lt_pow2; lia] | destruct (Z.eq_dec b 0) as [->|]; [cbn; lia | apply Z.log2_lt_pow2; lia]].
Qed.
Lemma lor_ge : forall a b, 0 <= a -> 0 <= b -> a <= Z.lor a b.
Proof.
  intros a b Ha Hb. assert (D : Z.land a (Z.ldiff b a) = 0) by (apply Z.bits_inj'; intros k Hk; rewrite Z.land_spec, Z.ldiff_spec, Z.bits_0; destruct (Z.testbit a k), (Z.testbit b k); reflexivity).
  replace (Z.lor a b) with (Z.lor a (Z.ldiff b a)) by (apply Z.bits_inj'; intros k Hk; rewrite !Z.lor_spec, Z.ldiff_spec; destruct (Z.testbit a k), (Z.testbit b k); reflexivity).
  rewrite <- Z.lxor_lor, <- Z.add_nocarry_lxor by exact D. assert (0 <= Z.ldiff b a) by (apply Z.ldiff_nonneg; left; lia). lia.
Qed.
Lemma loop_done : forall S R (g : S -> res (step S R)) n s x, 0 < n -> g s = Ret (Done x) -> loop n g s = Ret x.
Proof. intros S R g n s x Hn E. unfold loop. replace n with (n - 1 + 1) by lia. rewrite iter_succ, E by lia. reflexivity. Qed.
(** the shaped draw: the top [b] bits of a [w]-bit number, made odd, and (exact) with bit b-1 set *)
Definition shaped (w b : Z) (exact : bool) (x : Z) : Z := Z.lor (Z.lor (x / 2 ^ (w - b)) 1) (if exact then 2 ^ (b - 1) else 0).
Lemma shaped_bounds : forall w b exact x, 1 <= b <= w -> 0 <= x < 2 ^ w ->
  Z.odd (shaped w b exact x) = true /\ 0 < shaped w b exact x < 2 ^ b /\ (exact = true -> 2 ^ (b - 1) <= shaped w b exact x).
Proof.
  intros w b exact x Hb Hx. unfold shaped. assert (P1 : 0 < 2 ^ (w - b)) by (apply Z.pow_pos_nonneg; lia). assert (P2 : 0 < 2 ^ (b - 1)) by (apply Z.pow_pos_nonneg; lia).
  assert (Pb : 2 ^ b = 2 * 2 ^ (b - 1)) by (rewrite <- Z.pow_succ_r by lia; f_equal; lia).
  assert (Hd : 0 <= x / 2 ^ (w - b) < 2 ^ b). { split; [apply Z.div_pos; lia|]. apply Z.div_lt_upper_bound; [lia|]. rewrite <- Z.pow_add_r by lia. replace (w - b + b) with w by lia. lia. }
  assert (Ht : 0 <= (if exact then 2 ^ (b - 1) else 0) < 2 ^ b) by (destruct exact; lia).
  assert (Ho : Z.odd (Z.lor (Z.lor (x / 2 ^ (w - b)) 1) (if exact then 2 ^ (b - 1) else 0)) = true).
  { rewrite <- Z.bit0_odd. rewrite !Z.lor_spec. replace (Z.testbit 1 0) with true by reflexivity. rewrite orb_true_r. reflexivity. }
  pose proof (lor_lt (x / 2 ^ (w - b)) 1 b ltac:(lia) Hd ltac:(lia)) as H1. pose proof (lor_lt _ _ b ltac:(lia) H1 Ht) as H2.
  split; [exact Ho|]. split.
  - split; [|lia]. destruct (Z.eq_dec (Z.lor (Z.lor (x / 2 ^ (w - b)) 1) (if exact then 2 ^ (b - 1) else 0)) 0) as [E|]; [rewrite E in Ho; discriminate | lia].
  - intros ->. rewrite (Z.lor_comm (Z.lor _ _)). apply lor_ge; lia.
Qed.
Lemma shape_prim_ok : forall pf w b exact x, valid_ity (U w) -> 1 <= b <= w -> 0 <= x < 2 ^ w -> shape_prim pf w b exact x = Ret (shaped w b exact x).
Proof.
  intros pf w b exact x Hw Hb Hx. unfold shape_prim, shaped. assert (w <= 128) by (cbn [valid_ity] in Hw; lia). rewrite sub_ok by (cbn [in_range]; lia). cbn [bind].
  rewrite shr_ok by (cbn [in_range]; lia). rewrite Z.shiftr_div_pow2 by lia. cbn [bind]. destruct exact; [|rewrite Z.lor_0_r; reflexivity].
  rewrite sub_ok by (cbn [usize in_range]; lia). cbn [bind shl_]. replace ((0 <=? b - 1) && (b - 1 <? w)) with true by (symmetry; rewrite andb_true_iff, Z.leb_le, Z.ltb_lt; lia).
  rewrite Z.shiftl_1_l. rewrite Z.mod_small; [reflexivity|]. split; [apply Z.pow_nonneg; lia | apply Z.pow_lt_mono_r; lia].
Qed.

(** the Montgomery wrapped test agrees on even numbers too *)
Lemma mint_probably_all : forall f pf t n lf config dr, valid_ity t -> in_range t n -> eslprp_test (the_config config) = false -> Z.of_nat lf <= 2 ^ 61 ->
  mint_probably f pf t lf n config dr = prime_probably f pf t lf n config dr.
Proof.
  intros f pf t n lf config dr Ht Hn He Hlf. pose proof (in_range_nonneg _ _ Hn). assert (VU : UV t n n) by (split; auto). assert (VM : MV t (ML n) n) by (split; auto). destruct (Z.even n) eqn:Ev.
  - unfold mint_probably, prime_probably, nt_is_prime. rewrite (is_prime_even f pf _ no_probs t _ _ _ (uops_lawful f pf t) Ht _ _ _ _ _ _ VU Ev).
    rewrite (is_prime_even f pf _ no_probs t _ _ _ (mops_lawful pf t) Ht _ _ _ _ _ _ VM Ev). reflexivity.
  - assert (Ho : Z.odd n = true) by (rewrite <- Z.negb_even, Ev; reflexivity). assert (n <> 0) by (intros ->; discriminate). apply mint_probably_eq; auto. lia.
Qed.

(** ** u8, u16, u32, u64 *)
Section Prim.
Variables (f : feature) (pf : profile) (lf : nat) (fuel w : Z).
Hypothesis (Hw : valid_ity (U w)).
Hypothesis (Hw64 : w <= 64).
Hypothesis (Hlf : Z.of_nat lf <= 2 ^ 31).

Lemma small64 : forall y, in_range (U w) y -> y < 2 ^ 64.
Proof using Hw Hw64. clear Hlf. intros y Hy. cbn [in_range] in Hy. assert (2 ^ w <= 2 ^ 64) by (apply Z.pow_le_mono_r; lia). lia. Qed.

Definition gen_post (b : Z) (exact : bool) (dr : draws) (r : Z * draws) : Prop :=
  let '(p, dr') := r in exists pre x, dr = pre ++ x :: dr' /\ let t := shaped w b exact (x mod 2 ^ w) in
    t <= p < 2 ^ w /\ z_is_prime64 f p = true /\ (forall q, prime q -> ~ (t <= q < p)).

Lemma gen_prime_prim_spec : forall b exact dr, 1 <= b <= w -> run True True (gen_post b exact dr) (gen_prime_prim f pf lf fuel w exact b dr).
Proof.
  intros b exact dr Hb. unfold gen_prime_prim. replace (w <? b) with false by (symmetry; apply Z.ltb_ge; lia).
  apply (run_loop _ _ True True (fun d => exists pre, dr = pre ++ d)); [exists []; reflexivity | exact I|].
  intros d [pre ->]. destruct d as [|x d]; cbn [draw bind run]; [exact I|]. assert (Pw : 0 < 2 ^ w) by (apply Z.pow_pos_nonneg; lia).
  pose proof (Z.mod_pos_bound x (2 ^ w) Pw) as Bx. rewrite shape_prim_ok by assumption. cbn [bind]. destruct (shaped_bounds w b exact _ Hb Bx) as [Ho [Ht _]].
  assert (Pb : 2 ^ b <= 2 ^ w) by (apply Z.pow_le_mono_r; lia). set (t := shaped w b exact (x mod 2 ^ w)) in *. assert (Hr : in_range (U w) t) by (cbn [in_range]; lia). pose proof (small64 t Hr).
  rewrite is_prime64_law by assumption. cbn [bind]. destruct (z_is_prime64 f t) eqn:Et.
  - cbn [run]. exists pre, x. split; [reflexivity|]. cbv zeta. fold t. split; [lia|]. split; [exact Et|]. intros q _ Hq. lia.
  - pose proof (next_prime_spec f pf (U w) lf None Hw Hlf fuel t d Hr (or_intror small64)) as R.
    destruct (next_prime f pf (U w) lf fuel t None d) as [[o d2]| |] eqn:En; cbn [bind run] in *; try exact I.
    pose proof (next_no_draws f pf (U w) lf None Hw fuel t d Hr small64) as Rd. rewrite En in Rd. cbn [run snd] in Rd. subst d2.
    unfold next_post in R. cbn [fst] in R. destruct o as [p|]; [|exists (pre ++ [x]); rewrite <- app_assoc; reflexivity].
    destruct R as [R1 [R2 [[d1 [d1' R3]] R4]]]. exists pre, x. split; [reflexivity|]. cbv zeta. fold t. cbn [in_range] in R2. split; [lia|].
    rewrite (probably_small f pf (U w) lf None Hw p d1 R2 (small64 p R2)) in R3. injection R3 as R3 _. split; [exact R3|].
    intros q Pq Hq. destruct (Z.eq_dec q t) as [->|Nq]; [rewrite (z_is_prime64_complete f t Pq) in Et; discriminate|].
    specialize (R4 q Pq ltac:(lia)). assert (Z.log2 (q + 1) < 65); [|lia]. pose proof (small64 p R2). apply Z.log2_lt_pow2; [lia|]. change (2 ^ 65) with (2 * 2 ^ 64). lia.
Qed.
(** one draw is enough when a prime of the type is at or above it *)
Lemma gen_prime_prim_returns : forall b exact x dr q, 1 <= b <= w -> let t := shaped w b exact (x mod 2 ^ w) in
  ~ (f = SmallTable /\ 252 <= t <= 255) -> prime q -> t <= q < 2 ^ w -> q < fuel -> exists p, gen_prime_prim f pf lf fuel w exact b (x :: dr) = Ret (p, dr) /\ t <= p <= q.
Proof.
  intros b exact x dr q Hb t Hg Pq Hq Hfuel. unfold gen_prime_prim. replace (w <? b) with false by (symmetry; apply Z.ltb_ge; lia). assert (Pw : 0 < 2 ^ w) by (apply Z.pow_pos_nonneg; lia).
  pose proof (Z.mod_pos_bound x (2 ^ w) Pw) as Bx. destruct (shaped_bounds w b exact _ Hb Bx) as [Ho [Ht _]]. fold t in Ho, Ht. assert (Pb : 2 ^ b <= 2 ^ w) by (apply Z.pow_le_mono_r; lia). assert (Hr : in_range (U w) t) by (cbn [in_range]; lia).
  pose proof (prime_ge2 q Pq). destruct (z_is_prime64 f t) eqn:Et.
  - exists t. split; [|lia]. apply loop_done; [lia|]. cbn [draw bind]. rewrite shape_prim_ok by assumption. cbn [bind]. fold t. rewrite is_prime64_law by (apply small64, Hr). rewrite Et. reflexivity.
  - assert (Ntq : t <> q) by (intros E; rewrite E, (z_is_prime64_complete f q Pq) in Et; discriminate).
    assert (Hq' : in_range (U w) q) by (cbn [in_range]; lia).
    destruct (next_returns_prime f pf (U w) lf None Hw fuel t q dr Hr Hg Pq ltac:(lia) Hq' (small64 q Hq') ltac:(lia)) as [p [E Hp]].
    exists p. split; [|lia]. apply loop_done; [lia|]. cbn [draw bind]. rewrite shape_prim_ok by assumption. cbn [bind]. fold t. rewrite is_prime64_law by (apply small64, Hr). rewrite Et. cbn [bind]. rewrite E. reflexivity.
Qed.

Definition safe_post (r : Z * draws) : Prop := let '(p, _) := r in 0 <= p < 2 ^ w /\ z_is_prime64 f p = true /\ z_is_prime64 f (p / 2) = true.
Lemma gen_bound : forall b exact dr p dr', 1 <= b <= w -> gen_prime_prim f pf lf fuel w exact b dr = Ret (p, dr') -> 0 <= p < 2 ^ w /\ z_is_prime64 f p = true /\ (exact = true -> 2 ^ (b - 1) <= p).
Proof.
  intros b exact dr p dr' Hb E. pose proof (gen_prime_prim_spec b exact dr Hb) as R. rewrite E in R. cbn [run gen_post] in R. destruct R as [pre [x [_ [H1 [H2 _]]]]].
  destruct (shaped_bounds w b exact (x mod 2 ^ w) Hb (Z.mod_pos_bound x (2 ^ w) ltac:(apply Z.pow_pos_nonneg; lia))) as [_ [H3 H4]]. split; [lia|]. split; [exact H2|]. intros Ex. specialize (H4 Ex). lia.
Qed.
Lemma half_ok : forall p, 0 <= p < 2 ^ w -> shr_ pf (U w) p 1 = Ret (p / 2) /\ 0 <= p / 2 < 2 ^ 64.
Proof using Hw Hw64. clear Hlf.
  intros p Hp. rewrite shr_ok; [rewrite Z.shiftr_div_pow2 by lia; change (2 ^ 1) with 2 | exact Hp | lia | cbn [valid_ity] in Hw; lia]. split; [reflexivity|].
  pose proof (small64 p Hp). split; [apply Z.div_pos; lia | apply Z.div_lt_upper_bound; lia].
Qed.
Lemma double_ok : forall p p2, 0 <= p < 2 ^ w -> double_plus_one (U w) p = Some p2 -> p2 = 2 * p + 1 /\ 0 <= p2 < 2 ^ w.
Proof using. clear Hw Hw64 Hlf.
  intros p p2 Hp E. unfold double_plus_one in E. destruct (checked (U w) (p * 2)) as [v|] eqn:E1; [|discriminate]. apply checked_inv in E1. destruct E1 as [-> _]. apply checked_inv in E. destruct E as [-> H]. cbn [in_range] in H. split; [lia | exact H].
Qed.
Lemma gen_safe_prim_spec : forall b dr, 1 <= b <= w -> run True True safe_post (gen_safe_prime_prim f pf lf fuel w b dr).
Proof.
  intros b dr Hb. unfold gen_safe_prime_prim. apply (run_loop _ _ True True (fun _ => True)); [exact I | exact I|]. intros d _.
  destruct (gen_prime_prim f pf lf fuel w false b d) as [[p d1]| |] eqn:E; cbn [bind run]; try exact I. destruct (gen_bound _ _ _ _ _ Hb E) as [Hp [Hz _]].
  destruct (half_ok p Hp) as [-> Hh]. cbn [bind]. rewrite is_prime64_law by lia. cbn [bind]. destruct (z_is_prime64 f (p / 2)) eqn:Eh; [cbn [run safe_post]; auto|].
  destruct (double_plus_one (U w) p) as [p2|] eqn:E2; [|exact I]. destruct (double_ok p p2 Hp E2) as [H2 Hr2]. rewrite is_prime64_law by (apply small64, Hr2). cbn [bind].
  destruct (z_is_prime64 f p2) eqn:Ez; [|exact I]. cbn [run safe_post]. split; [exact Hr2|]. split; [exact Ez|]. replace (p2 / 2) with p; [exact Hz|]. rewrite H2. apply (Z.div_unique _ _ _ 1); lia.
Qed.
Lemma gen_safe_exact_prim_spec : forall b dr, 1 <= b <= w -> run True True (fun r => safe_post r /\ 2 ^ (b - 1) <= fst r) (gen_safe_prime_exact_prim f pf lf fuel w b dr).
Proof.
  intros b dr Hb. unfold gen_safe_prime_exact_prim. apply (run_loop _ _ True True (fun _ => True)); [exact I | exact I|]. intros d _.
  destruct (gen_prime_prim f pf lf fuel w true b d) as [[p d1]| |] eqn:E; cbn [bind run]; try exact I. destruct (gen_bound _ _ _ _ _ Hb E) as [Hp [Hz Hx]].
  destruct (half_ok p Hp) as [-> Hh]. cbn [bind]. rewrite is_prime64_law by lia. cbn [bind]. destruct (z_is_prime64 f (p / 2)) eqn:Eh; [cbn [run safe_post fst]; auto | exact I].
Qed.
End Prim.

(** gen_safe_prime_exact with 1 or 2 bits runs for ever *)
Lemma shaped_2_exact : forall w x, 2 <= w -> 0 <= x < 2 ^ w -> shaped w 2 true x = 3.
Proof.
  intros w x Hw Hx. unfold shaped. assert (P : 0 < 2 ^ (w - 2)) by (apply Z.pow_pos_nonneg; lia).
  assert (H : 0 <= x / 2 ^ (w - 2) < 4). { split; [apply Z.div_pos; lia|]. apply Z.div_lt_upper_bound; [lia|]. change 4 with (2 ^ 2). rewrite <- Z.pow_add_r by lia. replace (w - 2 + 2) with w by lia. lia. }
  assert (C : x / 2 ^ (w - 2) = 0 \/ x / 2 ^ (w - 2) = 1 \/ x / 2 ^ (w - 2) = 2 \/ x / 2 ^ (w - 2) = 3) by lia. destruct C as [->|[->|[->| ->]]]; reflexivity.
Qed.
Lemma shaped_1_exact : forall w x, 1 <= w -> 0 <= x < 2 ^ w -> shaped w 1 true x = 1.
Proof.
  intros w x Hw Hx. pose proof (shaped_bounds w 1 true x ltac:(lia) Hx) as [_ [H _]]. change (2 ^ 1) with 2 in H. lia.
Qed.
Lemma loop_never : forall S R (g : S -> res (step S R)) n s, (forall s, g s = NoFuel \/ exists s', g s = Ret (Next s')) -> loop n g s = NoFuel.
Proof.
  intros S R g n s H. unfold loop. rewrite iter_niter. generalize (Z.to_nat n) as k. intros k. revert s. induction k as [|k IH]; intros s; [reflexivity|]. cbn [niter].
  destruct (H s) as [-> | [s' ->]]; [reflexivity|]. apply IH.
Qed.
Lemma gen_safe_exact_diverges : forall f pf lf fuel w b dr, valid_ity (U w) -> w <= 64 -> b = 1 \/ b = 2 -> 1 <= fuel -> gen_safe_prime_exact_prim f pf lf fuel w b dr = NoFuel.
Proof.
  intros f pf lf fuel w b dr Hw Hw64 Hb Hfuel. unfold gen_safe_prime_exact_prim. apply loop_never. intros d. assert (W8 : 8 <= w) by (cbn [valid_ity] in Hw; lia). assert (P4 : 2 ^ 8 <= 2 ^ w) by (apply Z.pow_le_mono_r; lia). change (2 ^ 8) with 256 in P4.
  destruct d as [|x d].
  - left. unfold gen_prime_prim. replace (w <? b) with false by (symmetry; apply Z.ltb_ge; lia). unfold loop. replace fuel with (fuel - 1 + 1) by lia. rewrite iter_succ by lia. reflexivity.
  - right. exists d. assert (E : exists p, gen_prime_prim f pf lf fuel w true b (x :: d) = Ret (p, d) /\ (p = 2 \/ p = 3)).
    { assert (Bx := Z.mod_pos_bound x (2 ^ w) ltac:(lia)). unfold gen_prime_prim. replace (w <? b) with false by (symmetry; apply Z.ltb_ge; lia). destruct Hb as [->| ->].
      - exists 2. split; [|auto]. apply loop_done; [lia|]. cbn [draw bind]. rewrite shape_prim_ok by (auto; lia). rewrite (shaped_1_exact w) by lia. cbn [bind].
        replace (is_prime64 f pf 1) with (Ret false) by (rewrite is_prime64_law by lia; reflexivity). cbn [bind].
        destruct (next_prime_cases f pf (U w) lf None Hw fuel 1 d ltac:(cbn [in_range]; lia) ltac:(intros [_ C]; lia)) as [[p [[Pp [Hp1 Hp2]] [_ ->]]]|[C _]]; [|lia].
        assert (p = 2) as -> by (specialize (Hp2 2 prime_2 ltac:(lia)); lia). rewrite from_prim_ok by (cbn [in_range]; lia). reflexivity.
      - exists 3. split; [|auto]. apply loop_done; [lia|]. cbn [draw bind]. rewrite shape_prim_ok by (auto; lia). rewrite (shaped_2_exact w) by lia. cbn [bind].
        replace (is_prime64 f pf 3) with (Ret true) by (rewrite is_prime64_law by lia; rewrite (z_is_prime64_complete f 3 prime_3); reflexivity). reflexivity. }
    destruct E as [p [-> Hp]]. cbn [bind]. destruct (half_ok pf w Hw Hw64 p ltac:(lia)) as [-> _]. cbn [bind]. replace (p / 2) with 1 by (destruct Hp as [->| ->]; reflexivity).
    rewrite is_prime64_law by lia. reflexivity.
Qed.

(** ** u128 and big integers *)
Section Wide.
Variables (f : feature) (pf : profile) (lf : nat) (fuel : Z).
Hypothesis (Hlf : Z.of_nat lf <= 2 ^ 31).
Definition accepted_by (t : ity) (config : option prime_config) (p : Z) : Prop := exists d d', prime_probably f pf t lf p config d = Ret (true, d').

Definition wide_post (t : ity) (w b : Z) (exact : bool) (config config' : option prime_config) (dr : draws) (r : Z * draws) : Prop :=
  let '(p, dr') := r in incl dr' dr /\ exists x, In x dr /\ let t0 := shaped w b exact (x mod 2 ^ w) in
    t0 <= p /\ in_range t p /\ (accepted_by t config p \/ accepted_by t config' p) /\ (nonzero_draws dr -> Z.log2 (p + 1) < 2 ^ 64 -> forall q, prime q -> ~ (t0 <= q < p)).

Lemma wide_step : forall t w b exact config config' dr x d, valid_ity t -> 1 <= b <= w -> incl (x :: d) dr -> let t0 := shaped w b exact (x mod 2 ^ w) in in_range t t0 ->
  run True True (fun r => match r with Next d' => incl d' dr | Done r => wide_post t w b exact config config' dr r end)
    ('(ok, dr2) <- prime_probably f pf t lf t0 config d ;;
     if ok then Ret (Done (t0, dr2)) else '(r, dr3) <- next_prime f pf t lf fuel t0 config' dr2 ;; match r with Some p => Ret (Done (p, dr3)) | None => Ret (Next dr3) end).
Proof.
  intros t w b exact config config' dr x d Ht Hb Hi t0 Hr. destruct (prime_probably f pf t lf t0 config d) as [[ok d2]| |] eqn:E; cbn [bind run]; try exact I.
  assert (Hi2 : incl d2 dr) by (apply (incl_tran (probably_draws f pf t lf config _ _ _ _ E)); intros y Hy; apply Hi; right; exact Hy).
  assert (Hx : In x dr) by (apply Hi; left; reflexivity). destruct ok; cbn [run].
  - split; [exact Hi2|]. exists x. split; [exact Hx|]. cbv zeta. fold t0. split; [lia|]. split; [exact Hr|]. split; [left; exists d, d2; exact E|]. intros _ _ q _ Hq. lia.
  - pose proof (next_prime_basic f pf t lf config' Ht fuel t0 d2 Hr) as R1. 
    assert (R2 : nonzero_draws dr -> run True True (next_post f pf t lf config' t0) (next_prime f pf t lf fuel t0 config' d2)) by (intros N; apply (next_prime_spec f pf t lf config' Ht Hlf fuel t0 d2 Hr); left; eapply nonzero_incl; eassumption).
    destruct (next_prime f pf t lf fuel t0 config' d2) as [[o d3]| |]; cbn [bind run fst snd] in *; try exact I. destruct R1 as [Hi3 R1].
    assert (Hi4 : incl d3 dr) by (eapply incl_tran; eassumption).
    destruct o as [p|]; cbn [run]; [|exact Hi4]. destruct R1 as [A [B C]]. split; [exact Hi4|]. exists x. split; [exact Hx|]. cbv zeta. fold t0. split; [lia|]. split; [exact B|]. split; [right; exact C|].
    intros N Hl q Pq Hq. specialize (R2 N). unfold next_post in R2. cbn [fst] in R2. destruct R2 as [_ [_ [_ R2]]]. assert (Hlq : Z.log2 (q + 1) < 2 ^ 64) by (pose proof (Z.log2_le_mono (q + 1) (p + 1) ltac:(lia)); lia).
    destruct (Z.eq_dec q t0) as [Eq|Nq]; [|specialize (R2 q Pq ltac:(lia)); lia]. rewrite Eq in *. assert (false = true); [|discriminate].
    apply (probably_prime f pf t lf config Ht Hlf t0 d false d2 Hr Pq Hlq); [left; intros y Hy; apply N, Hi; right; exact Hy | exact E].
Qed.
Lemma gen_prime_u128_spec : forall b exact config dr, 1 <= b <= 128 -> eslprp_test (the_config config) = false ->
  run True True (wide_post u128 128 b exact config None dr) (gen_prime_u128 f pf lf fuel exact b config dr).
Proof.
  intros b exact config dr Hb He. unfold gen_prime_u128. replace (128 <? b) with false by (symmetry; apply Z.ltb_ge; lia).
  apply (run_loop _ _ True True (fun d => incl d dr)); [apply incl_refl | exact I|]. intros d Hd. destruct d as [|x d]; cbn [draw bind run]; [exact I|].
  pose proof (Z.mod_pos_bound x (2 ^ 128) ltac:(lia)) as Bx. rewrite shape_prim_ok by (auto; cbn [valid_ity]; lia). cbn [bind]. destruct (shaped_bounds 128 b exact _ Hb Bx) as [Ho [Ht _]].
  assert (Pb : 2 ^ b <= 2 ^ 128) by (apply Z.pow_le_mono_r; lia). assert (Hr : in_range u128 (shaped 128 b exact (x mod 2 ^ 128))) by (cbn [u128 in_range]; lia).
  rewrite mint_probably_all by (auto; cbn; lia). apply wide_step; auto. cbn; lia.
Qed.
Lemma gen_prime_big_spec : forall b exact config dr, 1 <= b < 2 ^ 64 ->
  run True True (wide_post Big b b exact config config dr) (gen_prime_big f pf lf fuel exact b config dr).
Proof.
  intros b exact config dr Hb. unfold gen_prime_big.
  apply (run_loop _ _ True True (fun d => incl d dr)); [apply incl_refl | exact I|]. intros d Hd. destruct d as [|x d]; cbn [draw bind run]; [exact I|].
  assert (P0 : 0 < 2 ^ b) by (apply Z.pow_pos_nonneg; lia). pose proof (Z.mod_pos_bound x (2 ^ b) P0) as Bx. 
  assert (Es : shape_big pf b exact (x mod 2 ^ b) = Ret (shaped b b exact (x mod 2 ^ b))).
  { unfold shape_big, shaped. rewrite Z.sub_diag, Z.pow_0_r, Z.div_1_r. destruct exact; [|rewrite Z.lor_0_r; reflexivity]. rewrite sub_ok by (cbn [u64 in_range]; lia). reflexivity. }
  rewrite Es. cbn [bind]. destruct (shaped_bounds b b exact _ ltac:(lia) Bx) as [Ho [Ht _]]. apply wide_step; [exact I | lia | exact Hd | cbn [in_range]; lia].
Qed.

(** safe primes *)
Definition any_config (t : ity) (p : Z) : Prop := accepted_by t (Some pc_strict) p \/ accepted_by t None p.
Lemma gen_safe_u128_spec : forall b dr, 1 <= b <= 128 ->
  run True True (fun r => 0 <= fst r < 2 ^ 128 /\ any_config u128 (fst r) /\ any_config u128 (fst r / 2)) (gen_safe_prime_u128 f pf lf fuel b dr).
Proof.
  intros b dr Hb. unfold gen_safe_prime_u128. apply (run_loop _ _ True True (fun _ => True)); [exact I | exact I|]. intros d _.
  pose proof (gen_prime_u128_spec b false (Some pc_strict) d Hb eq_refl) as R. destruct (gen_prime_u128 f pf lf fuel false b (Some pc_strict) d) as [[p d1]| |]; cbn [bind run] in *; try exact I.
  destruct R as [_ [x [_ [Ht [Hp [Ha _]]]]]]. cbn [u128 in_range] in Hp. rewrite shr_ok by (cbn [u128 in_range]; lia). rewrite Z.shiftr_div_pow2 by lia. change (2 ^ 1) with 2. cbn [bind].
  assert (Hh : 0 <= p / 2 <= p) by (split; [apply Z.div_pos; lia | apply Z.div_le_upper_bound; lia]).
  rewrite mint_probably_all by (cbn; auto; lia). destruct (prime_probably f pf u128 lf (p / 2) (Some pc_strict) d1) as [[b1 d2]| |] eqn:E1; cbn [bind run]; try exact I. destruct b1; cbn [run fst].
  { split; [exact Hp|]. split; [exact Ha|]. left. exists d1, d2. exact E1. }
  destruct (double_plus_one u128 p) as [p2|] eqn:E2; [|exact I]. unfold u128 in E2. destruct (double_ok 128 p p2 Hp E2) as [H2 Hr2].
  destruct (prime_probably f pf u128 lf p2 (Some pc_strict) d2) as [[b2 d3]| |] eqn:E3; cbn [bind run]; try exact I. destruct b2; [|exact I]. cbn [run fst]. split; [exact Hr2|]. split; [left; exists d2, d3; exact E3|].
  replace (p2 / 2) with p; [exact Ha|]. rewrite H2. apply (Z.div_unique _ _ _ 1); lia.
Qed.
Lemma gen_safe_exact_u128_spec : forall b dr, 1 <= b <= 128 ->
  run True True (fun r => 2 ^ (b - 1) <= fst r < 2 ^ 128 /\ any_config u128 (fst r) /\ any_config u128 (fst r / 2)) (gen_safe_prime_exact_u128 f pf lf fuel b dr).
Proof.
  intros b dr Hb. unfold gen_safe_prime_exact_u128. apply (run_loop _ _ True True (fun _ => True)); [exact I | exact I|]. intros d _.
  pose proof (gen_prime_u128_spec b true (Some pc_strict) d Hb eq_refl) as R. destruct (gen_prime_u128 f pf lf fuel true b (Some pc_strict) d) as [[p d1]| |]; cbn [bind run] in *; try exact I.
  destruct R as [_ [x [_ [Ht [Hp [Ha _]]]]]]. cbn [u128 in_range] in Hp. rewrite shr_ok by (cbn [u128 in_range]; lia). rewrite Z.shiftr_div_pow2 by lia. change (2 ^ 1) with 2. cbn [bind].
  destruct (shaped_bounds 128 b true (x mod 2 ^ 128) Hb (Z.mod_pos_bound x (2 ^ 128) ltac:(lia))) as [_ [_ H4]]. specialize (H4 eq_refl).
  assert (Hh : 0 <= p / 2 <= p) by (split; [apply Z.div_pos; lia | apply Z.div_le_upper_bound; lia]).
  rewrite mint_probably_all by (cbn; auto; lia). destruct (prime_probably f pf u128 lf (p / 2) (Some pc_strict) d1) as [[b1 d2]| |] eqn:E1; cbn [bind run]; try exact I. destruct b1; [|exact I]. cbn [run fst].
  split; [lia|]. split; [exact Ha|]. left. exists d1, d2. exact E1.
Qed.
Lemma gen_safe_big_spec : forall b dr, 1 <= b < 2 ^ 64 ->
  run True True (fun r => 0 <= fst r /\ accepted_by Big (Some pc_strict) (fst r) /\ accepted_by Big (Some pc_strict) (fst r / 2)) (gen_safe_prime_big f pf lf fuel b dr).
Proof.
  intros b dr Hb. unfold gen_safe_prime_big. apply (run_loop _ _ True True (fun _ => True)); [exact I | exact I|]. intros d _.
  pose proof (gen_prime_big_spec b false (Some pc_strict) d Hb) as R. destruct (gen_prime_big f pf lf fuel false b (Some pc_strict) d) as [[p d1]| |]; cbn [bind run] in *; try exact I.
  destruct R as [_ [x [_ [Ht [Hp [Ha _]]]]]]. cbn [in_range] in Hp. rewrite Z.shiftr_div_pow2 by lia. change (2 ^ 1) with 2. assert (Ha' : accepted_by Big (Some pc_strict) p) by tauto.
  destruct (prime_probably f pf Big lf (p / 2) (Some pc_strict) d1) as [[b1 d2]| |] eqn:E1; cbn [bind run]; try exact I. destruct b1; cbn [run fst].
  { split; [exact Hp|]. split; [exact Ha'|]. exists d1, d2. exact E1. }
  rewrite Z.shiftl_mul_pow2 by lia. change (2 ^ 1) with 2.
  destruct (prime_probably f pf Big lf (p * 2 + 1) (Some pc_strict) d2) as [[b2 d3]| |] eqn:E3; cbn [bind run]; try exact I. destruct b2; [|exact I]. cbn [run fst]. split; [lia|]. split; [exists d2, d3; exact E3|].
  replace ((p * 2 + 1) / 2) with p; [exact Ha'|]. apply (Z.div_unique _ _ _ 1); lia.
Qed.
Lemma gen_safe_exact_big_spec : forall b dr, 1 <= b < 2 ^ 64 ->
  run True True (fun r => 2 ^ (b - 1) <= fst r /\ accepted_by Big (Some pc_strict) (fst r) /\ accepted_by Big (Some pc_strict) (fst r / 2)) (gen_safe_prime_exact_big f pf lf fuel b dr).
Proof.
  intros b dr Hb. unfold gen_safe_prime_exact_big. apply (run_loop _ _ True True (fun _ => True)); [exact I | exact I|]. intros d _.
  pose proof (gen_prime_big_spec b true (Some pc_strict) d Hb) as R. destruct (gen_prime_big f pf lf fuel true b (Some pc_strict) d) as [[p d1]| |]; cbn [bind run] in *; try exact I.
  destruct R as [_ [x [_ [Ht [Hp [Ha _]]]]]]. cbn [in_range] in Hp. rewrite Z.shiftr_div_pow2 by lia. change (2 ^ 1) with 2. assert (Ha' : accepted_by Big (Some pc_strict) p) by tauto.
  assert (P0 : 0 < 2 ^ b) by (apply Z.pow_pos_nonneg; lia). destruct (shaped_bounds b b true (x mod 2 ^ b) ltac:(lia) (Z.mod_pos_bound x (2 ^ b) P0)) as [_ [_ H4]]. specialize (H4 eq_refl).
  destruct (prime_probably f pf Big lf (p / 2) (Some pc_strict) d1) as [[b1 d2]| |] eqn:E1; cbn [bind run]; try exact I. destruct b1; [|exact I]. cbn [run fst].
  split; [lia|]. split; [exact Ha'|]. exists d1, d2. exact E1.
Qed.
End Wide.
