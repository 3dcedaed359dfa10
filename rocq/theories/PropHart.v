(** * C73: the one line method, and numbers that are factored whatever is drawn. *)
From Coq Require Import ZArith Znumtheory List Lia Bool Sorted.
From Verif Require Import Base Tables Spec Ext NT PBase PTables MInteger PInteger Ops POps MPrimality MTraits PSprp MFactor MSieve MIsPrime PIsPrime PIsPrime2 MFactorize PFactor PFactor2 PFactorize PFactorize2 PFactorize3 PFactorize4 PMoebius PDraws PHart PHart2 PropFactorize PropFactorize2.
Import ListNotations.
Local Open Scope Z_scope.

(** Pass i succeeds with d: the square above i*K exceeds i*K by a square, and the difference of the roots has the proper common divisor d with n. *)
Definition line_pass (n K i d : Z) : Prop :=
  exists s t, 0 <= t /\ (s - 1) * (s - 1) <= i * K < s * s /\ 1 <= s /\ s * s - i * K = t * t /\ d = Z.gcd n (s - t) /\ d <> 1 /\ d <> n.
Lemma line_pass_hit : forall n K i d, 0 <= i * K -> line_pass n K i d <-> hit n K i d.
Proof.
  intros n K i d H0. split.
  - intros [s [t [Ht [[Hs1 Hs2] [Hs [E [Ed [D1 D2]]]]]]]]. assert (Er : Z.sqrt (i * K) = s - 1) by (apply Z.sqrt_unique; split; [exact Hs1 | replace (Z.succ (s - 1)) with s by lia; exact Hs2]).
    exists t. rewrite Er. replace (s - 1 + 1) with s by lia. auto.
  - intros [t [Ht [E [Ed [D1 D2]]]]]. pose proof (Z.sqrt_spec (i * K) H0) as [S1 S2]. pose proof (Z.sqrt_nonneg (i * K)) as S0. exists (Z.sqrt (i * K) + 1), t. split; [exact Ht|].
    replace (Z.sqrt (i * K) + 1 - 1) with (Z.sqrt (i * K)) by lia. unfold Z.succ in S2. split; [split; assumption|]. split; [lia|]. split; [exact E|]. split; [exact Ed|]. split; assumption.
Qed.

(** What one_line does: it returns the divisor of the first pass that succeeds and the number of that pass. It returns None if no pass
    below max_iter whose multiple is representable succeeds. Debug builds may panic before, at a multiple close to the limit of the type. *)
Theorem C73_first : forall f pf t n K max_iter, valid_ity t -> 1 <= n -> 1 <= K -> in_range t K -> (n | K) -> 0 <= max_iter ->
  match one_line f pf t n K max_iter with
  | Ret (Some d, i) => 1 <= i < max_iter /\ line_pass n K i d /\ (forall j d', 1 <= j < i -> ~ line_pass n K j d')
  | Ret (None, _) => forall j d', 1 <= j < max_iter -> in_range t (j * K) -> ~ line_pass n K j d'
  | Panic => pf = Debug /\ exists j w, 1 <= j < max_iter /\ t = U w /\ (2 ^ (w / 2) - 1) * (2 ^ (w / 2) - 1) <= j * K /\ (forall i d', 1 <= i < j -> ~ line_pass n K i d')
  | NoFuel => False
  end.
Proof.
  intros f pf t n K maxi Ht Hn HK HKr D Hm. pose proof (one_line_first f pf t n K maxi Ht Hn HK HKr D Hm) as R.
  destruct (one_line f pf t n K maxi) as [[[d|] i]| |]; cbn [run fst snd] in R.
  - destruct R as [Hi [Hh Hno]]. split; [exact Hi|]. split; [apply line_pass_hit; [nia | exact Hh]|]. intros j d' Hj Hl. apply (Hno j d' ltac:(lia)). apply line_pass_hit; [nia | exact Hl].
  - intros j d' Hj Hr Hl. apply (R j d' Hj Hr). apply line_pass_hit; [nia | exact Hl].
  - destruct R as [Ep [j [Hj [Hs Hno]]]]. split; [exact Ep|]. destruct t as [w|]; cbn [ol_safe] in Hs; [|exfalso; apply Hs; exact I]. exists j, w. split; [exact Hj|]. split; [reflexivity|]. split; [lia|].
    intros i d' Hi Hl. apply (Hno i d' ltac:(lia)). apply line_pass_hit; [nia | exact Hl].
  - exact R.
Qed.

(** It is complete: an odd composite n = a * b that is not the square of a, with the multiple 4*c*n for c below a, is split by
    pass max(a/2, c*b/a + 1) at the latest, if the products up to there are representable (in debug builds: with room for the square). *)
Theorem C73_finds : forall f pf t a b c max_iter, valid_ity t -> 1 < a < b -> Z.odd a = true -> Z.odd b = true -> 1 <= c < a -> rel_prime a (c * b) ->
  Z.max (a / 2) (c * b / a + 1) < max_iter ->
  (forall w, t = U w -> Z.max (a / 2) (c * b / a + 1) * (4 * c * (a * b)) < (2 ^ (w / 2) - 1) * (2 ^ (w / 2) - 1)) ->
  exists d i, one_line f pf t (a * b) (4 * c * (a * b)) max_iter = Ret (Some d, i) /\ 1 < d < a * b /\ (d | a * b) /\ 1 <= i <= Z.max (a / 2) (c * b / a + 1).
Proof.
  intros f pf t a b c maxi Ht Hab Oa Ob Hc Hrel HM Hs. set (M := Z.max (a / 2) (c * b / a + 1)) in *. set (K := 4 * c * (a * b)) in *.
  assert (HaB : a < c * b) by nia. destruct (close_exists a (c * b) ltac:(lia) Oa) as [v [u [Hv [Hcl Hv2]]]].
  destruct (close_hit a b c v u Hab Oa Ob Hc Hrel Hv Hcl Hv2) as [d [Hi [Hh Hle]]]. fold K in Hh. fold M in Hle. set (i := u * v) in *.
  assert (HK : 1 <= K) by (unfold K; nia). assert (Hn : 1 <= a * b) by nia.
  assert (Hsafe : forall j, 1 <= j <= M -> ol_safe t (j * K)).
  { intros j Hj. destruct t as [w|]; cbn [ol_safe]; [|exact I]. specialize (Hs w eq_refl). assert (j * K <= M * K) by (apply Z.mul_le_mono_nonneg_r; lia). lia. }
  assert (Hrange : forall j, 1 <= j <= M -> in_range t (j * K)).
  { intros j Hj. pose proof (sqrt_next_range t (j * K) Ht ltac:(nia) (Hsafe j Hj)) as R. eapply in_range_le; [|exact R]. split; [nia|]. pose proof (Z.sqrt_spec (j * K) ltac:(nia)). unfold Z.succ in *. lia. }
  assert (HKr : in_range t K) by (replace K with (1 * K) by lia; apply Hrange; lia).
  assert (D : (a * b | K)) by (exists (4 * c); unfold K; ring).
  pose proof (one_line_first f pf t (a * b) K maxi Ht Hn HK HKr D ltac:(lia)) as R.
  destruct (one_line f pf t (a * b) K maxi) as [[[d'|] i']| |] eqn:E; cbn [run fst snd] in R.
  - destruct R as [Hi' [Hh' Hno]]. exists d', i'. split; [reflexivity|]. destruct Hh' as [x [_ [_ [Ed [D1 D2]]]]].
    assert (0 <= d') by (rewrite Ed; apply Z.gcd_nonneg). assert (Dd : (d' | a * b)) by (rewrite Ed; apply Z.gcd_divide_l). assert (d' <= a * b) by (apply Z.divide_pos_le; [lia | exact Dd]).
    assert (d' <> 0) by (intros ->; destruct Dd; lia). split; [lia|]. split; [exact Dd|]. split; [lia|].
    destruct (Z.le_gt_cases i' i) as [L|L]; [lia|]. exfalso. exact (Hno i d ltac:(lia) Hh).
  - exfalso. exact (R i d ltac:(lia) (Hrange i ltac:(lia)) Hh).
  - exfalso. destruct R as [_ [j [Hj [Hnj Hno]]]]. destruct (Z.le_gt_cases j M) as [L|L]; [exact (Hnj (Hsafe j ltac:(lia)))|]. exact (Hno i d ltac:(lia) Hh).
  - destruct R.
Qed.

(** The size of the cofactor, left by the table of small primes, below which the method loop succeeds whatever is drawn *)
Definition sure_limit (f : feature) : Z := match f with BigTable => 2 ^ 37 | SmallTable => 2 ^ 32 end.

(** factorize64 returns in both profiles for every sequence of draws if n is a product of primes of the table and a number below the limit.
    For draws that never succeed the rounds of SQUFOF and of the one line method suffice. *)
Theorem C73_factorize64 : forall f pf fuel n s q dr, 2 ^ 65 <= fuel -> 1 <= n < 2 ^ 64 -> n = s * q -> 1 <= s -> 1 <= q < sure_limit f ->
  (forall p, prime p -> (p | s) -> p < SMALL_PRIMES_NEXT f) -> 7680 <= Z.of_nat (length dr) ->
  exists m dr', factorize64 f pf fuel n dr = Ret (m, dr') /\ wf_map m /\ prod_powers m = n /\
    ((forall k, 1 <= k <= n -> is_prime64 f pf k = Ret true -> prime k) -> prime_factorization n m).
Proof.
  intros f pf fuel n s q dr Hf Hn En Hs Hq Hsm Hdr. destruct (factorize64_always f pf fuel n s q dr Hf Hn En Hs Hq Hsm Hdr) as [m [dr' E]]. exists m, dr'. split; [exact E|].
  assert (Hf' : 129 < fuel) by (change (2 ^ 65) with 36893488147419103232 in Hf; lia).
  destruct (C28_factorize64 f pf fuel n dr m dr' Hn Hf' E) as [W [P [K _]]]. split; [exact W|]. split; [exact P|]. intros Hp. split; [exact W|]. split; [|exact P].
  assert (H2 : forall x, In x (map fst m) -> 1 <= x).
  { intros x Hx. specialize (K x Hx). destruct (Z.le_gt_cases 1 x) as [L|L]; [exact L|]. exfalso. unfold is_prime64 in K. replace (x <? 2) with true in K by (symmetry; apply Z.ltb_lt; lia). discriminate. }
  apply Forall_forall. intros pe Hpe. apply Hp; [|apply K, in_map, Hpe]. rewrite <- P. apply key_le_prod; [|apply in_map, Hpe].
  intros p e Hin. split; [apply H2, (in_map fst _ _ Hin)|]. destruct W as [_ W]. rewrite Forall_forall in W. exact (W _ Hin).
Qed.
Theorem C73_factorize128 : forall f pf lf fuel n s q dr, 2 ^ 65 <= fuel -> Z.of_nat lf <= 2 ^ 61 -> 1 <= n < 2 ^ 128 -> n = s * q -> 1 <= s -> 1 <= q < sure_limit f ->
  (forall p, prime p -> (p | s) -> p < SMALL_PRIMES_NEXT f) -> 7680 <= Z.of_nat (length dr) ->
  exists m dr', factorize128 f pf lf fuel n dr = Ret (m, dr') /\ wf_map m /\ prod_powers m = n /\
    ((forall k, 1 <= k <= n -> (forall d, prime_probably f pf u128 lf k (Some pc_bpsw) d = Ret (true, d)) -> prime k) -> prime_factorization n m).
Proof.
  intros f pf lf fuel n s q dr Hf Hlf Hn En Hs Hq Hsm Hdr. destruct (factorize128_always f pf lf fuel n s q dr Hf Hn En Hs Hq Hsm Hdr) as [m [dr' E]]. exists m, dr'. split; [exact E|].
  assert (Hf' : 129 < fuel) by (change (2 ^ 65) with 36893488147419103232 in Hf; lia).
  destruct (C29_factorize128 f pf lf fuel n dr m dr' Hn Hf' Hlf E) as [W [P [K _]]]. split; [exact W|]. split; [exact P|]. intros Hp. split; [exact W|]. split; [|exact P].
  pose proof (factorize128_spec f pf lf fuel Hlf Hf' n dr Hn) as R. rewrite E in R. cbn [run fst] in R. destruct R as [_ [_ K2]].
  apply Forall_forall. intros pe Hpe. apply Hp; [|apply K, in_map, Hpe]. rewrite <- P. apply key_le_prod; [|apply in_map, Hpe].
  intros p e Hin. split; [exact (accepted_pos f pf lf p (proj1 (K2 p (in_map fst _ _ Hin))))|]. destruct W as [_ W]. rewrite Forall_forall in W. exact (W _ Hin).
Qed.
(** The same for factorize at every integer type, hence for every n below 2^37 (2^32 with the small table). *)
Theorem C73_factorize : forall f pf lf fuel t n s q dr, valid_ity t -> in_range t n -> 2 ^ 65 <= fuel -> Z.of_nat lf <= 2 ^ 61 -> 1 <= n < 2 ^ 128 -> n = s * q -> 1 <= s -> 1 <= q < sure_limit f ->
  (forall p, prime p -> (p | s) -> p < SMALL_PRIMES_NEXT f) -> 7680 <= Z.of_nat (length dr) ->
  exists m dr', nt_factorize f pf lf fuel t n dr = Ret (m, dr') /\ wf_map m /\ prod_powers m = n.
Proof.
  intros f pf lf fuel t n s q dr Ht Hin Hf Hlf Hn En Hs Hq Hsm Hdr. destruct (C73_factorize128 f pf lf fuel n s q dr Hf Hlf Hn En Hs Hq Hsm Hdr) as [m [dr' [E [W [P _]]]]].
  assert (Hf' : 129 < fuel) by (change (2 ^ 65) with 36893488147419103232 in Hf; lia).
  pose proof (factorize128_spec f pf lf fuel Hlf Hf' n dr Hn) as R. rewrite E in R. cbn [run fst] in R. destruct R as [_ [_ K]].
  assert (Hk : collect_map f pf t m = Ret m).
  { apply collect_map_id; [apply W|]. intros k Hk. assert (Hb : 1 <= k <= prod_powers m); [|eapply in_range_le; [|exact Hin]; lia].
    apply key_le_prod; [|exact Hk]. intros p e Hpe. split; [|destruct W as [_ W]; rewrite Forall_forall in W; exact (W _ Hpe)].
    exact (accepted_pos f pf lf p (proj1 (K p (in_map fst _ _ Hpe)))). }
  exists m, dr'. split; [|split; assumption]. unfold nt_factorize. rewrite (factorize_small f pf lf fuel t (buf_iter (buf_new f)) ltac:(lia) n dr ltac:(lia)). rewrite E. cbn [bind]. rewrite Hk. reflexivity.
Qed.
Theorem C73_every_small : forall f pf lf fuel t n dr, valid_ity t -> in_range t n -> 2 ^ 65 <= fuel -> Z.of_nat lf <= 2 ^ 61 -> 1 <= n < sure_limit f -> 7680 <= Z.of_nat (length dr) ->
  exists m dr', nt_factorize f pf lf fuel t n dr = Ret (m, dr') /\ wf_map m /\ prod_powers m = n.
Proof.
  intros f pf lf fuel t n dr Ht Hin Hf Hlf Hn Hdr. assert (sure_limit f < 2 ^ 128) by (destruct f; cbn [sure_limit]; lia).
  apply (C73_factorize f pf lf fuel t n 1 n); try assumption; try lia. intros p Pp [k Ek]. pose proof (prime_ge2 p Pp). exfalso. assert (k = 0 \/ k <> 0) as [-> | N] by lia; [lia|]. nia.
Qed.

(** 8167 * 16335859 is below 2^37: the hypotheses hold for draws that are all 0, with which Pollard's rho never succeeds. The
    one line method with factor 480 splits 8167 * 8171 in pass 30; the bound of C73_finds is 4083. *)
Example C73_case : 8167 * 16335859 < sure_limit BigTable /\ (match one_line BigTable Debug u64 (8167 * 8171) (480 * (8167 * 8171)) 200 with Ret (Some d, i) => d * i | _ => 0 end) = 8167 * 30
  /\ Z.max (8167 / 2) (120 * 8171 / 8167 + 1) = 4083 /\ rel_prime 8167 (120 * 8171).
Proof.
  split; [cbn [sure_limit]; lia|]. split; [vm_compute; reflexivity|]. split; [vm_compute; reflexivity|]. apply Zgcd_1_rel_prime. vm_compute. reflexivity.
Qed.
Print Assumptions C73_first.
Print Assumptions C73_finds.
Print Assumptions C73_factorize64.
Print Assumptions C73_factorize128.
Print Assumptions C73_factorize.
Print Assumptions C73_every_small.
