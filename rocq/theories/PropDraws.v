(** * C70: the search for divisors is never hopeless. *)
From Coq Require Import ZArith Znumtheory List Lia Bool Sorted.
From Verif Require Import Base Tables Spec Ext NT PBase PTables MInteger PInteger Ops POps MPrimality MTraits PSprp MFactor MSieve MIsPrime PIsPrime PIsPrime2 MFactorize PFactor PFactor2 PFactorize PFactorize2 PFactorize3 PFactorize4 PMoebius PDraws PropFactorize PropFactorize2.
Import ListNotations.
Local Open Scope Z_scope.

(** Pollard's rho started at 0 with a proper divisor d of the target as offset returns d in its first pass. *)
Theorem C70_rho : forall f pf t n d mi, valid_ity t -> in_range t n -> 1 < d < n -> (d | n) -> 1 <= mi < 2 ^ 64 ->
  pollard_rho pf (uops f pf t) n 0 d mi = Ret (Some d, 1).
Proof. intros f pf t n d mi Ht Hn Hd D Hm. apply rho_lucky; try assumption. split; [lia|]. split; [lia | exact D]. Qed.

(** Hence every third round of the method loop, as long as the iteration bound (ratio << bits/6) has not
    overflowed to 0, finds d for the draws r1, r2 with r1 = 0 and r2 = d modulo the target. *)
Theorem C70_round : forall f pf fuel w target d i ratio r1 r2 dr, valid_ity (U w) -> 1 < target < 2 ^ w -> (forall p, prime p -> p < SMALL_PRIMES_NEXT f -> ~ (p | target)) ->
  1 < d < target -> (d | target) -> i mod 3 = 0 -> 1 <= ratio < 2 ^ 42 -> 0 <= r1 < 2 ^ w -> 0 <= r2 < 2 ^ w -> r1 mod target = 0 -> r2 mod target = d ->
  method_step f pf fuel w target (i, ratio, r1 :: r2 :: dr) = Ret (Done (d, dr)).
Proof.
  intros f pf fuel w target d i ratio r1 r2 dr Hv Hn Hc Hd D Hi Hr R1 R2 E1 E2.
  assert (Hw : 2 ^ w <= 2 ^ 128) by (cbn [valid_ity] in Hv; apply Z.pow_le_mono_r; lia).
  assert (Hb : 0 <= bt_bits target / 6 < 22).
  { unfold bt_bits. replace (target =? 0) with false by (symmetry; apply Z.eqb_neq; lia). assert (Z.log2 target < 128) by (apply Z.log2_lt_pow2; lia). pose proof (Z.log2_nonneg target).
    split; [apply Z.div_pos; lia | apply Z.div_lt_upper_bound; lia]. }
  assert (P1 : 0 < 2 ^ (bt_bits target / 6)) by (apply Z.pow_pos_nonneg; lia). assert (P2 : 2 ^ (bt_bits target / 6) <= 2 ^ 21) by (apply Z.pow_le_mono_r; lia).
  assert (Hm : 1 <= ratio * 2 ^ (bt_bits target / 6) < 2 ^ 64) by (change (2 ^ 21) with 2097152 in P2; change (2 ^ 42) with 4398046511104 in Hr; change (2 ^ 64) with 18446744073709551616; nia).
  apply (method_lucky f pf fuel w Hv target d i ratio (ratio * 2 ^ (bt_bits target / 6))); try assumption.
  - split; assumption.
  - split; [lia|]. split; [lia | exact D].
  - unfold shl_, usize. replace ((0 <=? bt_bits target / 6) && (bt_bits target / 6 <? 64)) with true by (symmetry; apply andb_true_iff; split; [apply Z.leb_le | apply Z.ltb_lt]; lia).
    rewrite Z.shiftl_mul_pow2, Z.mod_small by lia. reflexivity.
  - rewrite (Z.mod_small r1) by lia. exact E1.
  - rewrite (Z.mod_small r2) by lia. exact E2.
Qed.

(** For every n there are draws for which factorize64 returns, in both profiles; what it returns is the map of C28. *)
Theorem C70_factorize64 : forall f pf fuel n, 129 < fuel -> 1 <= n < 2 ^ 64 ->
  exists ds m, (forall x, In x ds -> 0 <= x < 2 ^ 64) /\ (forall rest, factorize64 f pf fuel n (ds ++ rest) = Ret (m, rest)) /\
    wf_map m /\ prod_powers m = n /\ ((forall k, 1 <= k <= n -> is_prime64 f pf k = Ret true -> prime k) -> prime_factorization n m).
Proof.
  intros f pf fuel n Hf Hn. destruct (factorize64_lucky f pf fuel n Hf Hn) as [ds [m [Hrun Hds]]]. exists ds, m. split; [exact Hds|]. split; [exact Hrun|].
  destruct (C28_factorize64 f pf fuel n (ds ++ []) m [] Hn Hf (Hrun [])) as [W [P [K _]]]. split; [exact W|]. split; [exact P|]. intros Hs. split; [exact W|]. split; [|exact P].
  assert (H2 : forall x, In x (map fst m) -> 1 <= x).
  { intros x Hx. specialize (K x Hx). destruct (Z.le_gt_cases 1 x) as [L|L]; [exact L|]. exfalso. unfold is_prime64 in K. replace (x <? 2) with true in K by (symmetry; apply Z.ltb_lt; lia). discriminate. }
  apply Forall_forall. intros pe Hpe. apply Hs; [|apply K, in_map, Hpe]. rewrite <- P. apply key_le_prod; [|apply in_map, Hpe].
  intros p e Hin. split; [apply H2, (in_map fst _ _ Hin)|]. destruct W as [_ W]. rewrite Forall_forall in W. exact (W _ Hin).
Qed.

(** The same for factorize128; [lf] bounds the search for Lucas parameters. *)
Theorem C70_factorize128 : forall f pf lf fuel n, 256 < fuel -> 1 <= n < 2 ^ 128 -> 6 + Z.sqrt n <= Z.of_nat lf <= 2 ^ 61 ->
  exists ds m, (forall x, In x ds -> 0 <= x < 2 ^ 128) /\ (forall rest, factorize128 f pf lf fuel n (ds ++ rest) = Ret (m, rest)) /\
    wf_map m /\ prod_powers m = n /\
    ((forall k, 1 <= k <= n -> (forall d, prime_probably f pf u128 lf k (Some pc_bpsw) d = Ret (true, d)) -> prime k) -> prime_factorization n m).
Proof.
  intros f pf lf fuel n Hf Hn Hlf. destruct (factorize128_lucky f pf lf fuel n Hf Hlf Hn) as [ds [m [Hrun Hds]]]. exists ds, m. split; [exact Hds|]. split; [exact Hrun|].
  destruct (C29_factorize128 f pf lf fuel n (ds ++ []) m [] Hn ltac:(lia) ltac:(lia) (Hrun [])) as [W [P [K _]]]. split; [exact W|]. split; [exact P|]. intros Hs. split; [exact W|]. split; [|exact P].
  assert (H2 : forall x, In x (map fst m) -> 1 <= x).
  { intros x Hx. exact (accepted_pos f pf lf x (K x Hx)). }
  apply Forall_forall. intros pe Hpe. apply Hs; [|exact (K _ (in_map fst _ _ Hpe))]. rewrite <- P. apply key_le_prod; [|apply in_map, Hpe].
  intros p e Hin. split; [apply H2, (in_map fst _ _ Hin)|]. destruct W as [_ W]. rewrite Forall_forall in W. exact (W _ Hin).
Qed.

(** factorize, moebius and is_square_free at every integer type. *)
Theorem C70_factorize : forall f pf lf fuel t n, valid_ity t -> in_range t n -> 256 < fuel -> 1 <= n < 2 ^ 128 -> 6 + Z.sqrt n <= Z.of_nat lf <= 2 ^ 61 ->
  exists ds m, (forall x, In x ds -> 0 <= x < 2 ^ 128) /\ forall rest, nt_factorize f pf lf fuel t n (ds ++ rest) = Ret (m, rest).
Proof.
  intros f pf lf fuel t n Ht Hn Hf H1 Hlf. destruct (factorize128_lucky f pf lf fuel n Hf Hlf H1) as [ds [m [Hrun Hds]]].
  pose proof (factorize128_spec f pf lf fuel ltac:(lia) ltac:(lia) n (ds ++ []) H1) as R. rewrite Hrun in R. cbn [run fst] in R. destruct R as [W [P K]].
  assert (Hk : collect_map f pf t m = Ret m).
  { apply collect_map_id; [apply W|]. intros k Hk. assert (Hb : 1 <= k <= prod_powers m); [|eapply in_range_le; [|exact Hn]; lia].
    apply key_le_prod; [|exact Hk]. intros p e Hin. split; [|destruct W as [_ W]; rewrite Forall_forall in W; exact (W _ Hin)].
    exact (accepted_pos f pf lf p (proj1 (K p (in_map fst _ _ Hin)))). }
  exists ds, m. split; [exact Hds|]. intros rest. unfold nt_factorize. rewrite (factorize_small f pf lf fuel t (buf_iter (buf_new f)) ltac:(lia) n (ds ++ rest) ltac:(lia)). rewrite Hrun. cbn [bind]. rewrite Hk. reflexivity.
Qed.
Theorem C70_moebius : forall f pf lf fuel t n, valid_ity t -> in_range t n -> 256 < fuel -> 1 <= n < 2 ^ 128 -> 6 + Z.sqrt n <= Z.of_nat lf <= 2 ^ 61 ->
  exists ds v, (forall x, In x ds -> 0 <= x < 2 ^ 128) /\ (forall rest, moebius f pf lf fuel t n (ds ++ rest) = Ret (v, rest)) /\
    ((forall k, 1 <= k <= n -> (forall d, prime_probably f pf u128 lf k (Some pc_bpsw) d = Ret (true, d)) -> prime k) -> moebius_is n v).
Proof.
  intros f pf lf fuel t n Ht Hn Hf H1 Hlf.
  assert (K : exists ds v, (forall x, In x ds -> 0 <= x < 2 ^ 128) /\ (forall rest, moebius f pf lf fuel t n (ds ++ rest) = Ret (v, rest))).
  { assert (Odd : forall h, 1 <= h <= n -> Z.odd h = true -> exists ds v, (forall x, In x ds -> 0 <= x < 2 ^ 128) /\ (forall rest, moebius_odd f pf lf fuel t h (ds ++ rest) = Ret (v, rest))).
    { intros h Hh Ho. assert (Hin : in_range t h) by (eapply in_range_le; [|exact Hn]; lia). unfold moebius_odd. rewrite sub_ok by (eapply in_range_le; [|exact Hin]; lia). cbn [bind].
      destruct (Z.ltb_spec (h - 1) 256) as [L|L].
      - destruct (tab_lookup_spec pf h ltac:(lia) Ho) as [v [E _]]. unfold tab_lookup in E.
        destruct (index MOEBIUS_ODD (Z.shiftr (h - 1) 6)) as [m| |]; try discriminate. cbn [bind] in *. destruct (shl_ pf u64 3 (Z.land (h - 1) 63)) as [mask| |]; try discriminate. cbn [bind] in *.
        destruct (shr_ pf u64 (Z.land m mask) (Z.land (h - 1) 63)) as [m'| |]; try discriminate. cbn [bind] in *. exists [], (m' - 1). split; [intros x [] | reflexivity].
      - assert (Hr : forall c, 0 <= c < 64 -> in_range t c) by (intros c Hc; eapply in_range_le; [|exact Hin]; lia).
        rewrite !from_prim_ok by (apply Hr; lia). cbn [unwrap bind]. destruct ((h mod 9 =? 0) || (h mod 25 =? 0) || (h mod 49 =? 0)).
        + exists [], 0. split; [intros x [] | reflexivity].
        + assert (Z.sqrt h <= Z.sqrt n) by (apply Z.sqrt_le_mono; lia). destruct (C70_factorize f pf lf fuel t h Ht Hin Hf ltac:(lia) ltac:(lia)) as [ds [m [Hds Hrun]]].
          exists ds, (moebius_factorized m). split; [exact Hds|]. intros rest. rewrite Hrun. reflexivity. }
    unfold moebius. destruct (Z.even n) eqn:Ev.
    - destruct (Z.eqb_spec (n mod 4) 0) as [E4|E4]; [exists [], 0; split; [intros x [] | reflexivity]|].
      destruct (half_odd n Ev E4) as [h [Eh [En Ho]]]. destruct (Odd h ltac:(lia) Ho) as [ds [v [Hds Hrun]]]. exists ds, (- v). split; [exact Hds|].
      intros rest. rewrite div_ok by lia. cbn [bind]. rewrite Eh, Hrun. reflexivity.
    - apply Odd; [lia|]. rewrite <- Z.negb_even, Ev. reflexivity. }
  destruct K as [ds [v [Hds Hrun]]]. exists ds, v. split; [exact Hds|]. split; [exact Hrun|]. intros Hs.
  apply (C33_moebius f pf lf fuel t n (ds ++ []) v [] Ht Hn H1 ltac:(lia) ltac:(lia) Hs (Hrun [])).
Qed.
Theorem C70_is_square_free : forall f pf lf fuel t n, valid_ity t -> in_range t n -> 256 < fuel -> 1 <= n < 2 ^ 128 -> 6 + Z.sqrt n <= Z.of_nat lf <= 2 ^ 61 ->
  exists ds b, (forall x, In x ds -> 0 <= x < 2 ^ 128) /\ (forall rest, is_square_free f pf lf fuel t n (ds ++ rest) = Ret (b, rest)) /\
    ((forall k, 1 <= k <= n -> (forall d, prime_probably f pf u128 lf k (Some pc_bpsw) d = Ret (true, d)) -> prime k) -> (b = true <-> square_free n)).
Proof.
  intros f pf lf fuel t n Ht Hn Hf H1 Hlf. destruct (C70_moebius f pf lf fuel t n Ht Hn Hf H1 Hlf) as [ds [v [Hds [Hrun _]]]]. exists ds, (negb (v =? 0)). split; [exact Hds|].
  assert (E : forall rest, is_square_free f pf lf fuel t n (ds ++ rest) = Ret (negb (v =? 0), rest)) by (intros rest; unfold is_square_free; rewrite Hrun; reflexivity).
  split; [exact E|]. intros Hs. apply (C34_is_square_free f pf lf fuel t n (ds ++ []) _ [] Ht Hn H1 ltac:(lia) ltac:(lia) Hs (E [])).
Qed.
(** With the draws 0 and 10007 the product of C28_debug_overflow_refuted is factored in debug builds too. *)
Example C70_case : factorize64 BigTable Debug 200 (10007 * 1843384038543953) [0; 10007; 5] = Ret ([(10007, 1); (1843384038543953, 1)], [5])
  /\ factorize64 SmallTable Debug 200 (10007 * 1843384038543953) [0; 10007; 5] = Ret ([(10007, 1); (1843384038543953, 1)], [5]).
Proof. vmc. Qed.
Example C70_case128 : (1 <= 10007 * 1843384038543953 < 2 ^ 64) /\ 1 <= 2 ^ 100 + 277 < 2 ^ 128 /\ 6 + Z.sqrt (2 ^ 100 + 277) <= 2 ^ 50 + 6 <= 2 ^ 61 /\ valid_ity (U 128) /\ in_range (U 128) (2 ^ 100 + 277)
  /\ method_step BigTable Debug 200 64 (10007 * 10009) (3, 2, [0; 10009]) = Ret (Done (10009, [])).
Proof.
  split; [lia|]. split; [lia|]. split; [split; [|lia]; assert (Z.sqrt (2 ^ 100 + 277) < 2 ^ 50 + 1) by (apply Z.sqrt_lt_square; lia); lia|]. split; [cbn; lia|]. split; [cbn [in_range]; lia|].
  vm_compute. reflexivity.
Qed.
Print Assumptions C70_rho.
Print Assumptions C70_round.
Print Assumptions C70_factorize64.
Print Assumptions C70_factorize128.
Print Assumptions C70_factorize.
Print Assumptions C70_moebius.
Print Assumptions C70_is_square_free.
