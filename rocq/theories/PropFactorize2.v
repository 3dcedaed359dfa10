(** * C30-C34: factors, factorize, divisor, moebius, is_square_free. *)
From Coq Require Import ZArith Znumtheory List Lia Bool Sorted.
From Verif Require Import Base Tables Spec Ext NT PBase PTables MInteger PInteger Ops POps MPrimality MTraits PSprp MFactor MSieve MIsPrime PIsPrime PIsPrime2 MFactorize PFactor PFactor2 PFactorize PFactorize2 PFactorize3 PFactorize4 PMoebius.
Import ListNotations.
Local Open Scope Z_scope.

(** C30: for every buffer of primes, every configuration and all random draws, a result (m, rest) of
    factors accounts for the whole target: the product of the prime powers times the product of the
    cofactors left over is the target. Cofactors are greater than 1 and there are none below 2^128. *)
Theorem C30_factors : forall f pf lf fuel t buf B target config dr m rest dr',
  valid_ity t -> lists_primes buf (fun p => p < B) -> B <= 2 ^ 64 -> Z.of_nat lf <= 2 ^ 61 -> 129 < fuel -> Z.log2 target + 1 < fuel ->
  in_range t target -> 1 <= target ->
  (forall c l, config = Some c -> td_limit c = Some l -> 0 <= l) -> (forall c, config = Some c -> 0 <= rho_trials c) ->
  factors f pf lf fuel t buf target config dr = Ret (m, rest, dr') ->
  wf_map m /\
  prod_powers m * prod (match rest with Some l => l | None => [] end) = target /\
  (forall l, rest = Some l -> l <> [] /\ forall x, In x l -> 1 < x) /\
  (target < 2 ^ 128 -> rest = None).
Proof.
  intros f pf lf fuel t buf B target config dr m rest dr' Ht Hb HB Hlf Hf Hlog Hn H1 Htd Hrho E.
  pose proof (factors_spec f pf lf fuel t buf B Ht Hb HB Hlf Hf target config dr Hn H1 Hlog) as R. rewrite E in R. cbn [run] in R.
  destruct R as [A1 [A2 [A3 [A4 [A5 _]]]]].
  - intros l El. destruct config as [c|]; [apply (Htd c l eq_refl El)|]. cbn in El. injection El as <-. lia.
  - destruct config as [c|]; [apply (Hrho c eq_refl)|]. cbn. lia.
  - split; [exact A1|]. split; [exact A2|]. split; [|exact A5]. intros l ->. split; [congruence | exact A3].
Qed.
(** Every key of the map is prime or accepted by the library's primality test: with the BPSW settings
    below 2^128, with the configured settings from there on. *)
Theorem C30_keys : forall f pf lf fuel t buf B target config dr m rest dr' k,
  valid_ity t -> lists_primes buf (fun p => p < B) -> B <= 2 ^ 64 -> Z.of_nat lf <= 2 ^ 61 -> 129 < fuel -> Z.log2 target + 1 < fuel ->
  in_range t target -> 1 <= target ->
  (forall c l, config = Some c -> td_limit c = Some l -> 0 <= l) -> (forall c, config = Some c -> 0 <= rho_trials c) ->
  factors f pf lf fuel t buf target config dr = Ret (m, rest, dr') -> In k (map fst m) ->
  (target < 2 ^ 128 -> forall d, prime_probably f pf u128 lf k (Some pc_bpsw) d = Ret (true, d)) /\
  (target < 2 ^ 128 -> k <> target -> k < SMALL_PRIMES_NEXT f * SMALL_PRIMES_NEXT f -> prime k) /\
  (2 ^ 128 <= target -> prime k \/ exists d p d', is_prime f pf (uops f pf t) no_probs lf buf k (Some (primality_config (match config with Some c => c | None => fc_default end))) d = Ret (p, d') /\ probably p = true).
Proof.
  intros f pf lf fuel t buf B target config dr m rest dr' k Ht Hb HB Hlf Hf Hlog Hn H1 Htd Hrho E Hk.
  pose proof (factors_spec f pf lf fuel t buf B Ht Hb HB Hlf Hf target config dr Hn H1 Hlog) as R. rewrite E in R. cbn [run] in R.
  destruct R as [_ [_ [_ [_ [_ K]]]]].
  - intros l El. destruct config as [c|]; [apply (Htd c l eq_refl El)|]. cbn in El. injection El as <-. lia.
  - destruct config as [c|]; [apply (Hrho c eq_refl)|]. cbn. lia.
  - destruct (K k Hk) as [_ K']. split; [|split].
    + intros L. apply Z.ltb_lt in L. rewrite L in K'. apply K'.
    + intros L. apply Z.ltb_lt in L. rewrite L in K'. apply K'.
    + intros L. apply Z.ltb_ge in L. rewrite L in K'. exact K'.
Qed.
Example C30_case : lists_primes (buf_iter (buf_new BigTable)) (fun p => p < 8167) /\
  factors BigTable Debug 50 200 Big (buf_iter (buf_new BigTable)) (2 ^ 100 * 3 ^ 4 * 8161 ^ 3) None [] = Ret ([(2, 100); (3, 4); (8161, 3)], None, []) /\
  factors BigTable Debug 50 200 Big (buf_iter (buf_new BigTable)) (2 ^ 100 * 3 ^ 4 * 8161 ^ 3) (Some (mkFC pc_default (Some 5) 0)) [] = Ret ([(2, 100); (3, 4)], Some [8161 ^ 3], []) /\
  factors BigTable Debug 50 200 (U 16) (buf_iter (buf_new BigTable)) 60060 None [] = Ret ([(2, 2); (3, 1); (5, 1); (7, 1); (11, 1); (13, 1)], None, []).
Proof. split; [apply (small_primes_list BigTable)|]. vmc. Qed.

(** C31: a result of factorize multiplies back to the target. *)
Theorem C31_factorize : forall f pf lf fuel t buf B target dr m dr',
  valid_ity t -> lists_primes buf (fun p => p < B) -> B <= 2 ^ 64 -> Z.of_nat lf <= 2 ^ 61 -> 129 < fuel -> Z.log2 target + 1 < fuel ->
  in_range t target -> 1 <= target -> factorize f pf lf fuel t buf target dr = Ret (m, dr') ->
  wf_map m /\ prod_powers m = target /\
  (forall k, In k (map fst m) -> if target <? 2 ^ 128 then forall d, prime_probably f pf u128 lf k (Some pc_bpsw) d = Ret (true, d)
     else prime k \/ exists d p d', is_prime f pf (uops f pf t) no_probs lf buf k (Some pc_default) d = Ret (p, d') /\ probably p = true) /\
  ((forall k, In k (map fst m) -> prime k) -> forall m', prime_factorization target m' <-> m' = m).
Proof.
  intros f pf lf fuel t buf B target dr m dr' Ht Hb HB Hlf Hf Hlog Hn H1 E.
  pose proof (factorize_spec f pf lf fuel t buf B Ht Hb HB Hlf Hf target dr Hn H1 Hlog) as R. rewrite E in R. cbn [run] in R. destruct R as [W [P K]].
  split; [exact W|]. split; [exact P|]. split.
  - intros k Hk. destruct (K k Hk) as [_ K']. destruct (target <? 2 ^ 128); [apply K' | exact K'].
  - intros Hk. assert (F : prime_factorization target m) by (split; [exact W|]; split; [apply Forall_forall; intros pe Hpe; apply Hk, in_map, Hpe | exact P]).
    intros m'. split; [intros F'; apply (prime_factorization_unique target m' m F' F) | intros ->; exact F].
Qed.
Example C31_case : factorize BigTable Debug 50 200 Big (buf_iter (buf_new BigTable)) (2 ^ 100 * 3 ^ 4 * 8161 ^ 3) [] = Ret ([(2, 100); (3, 4); (8161, 3)], [])
  /\ factorize SmallTable Release 50 200 u64 (buf_iter (buf_new SmallTable)) (3 ^ 4 * 251 * 1000003) [] = Ret ([(3, 4); (251, 1); (1000003, 1)], []).
Proof. vmc. Qed.

(** C32: divisor never panics, returns None when no rho trial is allowed, and only returns proper divisors. *)
Theorem C32_divisor : forall f pf t buf target td trials dr, valid_ity t -> in_range t target -> 1 <= target -> 0 <= trials ->
  (forall p, In p buf -> 1 <= p /\ in_range t p) -> 2 * trials <= Z.of_nat (length dr) ->
  exists o left dr', divisor f pf t buf target td trials dr = Ret (o, left, dr') /\ 0 <= left <= trials /\ (forall d, o = Some d -> proper_divisor d target) /\ (trials = 0 -> o = None).
Proof.
  intros f pf t buf target td trials dr Ht Hn H1 Htr Hb Hd.
  pose proof (divisor_spec f pf t Ht buf ltac:(intros p Hp; apply Hb, Hp) target td trials dr Hn H1 Htr ltac:(intros p Hp; left; apply Hb, Hp)) as R.
  destruct (divisor f pf t buf target td trials dr) as [[[o l] dr']| |]; cbn [run] in R; [|destruct R | lia]. exists o, l, dr'. split; [reflexivity | exact R].
Qed.
(** Refuted: divisor does not trial divide. With a limit of 100 (or none) it misses the factor 3 of 15,
    and it also misses it when the guard of the trial division does let it in. *)
Theorem C32_trial_division_refuted : forall f pf td, td = Some 100 \/ td = None \/ td = Some 0 -> divisor f pf (U 32) (buf_iter (buf_new f)) 15 td 0 [] = Ret (None, 0, []).
Proof. intros [|] [|] td [->|[->| ->]]; vmc. Qed.
(** The loop itself, which no limit lets in: on an increasing list of primes it returns the least one
    that divides the target and is within both limits, and nothing exactly when there is none. *)
Theorem C32_trial_loop : forall f pf t ps target tsqrt limit, StronglySorted Z.lt ps -> (forall p, In p ps -> 1 <= p /\ in_range t p) ->
  exists o, divisor_td f pf t ps target tsqrt limit = Ret o /\
    match o with
    | Some (Some d) => In d ps /\ (d | target) /\ d <= tsqrt /\ d <= limit /\ (forall p, In p ps -> (p | target) -> d <= p)
    | Some None => forall p, In p ps -> (p | target) -> tsqrt < p
    | None => forall p, In p ps -> (p | target) -> limit < p
    end.
Proof.
  intros f pf t ps target tsqrt limit S Hp. induction S as [|p ps S IH F]; cbn [divisor_td]; [exists None; split; [reflexivity | intros p []]|].
  destruct (Hp p (or_introl eq_refl)) as [H1 H2]. rewrite Forall_forall in F.
  unfold o_const. cbn [uops o_from o_is_multiple_of]. rewrite from_prim_ok by exact H2. cbn [unwrap bind].
  destruct (Z.ltb_spec tsqrt p) as [L|L].
  { exists (Some None). split; [reflexivity|]. intros q [<-|Hq] _; [exact L|]. apply F in Hq. lia. }
  destruct (Z.ltb_spec limit p) as [L'|L'].
  { exists None. split; [reflexivity|]. intros q [<-|Hq] _; [exact L'|]. apply F in Hq. lia. }
  rewrite rem_ok by lia. cbn [bind]. destruct (Z.eqb_spec (target mod p) 0) as [E|E].
  { exists (Some (Some p)). split; [reflexivity|]. split; [left; reflexivity|]. split; [apply Z.mod_divide; lia|]. split; [lia|]. split; [lia|].
    intros q [<-|Hq] _; [lia|]. apply F in Hq. lia. }
  assert (N : ~ (p | target)) by (intros D; apply E, Z.mod_divide; [lia | exact D]).
  destruct IH as [o [-> Ho]]; [intros q Hq; apply Hp; right; exact Hq|]. exists o. split; [reflexivity|].
  destruct o as [[d|]|].
  - destruct Ho as [A [B [C [D G]]]]. split; [right; exact A|]. repeat (split; [assumption|]). intros q [<-|Hq] Hd; [contradiction | apply G; assumption].
  - intros q [<-|Hq] Hd; [contradiction | apply Ho; assumption].
  - intros q [<-|Hq] Hd; [contradiction | apply Ho; assumption].
Qed.
Example C32_case_loop : divisor_td BigTable Debug u64 [2; 3; 5; 7] 35 6 100 = Ret (Some (Some 5)) /\ divisor_td BigTable Debug u64 [2; 3; 5; 7] 49 8 6 = Ret None
  /\ divisor_td BigTable Debug u64 [2; 3; 5; 7; 11] 77 6 100 = Ret (Some None).
Proof. vmc. Qed.
Example C32_case : divisor BigTable Debug u64 (buf_iter (buf_new BigTable)) (101 * 103) None 2 [5; 1; 3; 4] = Ret (Some 101, 1, [3; 4]).
Proof. vmc. Qed.

(** C33: moebius computes the Moebius function. For every n below 2^128 the only proviso is that the
    primality test used by the factorization accepts no composite up to n. *)
Theorem C33_moebius : forall f pf lf fuel t n dr v dr', valid_ity t -> in_range t n -> 1 <= n < 2 ^ 128 -> Z.of_nat lf <= 2 ^ 61 -> 129 < fuel ->
  (forall k, 1 <= k <= n -> (forall d, prime_probably f pf u128 lf k (Some pc_bpsw) d = Ret (true, d)) -> prime k) ->
  moebius f pf lf fuel t n dr = Ret (v, dr') -> moebius_is n v.
Proof. intros f pf lf fuel t n dr v dr' Ht Hn H1 Hlf Hf Hs E. eapply moebius_small; eassumption. Qed.
(** Whatever the size: the value is right outright, or it was read off a factorization returned by
    factorize and is right when the keys of that factorization are primes. *)
Theorem C33_moebius_any_size : forall f pf lf fuel t n dr v dr', valid_ity t -> in_range t n -> 1 <= n -> Z.of_nat lf <= 2 ^ 61 -> 129 < fuel -> Z.log2 n + 1 < fuel ->
  moebius f pf lf fuel t n dr = Ret (v, dr') ->
  moebius_is n v \/ exists h m, (h = n \/ 2 * h = n) /\ nt_factorize f pf lf fuel t h dr = Ret (m, dr') /\ ((forall k, In k (map fst m) -> prime k) -> moebius_is n v).
Proof.
  intros f pf lf fuel t n dr v dr' Ht Hn H1 Hlf Hf Hlog E. pose proof (moebius_spec f pf lf fuel t Ht Hlf Hf n dr Hn H1 Hlog) as R. rewrite E in R. cbn [run] in R.
  destruct R as [R|[h [m [Hh [Em [R _]]]]]]; [left; exact R | right]. exists h, m. split; [|auto]. destruct Hh as [[Hh _]|[Hh _]]; [left; exact Hh | right; symmetry; exact Hh].
Qed.
(** No proviso, and no random draw, for the table and for multiples of 4. *)
Theorem C33_moebius_table : forall f pf lf fuel t n dr, valid_ity t -> in_range t n -> 1 <= n -> n < 257 \/ n mod 4 = 0 -> exists v, moebius f pf lf fuel t n dr = Ret (v, dr) /\ moebius_is n v.
Proof.
  intros f pf lf fuel t n dr Ht Hn H1 Hs.
  assert (G : forall h, in_range t h -> 1 <= h < 257 -> Z.odd h = true -> exists v, moebius_odd f pf lf fuel t h dr = Ret (v, dr) /\ moebius_is h v).
  { intros h Hh Hr Ho. destruct (tab_lookup_spec pf h Hr Ho) as [v [E Hv]]. exists v. split; [|exact Hv]. unfold moebius_odd. rewrite sub_ok by (try (eapply in_range_le; [|exact Hh]); lia). cbn [bind].
    replace (h - 1 <? 256) with true by (symmetry; apply Z.ltb_lt; lia). unfold tab_lookup in E. revert E.
    destruct (index MOEBIUS_ODD (Z.shiftr (h - 1) 6)) as [m| |]; try discriminate. cbn [bind]. destruct (shl_ pf u64 3 (Z.land (h - 1) 63)) as [mask| |]; try discriminate. cbn [bind].
    destruct (shr_ pf u64 (Z.land m mask) (Z.land (h - 1) 63)) as [m'| |]; try discriminate. cbn [bind]. intros E. injection E as ->. reflexivity. }
  unfold moebius. destruct (Z.even n) eqn:Ev.
  - destruct (Z.eqb_spec (n mod 4) 0) as [E4|E4]; [exists 0; split; [reflexivity | apply (not_sqf_div n 2); [lia | exact E4]]|].
    destruct (half_odd n Ev E4) as [h [Eh [En Ho]]]. rewrite div_ok by lia. cbn [bind]. rewrite Eh. destruct (G h) as [v [-> Hv]]; [eapply in_range_le; [|exact Hn]; lia | lia | exact Ho|].
    exists (- v). split; [reflexivity|]. rewrite En. apply moebius_double; [lia | exact Ho | exact Hv].
  - assert (Ho : Z.odd n = true) by (rewrite <- Z.negb_even, Ev; reflexivity). destruct Hs as [Hs|Hs]; [apply G; [exact Hn | lia | exact Ho]|].
    exfalso. rewrite (Z.div_mod n 4), Hs, Z.add_0_r, Z.even_mul in Ev by lia. discriminate.
Qed.
Example C33_case : moebius BigTable Debug 50 200 (U 32) 30 [] = Ret (-1, []) /\ moebius BigTable Debug 50 200 u64 (2 * 3 * 1009 * 1000003) [] = Ret (1, [])
  /\ moebius SmallTable Debug 50 200 u64 (2 * 3 * 1009 * 1009) [5; 7] = Ret (0, [5; 7]) /\ moebius SmallTable Debug 50 200 (U 8) 255 [] = Ret (-1, []).
Proof. vmc. Qed.

(** C34: moebius_factorized is the Moebius function of the number the map factorizes. *)
Theorem C34_moebius_factorized : forall n m, 1 <= n -> prime_factorization n m -> moebius_is n (moebius_factorized m).
Proof. exact moebius_factorized_spec. Qed.
(** is_square_free answers true exactly when no square greater than 1 divides n (same proviso as C33). *)
Theorem C34_is_square_free : forall f pf lf fuel t n dr b dr', valid_ity t -> in_range t n -> 1 <= n < 2 ^ 128 -> Z.of_nat lf <= 2 ^ 61 -> 129 < fuel ->
  (forall k, 1 <= k <= n -> (forall d, prime_probably f pf u128 lf k (Some pc_bpsw) d = Ret (true, d)) -> prime k) ->
  is_square_free f pf lf fuel t n dr = Ret (b, dr') -> (b = true <-> square_free n).
Proof.
  intros f pf lf fuel t n dr b dr' Ht Hn H1 Hlf Hf Hs E. unfold is_square_free in E. destruct (moebius f pf lf fuel t n dr) as [[v d]| |] eqn:Em; try discriminate. cbn [bind] in E. injection E as <- _.
  apply C33_moebius in Em; try assumption. destruct Em as [[S ->]|[S ->]].
  - split; [intros _; exact S|]. intros _. apply negb_true_iff, Z.eqb_neq. rewrite neg1_pow_even; [destruct (_ =? 0); discriminate|].
    unfold omega. apply count_nonneg.
  - split; [discriminate | intros C; contradiction].
Qed.
(** The answer false is always right, with no proviso: a square does divide. *)
Theorem C34_false_is_right : forall f pf lf fuel t n dr dr', valid_ity t -> in_range t n -> 1 <= n -> Z.of_nat lf <= 2 ^ 61 -> 129 < fuel -> Z.log2 n + 1 < fuel ->
  is_square_free f pf lf fuel t n dr = Ret (false, dr') -> ~ square_free n.
Proof.
  intros f pf lf fuel t n dr dr' Ht Hn H1 Hlf Hf Hlog E. unfold is_square_free in E. destruct (moebius f pf lf fuel t n dr) as [[v d]| |] eqn:Em; try discriminate. cbn [bind] in E. injection E as Ev _.
  apply negb_false_iff, Z.eqb_eq in Ev. subst v. pose proof (moebius_spec f pf lf fuel t Ht Hlf Hf n dr Hn H1 Hlog) as R. rewrite Em in R. cbn [run] in R.
  destruct R as [[[S Ez]|[S _]]|[h [m [_ [_ [_ Hz]]]]]]; [|exact S | apply Hz; reflexivity].
  exfalso. rewrite neg1_pow_even in Ez by (unfold omega; apply count_nonneg). destruct (_ =? 0); discriminate.
Qed.
(** No proviso for the table and for multiples of 4. *)
Theorem C34_is_square_free_table : forall f pf lf fuel t n dr, valid_ity t -> in_range t n -> 1 <= n -> n < 257 \/ n mod 4 = 0 -> exists b, is_square_free f pf lf fuel t n dr = Ret (b, dr) /\ (b = true <-> square_free n).
Proof.
  intros f pf lf fuel t n dr Ht Hn H1 Hs. destruct (C33_moebius_table f pf lf fuel t n dr Ht Hn H1 Hs) as [v [E Hv]]. unfold is_square_free. rewrite E. cbn [bind]. eexists. split; [reflexivity|].
  destruct Hv as [[S ->]|[S ->]].
  - split; [intros _; exact S|]. intros _. apply negb_true_iff, Z.eqb_neq. rewrite neg1_pow_even; [destruct (_ =? 0); discriminate|]. unfold omega. apply count_nonneg.
  - split; [discriminate | intros C; contradiction].
Qed.
Example C34_case : moebius_factorized [(2, 1); (3, 1); (7, 1)] = -1 /\ moebius_factorized [(2, 2); (3, 1)] = 0 /\ moebius_factorized [] = 1
  /\ is_square_free BigTable Debug 50 200 (U 32) 42 [] = Ret (true, []) /\ is_square_free BigTable Debug 50 200 (U 32) 45 [] = Ret (false, []).
Proof. vmc. Qed.

Print Assumptions C30_factors. Print Assumptions C30_keys. Print Assumptions C31_factorize. Print Assumptions C32_divisor. Print Assumptions C32_trial_division_refuted. Print Assumptions C32_trial_loop.
Print Assumptions C33_moebius. Print Assumptions C33_moebius_any_size. Print Assumptions C33_moebius_table. Print Assumptions C34_moebius_factorized. Print Assumptions C34_is_square_free. Print Assumptions C34_false_is_right. Print Assumptions C34_is_square_free_table.
