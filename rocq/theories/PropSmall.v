(** * C61: below 2^20 the library's answers are right with no proviso. *)
From Coq Require Import ZArith Znumtheory List Lia Bool Sorted.
From Verif Require Import Base Spec Ext Ops NT PBase PInteger PIsPrime PIsPrime2 PNext PMoebius PFactorize2 PFactorize4 PExact MInteger MSieve MTraits MIsPrime MFactorize MRand PTables PropBuffer PropIsPrime PropNext PropFactorize PropFactorize2 PropRand PropExamples.
Import ListNotations.
Local Open Scope Z_scope.

Lemma exact64 : forall f pf n, n < 2 ^ 20 -> exists b, is_prime64 f pf n = Ret b /\ (b = true <-> prime n).
Proof. intros f pf n H. exists (z_is_prime64 f n). split; [apply is_prime64_law; lia | apply z_is_prime64_exact, H]. Qed.
Lemma accepted64 : forall f pf n, n < 2 ^ 20 -> is_prime64 f pf n = Ret true -> prime n.
Proof. intros f pf n H E. destruct (exact64 f pf n H) as [b [E' B]]. rewrite E' in E. injection E as ->. apply B. reflexivity. Qed.

(** is_prime, at every type, for every configuration and buffer *)
Theorem C61_is_prime : forall f pf t A (PR : probs A) fuel buf config dr n, valid_ity t -> in_range t n -> n < 2 ^ 20 ->
  exists r, is_prime f pf (uops f pf t) PR fuel buf n config dr = Ret (r, dr) /\ (r = Yes <-> prime n) /\ (r = No <-> ~ prime n).
Proof.
  intros f pf t A PR fuel buf config dr n Ht Hn Hs. destruct (C12_is_prime_definite f pf t n Ht Hn ltac:(lia)) as [b [E [H _]]]. destruct (exact64 f pf n Hs) as [b' [E' B]]. rewrite E in E'. injection E' as <-.
  eexists. split; [apply H|]. destruct b; split; split; intros K; try discriminate; try reflexivity; try (apply B; reflexivity); try (exfalso; apply K; apply B; reflexivity).
  - apply B in K. discriminate.
  - intros C. apply B in C. discriminate.
Qed.
Theorem C61_is_safe_prime : forall f pf t A (PR : probs A) lf dr n, valid_ity t -> in_range t n -> n < 2 ^ 20 ->
  exists r, is_safe_prime f pf t PR lf n dr = Ret (r, dr) /\ (r = Yes <-> prime n /\ prime (n / 2)) /\ (r = Yes \/ r = No).
Proof.
  intros f pf t A PR lf dr n Ht Hn Hs. destruct (C35_is_safe_prime64 A PR f pf t lf n dr Ht Hn ltac:(lia)) as [b1 [b2 [E1 [E2 E]]]]. pose proof (in_range_nonneg _ _ Hn) as H0. assert (n / 2 <= n) by (apply Z.div_le_upper_bound; lia).
  destruct (exact64 f pf n Hs) as [b [F B]]. rewrite E2 in F. injection F as <-. destruct (exact64 f pf (n / 2) ltac:(lia)) as [b [F B']]. rewrite E1 in F. injection F as <-.
  eexists. split; [exact E|]. destruct b1, b2; cbn [andb]; split; auto; split; intros K; try discriminate; try reflexivity; try (split; [apply B | apply B']; reflexivity); destruct K as [K1 K2]; try apply B in K1; try apply B' in K2; discriminate.
Qed.
(** next_prime: all of u8 and u16 *)
Theorem C61_next_prime_u8_u16 : forall f pf w lf config fuel n dr, w = 8 \/ w = 16 -> 0 <= n < 2 ^ w -> Z.of_nat lf <= 2 ^ 31 -> ~ (f = SmallTable /\ 252 <= n <= 255) -> 2 ^ w - n < fuel ->
  exists o, next_prime f pf (U w) lf fuel n config dr = Ret (o, dr) /\
    match o with
    | Some p => least_prime_above n p /\ p < 2 ^ w
    | None => forall q, prime q -> n < q -> 2 ^ w <= q
    end.
Proof.
  intros f pf w lf config fuel n dr Hw Hn Hlf Hg Hfuel. assert (Hv : valid_ity (U w)) by (cbn; intuition lia). assert (W : 2 ^ w <= 2 ^ 16) by (apply Z.pow_le_mono_r; lia).
  destruct (C36_next_prime64 f pf w lf config fuel n dr Hv ltac:(lia) Hn Hlf Hg Hfuel) as [o [E H]]. exists o. split; [exact E|]. destruct o as [p|]; [|exact H]. destruct H as [A [B C]].
  split; [|lia]. apply (C36_least f pf w lf config fuel n dr p dr); try assumption; [lia|]. apply accepted64. lia.
Qed.
(** ... and every type that holds 1048573, the last prime below 2^20 *)
Theorem C61_next_prime : forall f pf w lf config fuel n dr, valid_ity (U w) -> 20 <= w <= 64 -> 0 <= n < 1048573 -> Z.of_nat lf <= 2 ^ 31 -> ~ (f = SmallTable /\ 252 <= n <= 255) -> 1048573 - n < fuel ->
  exists p, next_prime f pf (U w) lf fuel n config dr = Ret (Some p, dr) /\ least_prime_above n p.
Proof.
  intros f pf w lf config fuel n dr Hv Hw Hn Hlf Hg Hfuel. assert (W : 2 ^ 20 <= 2 ^ w) by (apply Z.pow_le_mono_r; lia).
  assert (Pq : prime 1048573) by (apply (accepted64 BigTable Release 1048573); [reflexivity | vm_compute; reflexivity]).
  destruct (C36_returns f pf (U w) lf config fuel n 1048573 dr Hv ltac:(cbn [in_range]; lia) Hg Pq ltac:(lia) ltac:(cbn [in_range]; lia) ltac:(lia) ltac:(lia)) as [p [E Hp]].
  exists p. split; [exact E|]. apply (C36_least f pf w lf config fuel n dr p dr); try assumption; [lia | lia |]. apply accepted64. lia.
Qed.
Theorem C61_prev_prime : forall f pf t lf config fuel n dr, valid_ity t -> in_range t n -> 2 < n <= 2 ^ 20 -> Z.of_nat lf <= 2 ^ 31 -> n < fuel ->
  exists p, prev_prime f pf t lf fuel n config dr = Ret (Some p, dr) /\ greatest_prime_below n p.
Proof.
  intros f pf t lf config fuel n dr Ht Hn Hb Hlf Hf. destruct (C37_prev_prime64 f pf t lf config fuel n dr Ht Hn ltac:(lia) Hlf Hf) as [p [E [A [B C]]]]. exists p. split; [exact E|].
  apply (C37_greatest f pf t lf config fuel n dr p dr); try assumption; [lia|]. apply accepted64. lia.
Qed.
(** factorize (and factors), at every type and buffer: the prime factorization, without randomness *)
Theorem C61_factorize : forall f pf lf fuel t buf n config dr, valid_ity t -> in_range t n -> 1 <= n < 2 ^ 20 -> n < SMALL_PRIMES_NEXT f * SMALL_PRIMES_NEXT f -> 129 < fuel ->
  exists m, factorize f pf lf fuel t buf n dr = Ret (m, dr) /\ factors f pf lf fuel t buf n config dr = Ret (m, None, dr) /\ factorize128 f pf lf fuel n dr = Ret (m, dr) /\ prime_factorization n m.
Proof.
  intros f pf lf fuel t buf n config dr Ht Hn Hb HB Hf. destruct (C28_small f pf fuel n dr Hb HB Hf) as [m [E F]]. exists m.
  assert (E128 : factorize128 f pf lf fuel n dr = Ret (m, dr)) by (rewrite C29_small by lia; exact E).
  assert (C : collect_map f pf t m = Ret m).
  { destruct F as [[S W] [P Q]]. apply collect_map_id; [exact S|]. intros k Hk.
    assert (D : 1 <= k <= prod_powers m). { apply key_le_prod; [|exact Hk]. intros p e Hin. rewrite Forall_forall in P, W. specialize (P _ Hin). specialize (W _ Hin). cbn [fst snd] in *. pose proof (prime_ge2 p P). lia. }
    eapply in_range_le; [|exact Hn]. lia. }
  split; [|split; [|split; [exact E128 | exact F]]].
  - rewrite factorize_small by lia. rewrite E128. cbn [bind]. rewrite C. reflexivity.
  - unfold factors. replace (n <? 2 ^ 128) with true by (symmetry; apply Z.ltb_lt; lia). rewrite E128. cbn [bind]. rewrite C. reflexivity.
Qed.
Theorem C61_moebius : forall f pf lf fuel t n dr, valid_ity t -> in_range t n -> 1 <= n < 2 ^ 20 -> n < SMALL_PRIMES_NEXT f * SMALL_PRIMES_NEXT f -> 129 < fuel -> Z.of_nat lf <= 2 ^ 61 ->
  exists v, moebius f pf lf fuel t n dr = Ret (v, dr) /\ moebius_is n v /\ is_square_free f pf lf fuel t n dr = Ret (negb (v =? 0), dr) /\ (v = 0 <-> ~ square_free n).
Proof.
  intros f pf lf fuel t n dr Ht Hn Hb HB Hf Hlf.
  assert (R : exists v, moebius f pf lf fuel t n dr = Ret (v, dr)).
  { assert (G : forall h, in_range t h -> 1 <= h <= n -> Z.odd h = true -> exists v, moebius_odd f pf lf fuel t h dr = Ret (v, dr)).
    { intros h Hh Hr Ho. destruct (Z.lt_ge_cases h 257) as [L|L].
      - destruct (C33_moebius_table f pf lf fuel t h dr Ht Hh ltac:(lia) (or_introl L)) as [v [E _]]. unfold moebius in E. rewrite <- Z.negb_odd, Ho in E. exists v. exact E.
      - unfold moebius_odd. rewrite sub_ok by (try (eapply in_range_le; [|exact Hh]); lia). cbn [bind]. replace (h - 1 <? 256) with false by (symmetry; apply Z.ltb_ge; lia).
        rewrite !from_prim_ok by (eapply in_range_le; [|exact Hh]; lia). cbn [unwrap bind]. destruct ((h mod 9 =? 0) || (h mod 25 =? 0) || (h mod 49 =? 0)); [eexists; reflexivity|].
        destruct (C61_factorize f pf lf fuel t (buf_iter (buf_new f)) h None dr Ht Hh ltac:(lia) ltac:(lia) Hf) as [m [E _]]. unfold nt_factorize. rewrite E. eexists; reflexivity. }
    unfold moebius. destruct (Z.even n) eqn:Ev.
    - destruct (Z.eqb_spec (n mod 4) 0) as [E4|E4]; [eexists; reflexivity|]. destruct (half_odd n Ev E4) as [h [Eh [En Ho]]]. rewrite div_ok by lia. cbn [bind]. rewrite Eh. destruct (G h) as [v ->]; [eapply in_range_le; [|exact Hn]; lia | lia | exact Ho|]. eexists; reflexivity.
    - apply G; [exact Hn | lia | rewrite <- Z.negb_even, Ev; reflexivity]. }
  destruct R as [v E]. exists v. split; [exact E|].
  assert (M : moebius_is n v).
  { apply (C33_moebius f pf lf fuel t n dr v dr); try assumption; [lia|]. intros k Hk Hp. specialize (Hp []). rewrite probably_small in Hp by (try (cbn; tauto); cbn [in_range u128]; lia). injection Hp as Hp. apply (z_is_prime64_exact f k); [lia | exact Hp]. }
  split; [exact M|]. split; [unfold is_square_free; rewrite E; reflexivity|]. destruct M as [[S ->]|[S ->]]; [|tauto]. split; [|tauto]. intros C. exfalso. revert C. rewrite neg1_pow_even by (unfold omega; apply count_nonneg). destruct (_ =? 0); discriminate.
Qed.
(** the generators at u8 and u16 *)
Theorem C61_gen_prime_u8_u16 : forall f pf lf fuel w exact b dr p dr', w = 8 \/ w = 16 -> 1 <= b <= w -> Z.of_nat lf <= 2 ^ 31 -> gen_prime_prim f pf lf fuel w exact b dr = Ret (p, dr') -> prime p.
Proof.
  intros f pf lf fuel w exact b dr p dr' Hw Hb Hlf E. assert (Hv : valid_ity (U w)) by (cbn; intuition lia). assert (W : 2 ^ w <= 2 ^ 16) by (apply Z.pow_le_mono_r; lia).
  assert (G : p < 2 ^ w /\ is_prime64 f pf p = Ret true).
  { destruct exact; [apply C39_gen_prime_exact in E | apply C38_gen_prime in E]; try assumption; try lia; destruct E as [pre [x [_ H]]]; cbv zeta in H; intuition lia. }
  apply (accepted64 f pf p); [lia | apply G].
Qed.
Theorem C61_gen_safe_prime_u8_u16 : forall f pf lf fuel w b dr p dr', w = 8 \/ w = 16 -> 1 <= b <= w -> Z.of_nat lf <= 2 ^ 31 ->
  gen_safe_prime_prim f pf lf fuel w b dr = Ret (p, dr') \/ gen_safe_prime_exact_prim f pf lf fuel w b dr = Ret (p, dr') -> prime p /\ prime (p / 2).
Proof.
  intros f pf lf fuel w b dr p dr' Hw Hb Hlf E. assert (Hv : valid_ity (U w)) by (cbn; intuition lia). assert (W : 2 ^ w <= 2 ^ 16) by (apply Z.pow_le_mono_r; lia).
  assert (G : in_range (U w) p /\ is_safe_prime f pf (U w) no_probs lf p [] = Ret (Yes, [])).
  { destruct E as [E|E]; [apply (C40_gen_safe_prime f pf lf fuel w b dr p dr' []) in E | apply (C40_gen_safe_prime_exact f pf lf fuel w b dr p dr' []) in E]; try assumption; try lia. destruct E as [A B]. split; [|exact B]. cbn [in_range].
    pose proof (Z.pow_nonneg 2 (b - 1) ltac:(lia)). lia. }
  destruct G as [Hp S]. destruct (C61_is_safe_prime f pf (U w) unit no_probs lf [] p Hv Hp ltac:(cbn [in_range] in Hp; lia)) as [r [E' [R _]]]. rewrite S in E'. injection E' as <-. apply R. reflexivity.
Qed.
Example C61_case : (exists p, next_prime BigTable Debug (U 32) 50 1048574 1000000 None [] = Ret (Some p, []) /\ least_prime_above 1000000 p)
  /\ (exists m, nt_factorize SmallTable Debug 50 200 (U 32) 66048 [] = Ret (m, []) /\ prime_factorization 66048 m)
  /\ (exists p, prev_prime SmallTable Release (U 8) 50 300 255 None [] = Ret (Some p, []) /\ greatest_prime_below 255 p)
  /\ gen_safe_prime_prim BigTable Debug 50 300 16 12 [24000] = Ret (3023, []).
Proof.
  split; [apply C61_next_prime; first [cbn; tauto | lia | intros [K _]; discriminate]|]. split; [|split].
  - destruct (C61_factorize SmallTable Debug 50 200 (U 32) (buf_iter (buf_new SmallTable)) 66048 None []) as [m [E [_ [_ F]]]]; first [cbn; tauto | cbn [in_range]; lia | lia | rewrite small_next; lia | idtac]. exists m. split; [exact E | exact F].
  - apply C61_prev_prime; first [cbn; tauto | cbn [in_range]; lia | lia].
  - vmc.
Qed.

Print Assumptions C61_is_prime. Print Assumptions C61_is_safe_prime. Print Assumptions C61_next_prime_u8_u16. Print Assumptions C61_next_prime. Print Assumptions C61_prev_prime.
Print Assumptions C61_factorize. Print Assumptions C61_moebius. Print Assumptions C61_gen_prime_u8_u16. Print Assumptions C61_gen_safe_prime_u8_u16.
