(** * C75: with the small table the answers for every 32 bit number are right with no proviso (the strong tests to the
    bases 2, 7 and 61 accept no composite below 2^32, PPsp.v - PPsp4.v). *)
From Coq Require Import ZArith Znumtheory List Lia Bool Sorted.
From Verif Require Import Base Spec SpecEx Ext Ops NT PBase PInteger PIsPrime PIsPrime2 PNext PMoebius PFactorize2 PFactorize4 PExact MInteger MSieve MTraits MIsPrime MFactorize MRand PTables PropBuffer PropIsPrime PropNext PropFactorize PropFactorize2 PropRand PropExamples PPsp4 PropHart MExamples PExamples PDivisors PropShares.
Import ListNotations.
Local Open Scope Z_scope.

(** the strong tests alone: no table, no trial division except by 3 and 5 *)
Theorem C75_bases_2_7_61 : forall n, 62 <= n < 2 ^ 32 -> Z.odd n = true -> ~ (3 | n) -> ~ (5 | n) -> (prime n <-> strong_prp n 2 /\ strong_prp n 7 /\ strong_prp n 61).
Proof.
  intros n Hn Ho N3 N5. split; [|intros [S2 [S7 S61]]; apply strong_2_7_61; assumption]. intros Pn.
  assert (G : forall a, 0 < a < n -> strong_prp n a) by (intros a Ha; apply PSprp.prime_strong_prp; [exact Pn | exact Ho | intros D; apply Z.divide_pos_le in D; lia]). repeat split; apply G; lia.
Qed.
Lemma small_exact : forall n, n < 2 ^ 32 -> (z_is_prime64 SmallTable n = true <-> prime n).
Proof.
  intros n Hn. split; [|apply z_is_prime64_complete]. intros E. apply z_is_prime64_sound_partial in E. rewrite small_next in E.
  destruct (Z.ltb_spec n (257 - 1)) as [H|H]; [exact E|]. destruct E as [Ho [Hw Hb]]. unfold miller_bases in Hb. replace (n <? 2 ^ 32) with true in Hb by (symmetry; apply Z.ltb_lt; exact Hn).
  apply strong_2_7_61; try lia; try exact Ho; try (apply Hb; cbn; tauto).
  - apply Hw; [apply prime_3 | exists 10; reflexivity].
  - apply Hw; [apply fast_primeb_spec; reflexivity | exists 6; reflexivity].
Qed.
Theorem C11_is_prime64_exact_32bit_small : forall pf n, 0 <= n < 2 ^ 32 -> exists r, is_prime64 SmallTable pf n = Ret r /\ (r = true <-> prime n).
Proof. intros pf n H. exists (z_is_prime64 SmallTable n). split; [apply is_prime64_law; lia | apply small_exact; lia]. Qed.
Lemma exact32 : forall pf n, n < 2 ^ 32 -> exists b, is_prime64 SmallTable pf n = Ret b /\ (b = true <-> prime n).
Proof. intros pf n H. exists (z_is_prime64 SmallTable n). split; [apply is_prime64_law; lia | apply small_exact, H]. Qed.
Lemma accepted32 : forall pf n, n < 2 ^ 32 -> is_prime64 SmallTable pf n = Ret true -> prime n.
Proof. intros pf n H E. destruct (exact32 pf n H) as [b [E' B]]. rewrite E' in E. injection E as ->. apply B. reflexivity. Qed.

(** is_prime, at every type, for every configuration and buffer *)
Theorem C75_is_prime : forall pf t A (PR : probs A) fuel buf config dr n, valid_ity t -> in_range t n -> n < 2 ^ 32 ->
  exists r, is_prime SmallTable pf (uops SmallTable pf t) PR fuel buf n config dr = Ret (r, dr) /\ (r = Yes <-> prime n) /\ (r = No <-> ~ prime n).
Proof.
  intros pf t A PR fuel buf config dr n Ht Hn Hs. destruct (C12_is_prime_definite SmallTable pf t n Ht Hn ltac:(lia)) as [b [E [H _]]]. destruct (exact32 pf n Hs) as [b' [E' B]]. rewrite E in E'. injection E' as <-.
  eexists. split; [apply H|]. destruct b; split; split; intros K; try discriminate; try reflexivity; try (apply B; reflexivity); try (exfalso; apply K; apply B; reflexivity).
  - apply B in K. discriminate.
  - intros C. apply B in C. discriminate.
Qed.
Theorem C75_is_safe_prime : forall pf t A (PR : probs A) lf dr n, valid_ity t -> in_range t n -> n < 2 ^ 32 ->
  exists r, is_safe_prime SmallTable pf t PR lf n dr = Ret (r, dr) /\ (r = Yes <-> prime n /\ prime (n / 2)) /\ (r = Yes \/ r = No).
Proof.
  intros pf t A PR lf dr n Ht Hn Hs. destruct (C35_is_safe_prime64 A PR SmallTable pf t lf n dr Ht Hn ltac:(lia)) as [b1 [b2 [E1 [E2 E]]]]. pose proof (in_range_nonneg _ _ Hn) as H0. assert (n / 2 <= n) by (apply Z.div_le_upper_bound; lia).
  destruct (exact32 pf n Hs) as [b [F B]]. rewrite E2 in F. injection F as <-. destruct (exact32 pf (n / 2) ltac:(lia)) as [b [F B']]. rewrite E1 in F. injection F as <-.
  eexists. split; [exact E|]. destruct b1, b2; cbn [andb]; split; auto; split; intros K; try discriminate; try reflexivity; try (split; [apply B | apply B']; reflexivity); destruct K as [K1 K2]; try apply B in K1; try apply B' in K2; discriminate.
Qed.
(** next_prime: all of u8, u16 and u32 but the table end 252..255 (C36) *)
Theorem C75_next_prime_u32 : forall pf w lf config fuel n dr, w = 8 \/ w = 16 \/ w = 32 -> 0 <= n < 2 ^ w -> Z.of_nat lf <= 2 ^ 31 -> ~ (252 <= n <= 255) -> 2 ^ w - n < fuel ->
  exists o, next_prime SmallTable pf (U w) lf fuel n config dr = Ret (o, dr) /\
    match o with
    | Some p => least_prime_above n p /\ p < 2 ^ w
    | None => forall q, prime q -> n < q -> 2 ^ w <= q
    end.
Proof.
  intros pf w lf config fuel n dr Hw Hn Hlf Hg Hfuel. assert (Hv : valid_ity (U w)) by (cbn; intuition lia). assert (W : 2 ^ w <= 2 ^ 32) by (apply Z.pow_le_mono_r; lia).
  destruct (C36_next_prime64 SmallTable pf w lf config fuel n dr Hv ltac:(lia) Hn Hlf ltac:(intuition) Hfuel) as [o [E H]]. exists o. split; [exact E|]. destruct o as [p|]; [|exact H]. destruct H as [A [B C]].
  split; [|lia]. apply (C36_least SmallTable pf w lf config fuel n dr p dr); try assumption; [lia|]. apply accepted32. lia.
Qed.
Theorem C75_prev_prime : forall pf t lf config fuel n dr, valid_ity t -> in_range t n -> 2 < n <= 2 ^ 32 -> Z.of_nat lf <= 2 ^ 31 -> n < fuel ->
  exists p, prev_prime SmallTable pf t lf fuel n config dr = Ret (Some p, dr) /\ greatest_prime_below n p.
Proof.
  intros pf t lf config fuel n dr Ht Hn Hb Hlf Hf. destruct (C37_prev_prime64 SmallTable pf t lf config fuel n dr Ht Hn ltac:(lia) Hlf Hf) as [p [E [A [B C]]]]. exists p. split; [exact E|].
  apply (C37_greatest SmallTable pf t lf config fuel n dr p dr); try assumption; [lia|]. apply accepted32. lia.
Qed.
(** factorize: whatever the draws, a map that is returned is the prime factorization *)
Lemma keys32 : forall pf lf k, 0 <= k < 2 ^ 32 -> (forall d, prime_probably SmallTable pf u128 lf k (Some pc_bpsw) d = Ret (true, d)) -> prime k.
Proof. intros pf lf k Hk Hp. specialize (Hp []). rewrite probably_small in Hp by (try (cbn; tauto); cbn [in_range u128]; lia). injection Hp as Hp. apply (small_exact k); [lia | exact Hp]. Qed.
Theorem C75_factorize_sound : forall pf lf fuel t buf n dr m dr', valid_ity t -> in_range t n -> 1 <= n < 2 ^ 32 -> 129 < fuel ->
  factorize SmallTable pf lf fuel t buf n dr = Ret (m, dr') -> prime_factorization n m.
Proof.
  intros pf lf fuel t buf n dr m dr' Ht Hin Hn Hf E. rewrite factorize_small, C29_small in E by lia. destruct (factorize64 SmallTable pf fuel n dr) as [[m0 dr0]| |] eqn:F; cbn [bind] in E; try discriminate.
  destruct (C28_factorize64 SmallTable pf fuel n dr m0 dr0 ltac:(lia) Hf F) as [W [P [K _]]].
  assert (K2 : forall p e, In (p, e) m0 -> 1 <= p /\ 1 <= e).
  { intros p e Hpe. destruct W as [_ W]. rewrite Forall_forall in W. specialize (W _ Hpe). cbn [snd] in W. specialize (K p (in_map fst _ _ Hpe)). unfold is_prime64 in K. destruct (Z.ltb_spec p 2); [discriminate | lia]. }
  assert (K3 : forall k, In k (map fst m0) -> 1 <= k <= n) by (intros k Hk; rewrite <- P; apply key_le_prod; assumption).
  assert (C : collect_map SmallTable pf t m0 = Ret m0) by (apply collect_map_id; [apply W | intros k Hk; specialize (K3 k Hk); eapply in_range_le; [|exact Hin]; lia]).
  rewrite C in E. injection E as <- <-. split; [exact W|]. split; [|exact P]. apply Forall_forall. intros [p e] Hpe. cbn [fst]. apply (in_map fst) in Hpe. specialize (K3 _ Hpe). cbn [fst] in *. apply (accepted32 pf); [lia | apply K; exact Hpe].
Qed.
(** ... and with enough draws it does return *)
Theorem C75_factorize : forall pf lf fuel t n dr, valid_ity t -> in_range t n -> 1 <= n < 2 ^ 32 -> 2 ^ 65 <= fuel -> Z.of_nat lf <= 2 ^ 61 -> 7680 <= Z.of_nat (length dr) ->
  exists m dr', nt_factorize SmallTable pf lf fuel t n dr = Ret (m, dr') /\ prime_factorization n m.
Proof.
  intros pf lf fuel t n dr Ht Hin Hn Hf Hlf Hd. destruct (C73_every_small SmallTable pf lf fuel t n dr Ht Hin Hf Hlf Hn Hd) as [m [dr' [E _]]]. exists m, dr'. split; [exact E|].
  apply (C75_factorize_sound pf lf fuel t (buf_iter (buf_new SmallTable)) n dr m dr'); try assumption; try lia.
Qed.
Theorem C75_moebius : forall pf lf fuel t n dr, valid_ity t -> in_range t n -> 1 <= n < 2 ^ 32 -> 2 ^ 65 <= fuel -> Z.of_nat lf <= 2 ^ 61 -> 7680 <= Z.of_nat (length dr) ->
  exists v dr', moebius SmallTable pf lf fuel t n dr = Ret (v, dr') /\ moebius_is n v.
Proof.
  intros pf lf fuel t n dr Ht Hn Hb Hf Hlf Hd.
  assert (R : exists v dr', moebius SmallTable pf lf fuel t n dr = Ret (v, dr')).
  { assert (G : forall h, in_range t h -> 1 <= h <= n -> Z.odd h = true -> exists v dr', moebius_odd SmallTable pf lf fuel t h dr = Ret (v, dr')).
    { intros h Hh Hr Ho. destruct (Z.lt_ge_cases h 257) as [L|L].
      - destruct (C33_moebius_table SmallTable pf lf fuel t h dr Ht Hh ltac:(lia) (or_introl L)) as [v [E _]]. unfold moebius in E. rewrite <- Z.negb_odd, Ho in E. exists v, dr. exact E.
      - unfold moebius_odd. rewrite sub_ok by (try (eapply in_range_le; [|exact Hh]); lia). cbn [bind]. replace (h - 1 <? 256) with false by (symmetry; apply Z.ltb_ge; lia).
        rewrite !from_prim_ok by (eapply in_range_le; [|exact Hh]; lia). cbn [unwrap bind]. destruct ((h mod 9 =? 0) || (h mod 25 =? 0) || (h mod 49 =? 0)); [eexists; eexists; reflexivity|].
        destruct (C75_factorize pf lf fuel t h dr Ht Hh ltac:(lia) Hf Hlf Hd) as [m [dr' [E _]]]. rewrite E. eexists; eexists; reflexivity. }
    unfold moebius. destruct (Z.even n) eqn:Ev.
    - destruct (Z.eqb_spec (n mod 4) 0) as [E4|E4]; [eexists; eexists; reflexivity|]. destruct (half_odd n Ev E4) as [h [Eh [En Ho]]]. rewrite div_ok by lia. cbn [bind]. rewrite Eh. destruct (G h) as [v [dr' ->]]; [eapply in_range_le; [|exact Hn]; lia | lia | exact Ho|]. eexists; eexists; reflexivity.
    - apply G; [exact Hn | lia | rewrite <- Z.negb_even, Ev; reflexivity]. }
  destruct R as [v [dr' E]]. exists v, dr'. split; [exact E|].
  apply (C33_moebius SmallTable pf lf fuel t n dr v dr'); try assumption; try lia. intros k Hk Hp. apply (keys32 pf lf); [lia | exact Hp].
Qed.
(** the generators at u8, u16 and u32 *)
Theorem C75_gen_prime : forall pf lf fuel w exact b dr p dr', w = 8 \/ w = 16 \/ w = 32 -> 1 <= b <= w -> Z.of_nat lf <= 2 ^ 31 -> gen_prime_prim SmallTable pf lf fuel w exact b dr = Ret (p, dr') -> prime p.
Proof.
  intros pf lf fuel w exact b dr p dr' Hw Hb Hlf E. assert (Hv : valid_ity (U w)) by (cbn; intuition lia). assert (W : 2 ^ w <= 2 ^ 32) by (apply Z.pow_le_mono_r; lia).
  assert (G : p < 2 ^ w /\ is_prime64 SmallTable pf p = Ret true).
  { destruct exact; [apply C39_gen_prime_exact in E | apply C38_gen_prime in E]; try assumption; try lia; destruct E as [pre [x [_ H]]]; cbv zeta in H; intuition lia. }
  apply (accepted32 pf p); [lia | apply G].
Qed.
Theorem C75_gen_safe_prime : forall pf lf fuel w b dr p dr', w = 8 \/ w = 16 \/ w = 32 -> 1 <= b <= w -> Z.of_nat lf <= 2 ^ 31 ->
  gen_safe_prime_prim SmallTable pf lf fuel w b dr = Ret (p, dr') \/ gen_safe_prime_exact_prim SmallTable pf lf fuel w b dr = Ret (p, dr') -> prime p /\ prime (p / 2).
Proof.
  intros pf lf fuel w b dr p dr' Hw Hb Hlf E. assert (Hv : valid_ity (U w)) by (cbn; intuition lia). assert (W : 2 ^ w <= 2 ^ 32) by (apply Z.pow_le_mono_r; lia).
  assert (G : in_range (U w) p /\ is_safe_prime SmallTable pf (U w) no_probs lf p [] = Ret (Yes, [])).
  { destruct E as [E|E]; [apply (C40_gen_safe_prime SmallTable pf lf fuel w b dr p dr' []) in E | apply (C40_gen_safe_prime_exact SmallTable pf lf fuel w b dr p dr' []) in E]; try assumption; try lia. destruct E as [A B]. split; [|exact B]. cbn [in_range].
    pose proof (Z.pow_nonneg 2 (b - 1) ltac:(lia)). lia. }
  destruct G as [Hp S]. destruct (C75_is_safe_prime pf (U w) unit no_probs lf [] p Hv Hp ltac:(cbn [in_range] in Hp; lia)) as [r [E' [R _]]]. rewrite S in E'. injection E' as <-. apply R. reflexivity.
Qed.
(** the share of a prime among the draws of gen_prime and gen_prime_exact is the gap between the primes (C71) *)
Theorem C75_share : forall pf lf fuel w b dr q p x, valid_ity (U w) -> w <= 64 -> 1 <= b <= w -> Z.of_nat lf <= 2 ^ 31 ->
  prime q -> prime p -> 3 <= q < p -> p < 2 ^ w -> p < 2 ^ 32 -> p < fuel -> p <> 257 -> (forall n, q < n < p -> ~ prime n) -> 0 <= x < 2 ^ w ->
  (gen_prime_prim SmallTable pf lf fuel w false b (x :: dr) = Ret (p, dr) <-> (q + 1) * 2 ^ (w - b) <= x < (p + 1) * 2 ^ (w - b)) /\
  (gen_prime_prim SmallTable pf lf fuel w true b (x :: dr) = Ret (p, dr) <-> (q + 1) * 2 ^ (w - b) <= x mod 2 ^ (w - 1) + 2 ^ (w - 1) < (p + 1) * 2 ^ (w - b)).
Proof.
  intros pf lf fuel w b dr q p x Hw Hw64 Hb Hlf Pq Pp Hqp Hp H32 Hfuel Hg Hn Hx. apply C71_share; try assumption; [right; exact Hg|]. intros n H. destruct (exact32 pf n ltac:(lia)) as [c [E B]]. rewrite E. destruct c; [|reflexivity].
  exfalso. apply (Hn n H). apply B. reflexivity.
Qed.
(** the example programs divisors, divisor_sigma, prime_omega and prime_Omega (C57, C58) *)
Lemma factorize64_32 : forall pf fuel n dr, 1 <= n < 2 ^ 32 -> 2 ^ 65 <= fuel -> 7680 <= Z.of_nat (length dr) ->
  exists m dr', factorize64 SmallTable pf fuel n dr = Ret (m, dr') /\ forall k, In k (map fst m) -> prime k.
Proof.
  intros pf fuel n dr Hn Hf Hd. destruct (C73_factorize64 SmallTable pf fuel n 1 n dr Hf ltac:(lia) ltac:(lia) ltac:(lia)) as [m [dr' [E [_ [_ F]]]]]; [exact Hn | intros p Pp D; exfalso; pose proof (prime_ge2 p Pp); apply Z.divide_1_r_nonneg in D; lia | exact Hd |].
  exists m, dr'. split; [exact E|]. destruct F as [_ [F _]]; [intros k Hk; apply accepted32; lia|]. rewrite Forall_forall in F. intros k Hk. apply in_map_iff in Hk. destruct Hk as [pe [<- Hin]]. apply F, Hin.
Qed.
Theorem C75_divisors : forall pf fuel n dr, 1 <= n < 2 ^ 32 -> 2 ^ 65 <= fuel -> 7680 <= Z.of_nat (length dr) ->
  exists l dr', divisors SmallTable pf fuel n dr = Ret (l, dr') /\ NoDup l /\ (forall d, In d l <-> 1 <= d /\ (d | n)) /\
    (forall z, 0 <= z < 2 ^ 32 -> divisor_sigma SmallTable pf fuel n z dr =
       if sigma z n <? 2 ^ 64 then Ret (sigma z n, dr') else match pf with Debug => Panic | Release => Ret (sigma z n mod 2 ^ 64, dr') end) /\
    prime_omega SmallTable pf fuel n dr = Ret (omega n, dr') /\
    exists v, prime_Omega SmallTable pf fuel n dr = Ret (v, dr') /\ (exists ps, prime_product n ps) /\ (forall ps, prime_product n ps -> Z.of_nat (length ps) = v).
Proof.
  intros pf fuel n dr Hn Hf Hd. destruct (factorize64_32 pf fuel n dr Hn Hf Hd) as [m [dr' [E K]]]. assert (H64 : 1 <= n < 2 ^ 64) by lia. assert (H129 : 129 < fuel) by (change (2 ^ 65) with 36893488147419103232 in Hf; lia).
  destruct (C57_divisors SmallTable pf fuel n dr m dr' H64 H129 E) as [l [El [A B]]]. destruct (B K) as [ND C]. exists l, dr'. split; [exact El|]. split; [exact ND|].
  split; [intros d; split; [apply A | intros [H1 H2]; apply C; assumption]|]. split; [intros z Hz; apply (C57_sigma SmallTable pf fuel n z dr m dr'); assumption|].
  apply (C58_omega SmallTable pf fuel n dr m dr'); assumption.
Qed.

(** ** Concrete cases: 3215031751 = 151 * 751 * 28351 is the least strong pseudoprime to the bases 2, 3, 5 and 7; 4294967291 is
    the greatest prime below 2^32 *)
Example C11_case_32bit : is_prime64 SmallTable Release 4294967291 = Ret true /\ prime 4294967291 /\ ~ prime 3215031751.
Proof.
  assert (E : is_prime64 SmallTable Release 4294967291 = Ret true) by (vm_compute; reflexivity). split; [exact E|]. split; [apply (accepted32 Release); [lia | exact E]|].
  intros P. destruct (exact32 Release 3215031751 ltac:(lia)) as [b [E' B]]. apply B in P. subst b. assert (C : is_prime64 SmallTable Release 3215031751 = Ret false) by (vm_compute; reflexivity). rewrite C in E'. discriminate E'.
Qed.
Example C75_case : (exists p, next_prime SmallTable Debug (U 32) 50 (2 ^ 32) 4294967200 None [] = Ret (Some p, []) /\ least_prime_above 4294967200 p /\ p <= 4294967291)
  /\ (exists p, prev_prime SmallTable Release (U 32) 50 (2 ^ 32) 4294967295 None [] = Ret (Some p, []) /\ greatest_prime_below 4294967295 p)
  /\ (exists m dr', nt_factorize SmallTable Debug 50 (2 ^ 65) (U 32) 4294049777 (List.repeat 1 (Z.to_nat 7680)) = Ret (m, dr') /\ prime_factorization 4294049777 m)
  /\ nt_factorize SmallTable Debug 50 (2 ^ 65) (U 32) 4294049777 [1; 1] = Ret ([(65521, 1); (65537, 1)], []).
Proof.
  assert (Pq : prime 4294967291) by apply C11_case_32bit. split; [|split; [|split]].
  - destruct (C75_next_prime_u32 Debug 32 50 None (2 ^ 32) 4294967200 [] ltac:(lia) ltac:(lia) ltac:(lia) ltac:(lia) ltac:(lia)) as [o [E H]]. destruct o as [p|]; [|specialize (H _ Pq); lia]. exists p. split; [exact E|]. split; [apply H|]. apply H; [exact Pq | lia].
  - apply C75_prev_prime; first [cbn; tauto | cbn [in_range]; lia | lia].
  - apply C75_factorize; try (cbn; tauto); try (cbn [in_range]; lia); try lia; try (rewrite repeat_length, Z2Nat.id; lia).
  - vmc.
Qed.

Print Assumptions C75_bases_2_7_61. Print Assumptions C11_is_prime64_exact_32bit_small. Print Assumptions C75_is_prime. Print Assumptions C75_is_safe_prime. Print Assumptions C75_next_prime_u32. Print Assumptions C75_prev_prime.
Print Assumptions C75_factorize_sound. Print Assumptions C75_factorize. Print Assumptions C75_moebius. Print Assumptions C75_gen_prime. Print Assumptions C75_gen_safe_prime. Print Assumptions C75_share. Print Assumptions C75_divisors.
