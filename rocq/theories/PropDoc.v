(** * Properties: factorization of numbers up to 128 bits which the table primes reduce to 1 or to a prime (C29, C31),
    and the example in the documentation of the crate (C65) *)
From Coq Require Import ZArith Znumtheory Zpow_facts List Lia Bool Sorted.
From Verif Require Import Base Tables Spec Ext NT PBase PTables MInteger PInteger Ops POps MPrimality MTraits PSprp PropSprp MFactor MSieve MIsPrime NTLegendre NTResidue PIsPrime PIsPrime2 PropIsPrime MFactorize PFactor PFactorize PFactorize2 PFactorize3 PFactorize4 PropFactorize PropFactorize2 NTPock PDoc.
Import ListNotations.
Local Open Scope Z_scope.

(** factorize128 returns the prime factorization, drawing nothing, whenever the table primes leave 1 or a
    prime: no proviso on the primality test. [lf] bounds the search for Lucas parameters. *)
Theorem C29_returns : forall f pf lf fuel n s q dr, 2 ^ 64 <= n < 2 ^ 128 -> 129 < fuel -> Z.of_nat lf <= 2 ^ 61 -> n = s * q -> 1 <= s ->
  (forall p, prime p -> (p | s) -> p < SMALL_PRIMES_NEXT f) -> q = 1 \/ prime q ->
  q < 2 ^ 64 \/ 6 + Z.sqrt q <= Z.of_nat lf \/ (exists d, Z.odd d = true /\ 5 <= d < 5 + 2 * Z.of_nat lf /\ legendre (if d mod 4 =? 1 then d else - d) q = -1) ->
  exists m, factorize128 f pf lf fuel n dr = Ret (m, dr) /\ prime_factorization n m.
Proof.
  intros f pf lf fuel n s q dr Hn Hf Hlf En Hs Hp Hq Hlq. destruct (factorize128_total f pf lf fuel Hlf Hf n s q dr Hn En Hs Hp Hq) as [E|[L [S [L' _]]]]; [exact E|].
  destruct Hlq as [H|[H|[d [H1 [H2 H3]]]]]; [lia | lia |]. exfalso. exact (S d H1 H2 H3).
Qed.
(** Whatever the fuel: out of fuel or right. *)
Theorem C29_never_wrong : forall f pf lf fuel n s q dr, 2 ^ 64 <= n < 2 ^ 128 -> 129 < fuel -> Z.of_nat lf <= 2 ^ 61 -> n = s * q -> 1 <= s ->
  (forall p, prime p -> (p | s) -> p < SMALL_PRIMES_NEXT f) -> q = 1 \/ prime q ->
  factorize128 f pf lf fuel n dr = NoFuel \/ exists m, factorize128 f pf lf fuel n dr = Ret (m, dr) /\ prime_factorization n m.
Proof.
  intros f pf lf fuel n s q dr Hn Hf Hlf En Hs Hp Hq. destruct (factorize128_total f pf lf fuel Hlf Hf n s q dr Hn En Hs Hp Hq) as [E|[_ [_ [_ E]]]]; auto.
Qed.
(** factorize128 run on [n] decides factorize and factors at every type and buffer; the configuration given
    to factors is not looked at. *)
Theorem C31_returns : forall f pf lf fuel t buf n config dr m dr', valid_ity t -> in_range t n -> 1 <= n < 2 ^ 128 -> 129 < fuel ->
  factorize128 f pf lf fuel n dr = Ret (m, dr') -> prime_factorization n m ->
  factorize f pf lf fuel t buf n dr = Ret (m, dr') /\ factors f pf lf fuel t buf n config dr = Ret (m, None, dr').
Proof.
  intros f pf lf fuel t buf n config dr m dr' Ht Hn Hb Hf E128 F.
  assert (C : collect_map f pf t m = Ret m).
  { destruct F as [[S W] [P Q]]. apply collect_map_id; [exact S|]. intros k Hk.
    assert (D : 1 <= k <= prod_powers m). { apply key_le_prod; [|exact Hk]. intros p e Hin. rewrite Forall_forall in P, W. specialize (P _ Hin). specialize (W _ Hin). cbn [fst snd] in *. pose proof (prime_ge2 p P). lia. }
    rewrite Q in D. eapply in_range_le; [|exact Hn]. lia. }
  split.
  - rewrite factorize_small by lia. rewrite E128. cbn [bind]. rewrite C. reflexivity.
  - unfold factors. replace (n <? 2 ^ 128) with true by (symmetry; apply Z.ltb_lt; lia). rewrite E128. cbn [bind]. rewrite C. reflexivity.
Qed.
(** Refuted: the documentation of factors says that from 2^64 on the algorithms can be specified by the
    configuration. Below 2^128 it has no influence (its rho_trials = 0 would leave every composite unsplit). *)
Theorem C30_config_ignored : forall f pf lf fuel t buf n c1 c2 dr, n < 2 ^ 128 ->
  factors f pf lf fuel t buf n c1 dr = factors f pf lf fuel t buf n c2 dr.
Proof. intros f pf lf fuel t buf n c1 c2 dr H. unfold factors. apply Z.ltb_lt in H. rewrite H. reflexivity. Qed.
Definition no_method : factor_config := {| primality_config := pc_default; td_limit := Some 0; rho_trials := 0 |}.
Theorem C30_config_refuted : forall f pf, factors f pf 50 200 u128 (buf_iter (buf_new f)) (2 ^ 3 * 65537 ^ 2) (Some no_method) [] = Ret ([(2, 3); (65537, 2)], None, [])
  /\ exists l, factors f pf 50 200 Big (buf_iter (buf_new f)) (2 ^ 70 * 3 ^ 50) (Some no_method) [] = Ret ([], Some l, []).
Proof. intros [|] [|]; (split; [vmc | eexists; vmc]). Qed.

(** C65: the example in the documentation of the crate (src/lib.rs:33-49), whatever is drawn *)
Lemma prime_19628971 : prime 19628971.
Proof. small_prime. Qed.
Lemma prime_2812085643403 : prime 2812085643403.
Proof. apply (pocklington _ [(19628971, 1, 2)]); [vm_compute; reflexivity | nodup|]. constructor; [exact prime_19628971|]. constructor. Qed.
Lemma prime_11248342573613 : prime 11248342573613.
Proof. apply (pocklington _ [(2812085643403, 1, 2)]); [vm_compute; reflexivity | nodup|]. constructor; [exact prime_2812085643403|]. constructor. Qed.
Lemma prime_cofactor : prime 57912614113275649087721.
Proof. apply (pocklington _ [(11248342573613, 1, 3)]); [vm_compute; reflexivity | nodup|]. constructor; [exact prime_11248342573613|]. constructor. Qed.
Lemma prime_167 : prime 167.
Proof. small_prime. Qed.

(** [is_prime(&p, None).probably()]: holds for all draws that are not 0 (and see C13_zero_witness_refuted) *)
Theorem C65_prime_default : forall f pf lf dr, (forall x, In x dr -> x mod 2 ^ 64 <> 0) -> Z.of_nat lf <= 2 ^ 31 ->
  nt_is_prime f pf (uops f pf u128) no_probs lf (2 ^ 89 - 1) None dr <> Panic /\
  forall r dr', nt_is_prime f pf (uops f pf u128) no_probs lf (2 ^ 89 - 1) None dr = Ret (r, dr') -> probably r = true.
Proof.
  intros f pf lf dr Hd Hlf.
  pose proof (C13_is_prime_never_rejects f pf u128 (2 ^ 89 - 1) _ no_probs lf (buf_iter (buf_new f)) None dr ltac:(cbn; lia) ltac:(cbn [in_range u128]; lia) mersenne_89
    ltac:(intros w Hw; apply new_buf_range in Hw; lia) Hd Hlf eq_refl) as H.
  unfold nt_is_prime. destruct (is_prime _ _ _ _ _ _ _ _ _) as [[r0 d0]| |]; [|contradiction | split; discriminate]. split; [discriminate|]. intros r dr' E. injection E as -> ->. exact H.
Qed.
(** [is_prime(&p, Some(bpsw())).probably()]: nothing is drawn *)
Theorem C65_prime_bpsw : forall f pf lf dr, 2 <= Z.of_nat lf <= 2 ^ 61 -> prime_probably f pf u128 lf (2 ^ 89 - 1) (Some pc_bpsw) dr = Ret (true, dr).
Proof.
  intros f pf lf dr Hlf. destruct (bpsw_prime f pf u128 (2 ^ 89 - 1) lf ltac:(cbn; lia) ltac:(cbn [in_range u128]; lia) mersenne_89 eq_refl ltac:(lia)) as [H|[_ [H _]]]; [apply H|].
  exfalso. apply (not_short (2 ^ 89 - 1) (2 ^ 89 - 8) 7 lf mersenne_89 eq_refl eq_refl ltac:(lia)) in H; [exact H | | vm_compute; reflexivity].
  apply eqm_mod_eq; [lia | reflexivity].
Qed.
Lemma ret_inj : forall A (a b : A), Ret a = Ret b -> a = b.
Proof. intros A a b E. injection E as E. exact E. Qed.
(** [!is_prime(&c, None).probably()]: the composite is rejected whatever is drawn *)
Theorem C65_composite : forall f pf lf dr, nt_is_prime f pf (uops f pf u128) no_probs lf (2 ^ 83 - 1) None dr <> Panic /\
  forall r dr', nt_is_prime f pf (uops f pf u128) no_probs lf (2 ^ 83 - 1) None dr = Ret (r, dr') -> r = No.
Proof.
  intros f pf lf dr.
  assert (Hin : in_range u128 (2 ^ 83 - 1)) by (cbn [in_range u128]; lia).
  assert (L : is_sprp (uops BigTable Debug u128) (2 ^ 83 - 1) 3 = Ret (z_sprp (2 ^ 83 - 1) 3)).
  { apply (is_sprp_law _ u128 _ _ _ (uops_lawful BigTable Debug u128) ltac:(cbn; lia)); [split; [reflexivity | exact Hin] | split; [reflexivity | cbn [in_range u128]; lia] | cbv beta; lia | lia]. }
  assert (M : is_sprp (uops BigTable Debug u128) (2 ^ 83 - 1) 3 = Ret false) by (vm_compute; reflexivity). rewrite M in L. apply ret_inj in L. symmetry in L. clear M.
  assert (Ho : Z.odd (2 ^ 83 - 1) = true) by reflexivity. assert (H64 : 2 ^ 64 <= 2 ^ 83 - 1) by lia. revert L Hin Ho H64. generalize (2 ^ 83 - 1). intros n L Hin Ho H64.
  unfold nt_is_prime. rewrite (is_prime_large f pf _ no_probs u128 _ _ _ (uops_lawful f pf u128) ltac:(cbn; lia) lf _ n n None dr (conj eq_refl Hin) ltac:(cbv beta; lia) Ho H64 ltac:(intros w Hw; apply new_buf_range in Hw; lia)).
  cbv zeta. cbn [the_config pc_default sprp_trials].
  assert (Hfix : fixed_witnesses pc_default (buf_iter (buf_new f)) = [2; 3]) by (unfold fixed_witnesses; cbn [pc_default sprp_trials]; change (0 <? 2) with true; change (Z.to_nat 2) with 2%nat; apply table_firstn).
  rewrite Hfix.
  destruct (draw_witnesses pc_default dr [2; 3]) as [[ws d]| |] eqn:Ew; cbn [bind].
  2:{ exfalso. revert Ew. unfold draw_witnesses. cbn [pc_default sprp_random_trials]. change (0 <? 3) with true. cbn iota. apply random_not_panic. }
  2:{ split; discriminate. }
  assert (Hf : forallb (z_sprp n) ws = false).
  { assert (exists rnd, ws = [2; 3] ++ rnd) as [rnd ->].
    { unfold draw_witnesses in Ew. cbn [pc_default sprp_random_trials] in Ew. change (0 <? 3) with true in Ew. cbn iota in Ew. apply random_witnesses_spec in Ew. destruct Ew as [rnd [-> _]]. exists rnd. reflexivity. }
    cbn [app forallb]. rewrite L. rewrite andb_false_r. reflexivity. }
  rewrite Hf. cbn [negb]. split; [discriminate|]. intros r dr' E. injection E as <- _. reflexivity.
Qed.
(** [factorize(c)] and [factors(c, Some(strict()))]: two prime factors, nothing left over, nothing drawn; in
    fact at every type that holds the number, with every buffer and every configuration *)
Theorem C65_factorize : forall f pf lf fuel t buf config dr, 6 <= Z.of_nat lf <= 2 ^ 61 -> valid_ity t -> in_range t (2 ^ 83 - 1) -> 129 < fuel ->
  factorize f pf lf fuel t buf (2 ^ 83 - 1) dr = Ret ([(167, 1); (57912614113275649087721, 1)], dr) /\
  factors f pf lf fuel t buf (2 ^ 83 - 1) config dr = Ret ([(167, 1); (57912614113275649087721, 1)], None, dr).
Proof.
  intros f pf lf fuel t buf config dr Hlf Ht Hn Hf.
  assert (F : prime_factorization (2 ^ 83 - 1) [(167, 1); (57912614113275649087721, 1)]).
  { split; [split; [cbn [map fst]; repeat constructor | repeat constructor; cbn [snd]; lia]|]. split; [|reflexivity]. constructor; [exact prime_167|]. constructor; [exact prime_cofactor | constructor]. }
  destruct (factorize128_total f pf lf fuel ltac:(lia) Hf (2 ^ 83 - 1) 167 57912614113275649087721 dr ltac:(lia) eq_refl ltac:(lia)) as [[m [E Fm]]|[_ [C _]]].
  - intros p Pp D. apply (prime_divides_prime p 167 Pp prime_167) in D. subst p. rewrite small_next. destruct f; lia.
  - right. exact prime_cofactor.
  - rewrite (prime_factorization_unique _ _ _ F Fm). apply C31_returns; try assumption; lia.
  - exfalso. apply (not_short 57912614113275649087721 (57912614113275649087721 - 15) 15 lf prime_cofactor eq_refl eq_refl ltac:(lia)) in C; [exact C | | vm_compute; reflexivity].
    apply eqm_mod_eq; [lia | reflexivity].
Qed.
(** A cofactor beyond 64 bits. *)
Example C29_case_returns : exists m, factorize128 SmallTable Debug 50 200 (2 ^ 30 * (2 ^ 89 - 1)) [] = Ret (m, []) /\ prime_factorization (2 ^ 30 * (2 ^ 89 - 1)) m.
Proof.
  apply (C29_returns _ _ _ _ _ (2 ^ 30) (2 ^ 89 - 1)); [lia | lia | lia | reflexivity | lia | | right; exact mersenne_89 |].
  - intros p Pp D. apply prime_power_prime in D; [subst p; rewrite small_next; lia | lia | exact Pp | exact prime_2].
  - right. right. exists 7. split; [reflexivity|]. split; [lia|]. change (if 7 mod 4 =? 1 then 7 else - (7)) with (star 7).
    rewrite (legendre_eqm _ (2 ^ 89 - 8)); [|lia | apply eqm_mod_eq; [lia | reflexivity]]. apply legendre_m1; [exact mersenne_89 | reflexivity | vm_compute; reflexivity].
Qed.
Example C65_case : prime (2 ^ 89 - 1) /\ 167 * 57912614113275649087721 = 2 ^ 83 - 1 /\
  nt_is_prime BigTable Debug (uops BigTable Debug u128) no_probs 50 (2 ^ 83 - 1) None [5; 7; 11] = Ret (No, []).
Proof. split; [exact mersenne_89|]. split; [reflexivity | vmc]. Qed.

Print Assumptions C29_returns.
Print Assumptions C29_never_wrong.
Print Assumptions C31_returns.
Print Assumptions C30_config_ignored.
Print Assumptions C30_config_refuted.
Print Assumptions C65_prime_default.
Print Assumptions C65_prime_bpsw.
Print Assumptions C65_composite.
Print Assumptions C65_factorize.
