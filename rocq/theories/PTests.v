(** * Lemmas for the unit tests of the crate (C66): divisors of a number given by its primes, and is_prime with
    the Jacobi symbol computed by the Euclidean algorithm. No further code is modelled here. *)
From Coq Require Import ZArith Znumtheory Zpow_facts List Lia Bool Sorted.
From Verif Require Import Base Tables Spec Ext NT PBase PTables MInteger PInteger Ops POps MPrimality MTraits PSprp MFactor MSieve MIsPrime PIsPrime PIsPrime2 PropIsPrime MFactorize PFactor PFactorize PFactorize2 PFactorize3 PropFactorize NTRecip PFast PLucas PLucas2 PLucas3 NTResidue PropMint PDoc.
Import ListNotations.
Local Open Scope Z_scope.

(** ** Divisors *)
Fixpoint all_divisors (l : list Z) : list Z := match l with [] => [1] | p :: l' => let d := all_divisors l' in d ++ map (Z.mul p) d end.
Lemma all_divisors_spec : forall l k, Forall prime l -> 1 <= k -> (k | prod l) -> In k (all_divisors l).
Proof.
  intros l k P. revert k. induction P as [|p l Pp P IH]; intros k H1 D; cbn [prod all_divisors] in *.
  - apply Z.divide_1_r_nonneg in D; [subst; left; reflexivity | lia].
  - apply in_or_app. destruct (Zdivide_dec p k) as [[j Hj]|N].
    + right. pose proof (prime_ge2 p Pp). subst k. rewrite Z.mul_comm. apply in_map. apply IH; [nia|].
      destruct D as [c D]. exists c. apply (Z.mul_reg_l _ _ p); [lia|]. rewrite D. ring.
    + left. apply IH; [exact H1|]. apply (Gauss k p); [exact D|]. apply rel_prime_sym, prime_rel_prime; assumption.
Qed.
Lemma key_divides : forall m k, Forall (fun pe => 1 <= snd pe) m -> In k (map fst m) -> (k | prod_powers m).
Proof.
  induction m as [|[p e] m IH]; intros k F Hk; [destruct Hk|]. inversion F as [|? ? F1 F2]; subst. cbn [snd] in F1. cbn [prod_powers]. destruct Hk as [<-|Hk].
  - cbn [fst]. apply Z.divide_mul_l. replace e with (1 + (e - 1)) by lia. rewrite Z.pow_add_r, Z.pow_1_r by lia. apply Z.divide_factor_l.
  - apply Z.divide_mul_r. apply IH; assumption.
Qed.

(** ** Factorizations that can only come out one way *)
Definition refuses (r : res bool) : bool := match r with Ret true => false | _ => true end.
Lemma factorize64_only : forall f pf fuel n l m0 dr m dr', 1 <= n < 2 ^ 64 -> 129 < fuel -> Forall prime l -> prod l = n ->
  forallb (fun k => existsb (Z.eqb k) l || refuses (is_prime64 f pf k)) (nodup Z.eq_dec (all_divisors l)) = true -> prime_factorization n m0 ->
  factorize64 f pf fuel n dr = Ret (m, dr') -> m = m0.
Proof.
  intros f pf fuel n l m0 dr m dr' Hn Hf P El C F E. destruct (C28_factorize64 f pf fuel n dr m dr' Hn Hf E) as [W [Pm [K _]]].
  symmetry. apply (C28_unique n); try assumption. intros k Hk. specialize (K k Hk).
  pose proof (key_divides m k (proj2 W) Hk) as D. rewrite Pm in D.
  assert (H1 : 1 <= k).
  { destruct (Z.lt_ge_cases k 1) as [L|L]; [|exact L]. exfalso. rewrite is_prime64_law in K by lia. unfold z_is_prime64 in K. replace (k <? 2) with true in K by (symmetry; apply Z.ltb_lt; lia). discriminate. }
  rewrite forallb_forall in C. specialize (C k (proj2 (nodup_In Z.eq_dec _ k) (all_divisors_spec l k P H1 ltac:(rewrite El; exact D)))). rewrite K in C. cbn [refuses] in C. rewrite orb_false_r in C.
  apply existsb_exists in C. destruct C as [x [Hx Ex]]. apply Z.eqb_eq in Ex. subst x. rewrite Forall_forall in P. apply P, Hx.
Qed.
Definition refuses2 (r : res (bool * draws)) : bool := match r with Ret (true, _) => false | _ => true end.
Lemma accepted_pos : forall f pf lf k, prime_probably f pf u128 lf k (Some pc_bpsw) [] = Ret (true, []) -> 1 <= k.
Proof.
  intros f pf lf k A. destruct (Z.lt_ge_cases k 1) as [C|C]; [|exact C]. exfalso.
  unfold prime_probably, nt_is_prime, is_prime in A. cbn [uops o_is_even] in A. destruct (Z.even k) eqn:Ev.
  - unfold o_const in A. cbn [uops o_from] in A. rewrite from_prim_ok in A by (cbn [u128 in_range]; lia). cbn [unwrap bind uops o_eqb] in A.
    replace (k =? 2) with false in A by (symmetry; apply Z.eqb_neq; lia). discriminate.
  - cbn [uops o_to_z] in A. replace (k <? 2 ^ 64) with true in A by (symmetry; apply Z.ltb_lt; lia). rewrite is_prime64_law in A by lia. unfold z_is_prime64 in A.
    replace (k <? 2) with true in A by (symmetry; apply Z.ltb_lt; lia). discriminate.
Qed.
Lemma factorize128_only : forall f pf lf fuel n l m0 dr m dr', 1 <= n < 2 ^ 128 -> 129 < fuel -> Z.of_nat lf <= 2 ^ 61 -> Forall prime l -> (n | prod l) ->
  forallb (fun k => existsb (Z.eqb k) l || refuses2 (prime_probably f pf u128 lf k (Some pc_bpsw) [])) (nodup Z.eq_dec (all_divisors l)) = true -> prime_factorization n m0 ->
  factorize128 f pf lf fuel n dr = Ret (m, dr') -> m = m0.
Proof.
  intros f pf lf fuel n l m0 dr m dr' Hn Hf Hlf P El C F E. destruct (C29_factorize128 f pf lf fuel n dr m dr' Hn Hf Hlf E) as [W [Pm [K _]]].
  symmetry. apply (C28_unique n); try assumption. intros k Hk. specialize (K k Hk []).
  pose proof (key_divides m k (proj2 W) Hk) as D. rewrite Pm in D. pose proof (accepted_pos f pf lf k K) as H1.
  rewrite forallb_forall in C. specialize (C k (proj2 (nodup_In Z.eq_dec _ k) (all_divisors_spec l k P H1 (Z.divide_trans _ _ _ D El)))). rewrite K in C. cbn [refuses2] in C. rewrite orb_false_r in C.
  apply existsb_exists in C. destruct C as [x [Hx Ex]]. apply Z.eqb_eq in Ex. subst x. rewrite Forall_forall in P. apply P, Hx.
Qed.

(** ** is_prime evaluated with the fast Jacobi symbol *)
Lemma fast_is_prime : forall A f pf t (PR : probs A) lf buf n config dr,
  is_prime f pf (fops f pf t) PR lf buf n config dr = is_prime f pf (uops f pf t) PR lf buf n config dr.
Proof.
  intros A f pf t PR lf buf n config dr. unfold is_prime. rewrite fast_slprp, fast_eslprp. reflexivity.
Qed.

(** ** is_prime on a prime beyond 64 bits *)
Lemma bpsw_on_prime : forall f pf t n lf a d dr, valid_ity t -> in_range t n -> 2 ^ 64 <= n -> prime n -> Z.odd n = true -> Z.of_nat lf <= 2 ^ 61 ->
  Z.odd d = true -> 5 <= d < 5 + 2 * Z.of_nat lf -> star d =[n]= a -> Zpow_mod a ((n - 1) / 2) n = n - 1 ->
  nt_is_prime f pf (uops f pf t) no_probs lf n (Some pc_bpsw) dr = Ret (Probable tt, dr).
Proof.
  intros f pf t n lf a d dr Ht Hn Hb Pn Ho Hlf Od Hd Ea Ep. destruct (bpsw_prime f pf t n lf Ht Hn Pn Ho Hlf) as [H|[_ [H _]]].
  2:{ exfalso. exact (not_short n a d lf Pn Ho Od Hd Ea Ep H). }
  specialize (H dr). unfold prime_probably in H. destruct (nt_is_prime f pf (uops f pf t) no_probs lf n (Some pc_bpsw) dr) as [[r dr']| |] eqn:E; cbn [bind] in H; try discriminate.
  injection H as H ->. destruct (C14_is_prime_large f pf t n unit no_probs lf (buf_iter (buf_new f)) (Some pc_bpsw) dr r dr Ht Hn Hb) as [C _]; [intros w Hw; apply new_buf_range in Hw; lia | exact E |].
  destruct r as [| |[]]; try discriminate; congruence.
Qed.
Lemma default_on_prime : forall f pf t n lf dr, valid_ity t -> in_range t n -> 2 ^ 64 <= n -> prime n -> Z.of_nat lf <= 2 ^ 31 -> Z.log2 (n + 1) < 2 ^ 64 ->
  (forall x, In x dr -> x mod 2 ^ 64 <> 0) ->
  nt_is_prime f pf (uops f pf t) no_probs lf n None dr <> Panic /\
  forall r dr', nt_is_prime f pf (uops f pf t) no_probs lf n None dr = Ret (r, dr') -> r = Probable tt.
Proof.
  intros f pf t n lf dr Ht Hn Hb Pn Hlf Hl Hd.
  pose proof (C13_is_prime_never_rejects f pf t n unit no_probs lf (buf_iter (buf_new f)) None dr Ht Hn Pn ltac:(intros w Hw; apply new_buf_range in Hw; lia) Hd Hlf Hl) as H.
  unfold nt_is_prime. destruct (is_prime f pf (uops f pf t) no_probs lf (buf_iter (buf_new f)) n None dr) as [[r dr']| |] eqn:E; [|destruct H | split; discriminate].
  split; [discriminate|]. intros r0 dr0 E0. injection E0 as <- _.
  destruct (C14_is_prime_large f pf t n unit no_probs lf (buf_iter (buf_new f)) None dr r dr' Ht Hn Hb) as [C _]; [intros w Hw; apply new_buf_range in Hw; lia | exact E |].
  destruct r as [| |[]]; try discriminate; congruence.
Qed.

(** ** The Lucas tests give the same answer in every feature and profile *)
Lemma lprp_same : forall f pf f' pf' t lf n, valid_ity t -> in_range t n -> Z.odd n = true -> 1 <= n -> Z.of_nat lf <= 2 ^ 61 ->
  is_lprp pf (uops f pf t) lf n None None = is_lprp pf' (uops f' pf' t) lf n None None /\ is_slprp pf (uops f pf t) lf n None None = is_slprp pf' (uops f' pf' t) lf n None None.
Proof.
  intros f pf f' pf' t lf n Ht Hn Ho H1 Hlf. destruct (self_at_exists n H1 Ho) as [e Ha]. assert (HV : UV t n n) by (split; auto).
  split.
  - rewrite (is_lprp_auto pf _ t _ _ _ (uops_lawful f pf t) Ht lf n n e None None HV ltac:(cbv beta; lia) Ho H1 Ha (or_introl Hlf) (or_introl eq_refl)).
    rewrite (is_lprp_auto pf' _ t _ _ _ (uops_lawful f' pf' t) Ht lf n n e None None HV ltac:(cbv beta; lia) Ho H1 Ha (or_introl Hlf) (or_introl eq_refl)). reflexivity.
  - rewrite (is_slprp_auto pf _ t _ _ _ (uops_lawful f pf t) Ht lf n n e None None HV ltac:(cbv beta; lia) Ho H1 Ha (or_introl Hlf) (or_introl eq_refl)).
    rewrite (is_slprp_auto pf' _ t _ _ _ (uops_lawful f' pf' t) Ht lf n n e None None HV ltac:(cbv beta; lia) Ho H1 Ha (or_introl Hlf) (or_introl eq_refl)). reflexivity.
Qed.
Lemma eslprp_same : forall f pf f' pf' t lf n, valid_ity t -> in_range t n -> Z.odd n = true -> 1 <= n -> Z.log2 (n + 1) < 2 ^ 64 -> Z.of_nat lf <= 2 ^ 31 ->
  is_eslprp pf (uops f pf t) lf n None = is_eslprp pf' (uops f' pf' t) lf n None.
Proof.
  intros f pf f' pf' t lf n Ht Hn Ho H1 Hl Hlf. destruct (brute_at_exists n H1 Ho) as [e Ha].
  rewrite (is_eslprp_auto f pf t lf n e Ht Hn Ho H1 Ha Hl (or_introl Hlf)), (is_eslprp_auto f' pf' t lf n e Ht Hn Ho H1 Ha Hl (or_introl Hlf)). reflexivity.
Qed.
Lemma prime_divides_list : forall p l, prime p -> Forall prime l -> (p | prod l) -> In p l.
Proof.
  intros p l Pp F. induction F as [|q l Pq F IH]; intros D; cbn [prod] in D.
  - apply Z.divide_1_r_nonneg in D; [|pose proof (prime_ge2 p Pp); lia]. pose proof (prime_ge2 p Pp). lia.
  - destruct (prime_mult p Pp _ _ D) as [C|C]; [left; symmetry; apply prime_divides_prime; assumption | right; auto].
Qed.

(** ** The Baillie-PSW answer is the same in every feature and profile *)
Lemma bpsw_same : forall A f pf t (PR : probs A) lf n dr, valid_ity t -> in_range t n -> 2 ^ 64 <= n -> Z.odd n = true -> Z.of_nat lf <= 2 ^ 61 ->
  nt_is_prime f pf (uops f pf t) PR lf n (Some pc_bpsw) dr = nt_is_prime BigTable Debug (uops BigTable Debug t) PR lf n (Some pc_bpsw) dr.
Proof.
  intros A f pf t PR lf n dr Ht Hn Hb Ho Hlf. unfold nt_is_prime. assert (HV : UV t n n) by (split; auto).
  rewrite (is_prime_large f pf _ PR t _ _ _ (uops_lawful f pf t) Ht lf _ n n (Some pc_bpsw) dr HV ltac:(cbv beta; lia) Ho Hb) by (intros w Hw; apply new_buf_range in Hw; lia).
  rewrite (is_prime_large BigTable Debug _ PR t _ _ _ (uops_lawful BigTable Debug t) Ht lf _ n n (Some pc_bpsw) dr HV ltac:(cbv beta; lia) Ho Hb) by (intros w Hw; apply new_buf_range in Hw; lia).
  replace (fixed_witnesses (the_config (Some pc_bpsw)) (buf_iter (buf_new f))) with (fixed_witnesses (the_config (Some pc_bpsw)) (buf_iter (buf_new BigTable))) by (destruct f; reflexivity).
  rewrite (proj2 (lprp_same f pf BigTable Debug t lf n Ht Hn Ho ltac:(lia) Hlf)). reflexivity.
Qed.
