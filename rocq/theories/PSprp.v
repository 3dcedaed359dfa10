(** * Fermat and strong probable prime tests. *)
From Coq Require Import ZArith Znumtheory Zpow_facts List Lia Bool.
From Verif Require Import Base Spec Ext NT PBase MInteger Ops PInteger POps MPrimality.
Import ListNotations.
Local Open Scope Z_scope.

(** ** The tests on mathematical integers *)
Definition z_prp (n a : Z) : bool := a ^ (n - 1) mod n =? 1.
Fixpoint z_sprp_loop (k : nat) (n x : Z) : bool + Z :=
  match k with
  | O => inl (x =? 1 mod n)
  | S k' => let y := (x * x) mod n in
            if y =? 1 mod n then inr (Z.gcd n (x - 1))
            else if y =? (-1) mod n then inl true else z_sprp_loop k' n y
  end.
Definition z_test_sprp (n a : Z) : bool + Z :=
  let s := ztz (n - 1) in
  let x := a ^ (Z.shiftr (n - 1) s) mod n in
  if (x =? 1 mod n) || (x =? (-1) mod n) then inl true else z_sprp_loop (Z.to_nat s) n x.
Definition z_sprp (n a : Z) : bool := match z_test_sprp n a with inl v => v | inr _ => false end.

(** ** The generic code computes them *)
Section Generic.
Context {T : Type} (pf : profile) (OP : ops T) (t : ity) (okm : Z -> Prop) (V : T -> Z -> Prop) (R : Z -> T -> Z -> Prop).
Context (L : lawful OP t okm V R) (Ht : in_range t 1).

Definition sumrel (a : bool + T) (b : bool + Z) : Prop :=
  match a, b with inl x, inl y => x = y | inr g, inr G => V g G | _, _ => False end.

Lemma o_const_ok : forall c, in_range t c -> exists x, o_const OP c = Ret x /\ V x c.
Proof. intros c Hc. destruct (l_from _ _ _ _ _ L c Hc) as [x [E H]]. exists x. unfold o_const. rewrite E. auto. Qed.
Lemma o_const_panic : forall c, ~ in_range t c -> o_const OP c = Panic.
Proof. intros c Hc. unfold o_const. rewrite (l_from_none _ _ _ _ _ L c Hc). reflexivity. Qed.
Lemma in_range_0 : in_range t 0.
Proof. eapply in_range_le; [|exact Ht]. lia. Qed.
Lemma o_one_ok : exists x, o_one OP = Ret x /\ V x 1.
Proof. apply o_const_ok. exact Ht. Qed.
Lemma o_zero_ok : exists x, o_zero OP = Ret x /\ V x 0.
Proof. apply o_const_ok. apply in_range_0. Qed.

Lemma is_prp_law : forall n a N A, V n N -> V a A -> okm N -> 2 <= N -> is_prp OP n a = Ret (z_prp N A).
Proof.
  intros n a N A Hn Ha Ho H2. unfold is_prp. destruct o_one_ok as [o [-> H1]]. cbn [bind].
  rewrite (l_ltb _ _ _ _ _ L _ _ _ _ Hn H1). cbn [bind]. replace (N <? 1) with false by (symmetry; apply Z.ltb_ge; lia).
  assert (Hr : in_range t (N - 1)) by (eapply in_range_le; [|apply (l_range _ _ _ _ _ L _ _ Hn)]; lia).
  destruct (l_sub _ _ _ _ _ L _ _ _ _ Hn H1 Hr) as [z [-> Hz]]. cbn [bind].
  destruct (l_powm _ _ _ _ _ L _ _ _ _ _ _ Ha Hz Hn Ho) as [r [-> Hx]]. cbn [bind].
  rewrite (l_rone _ _ _ _ _ L _ _ _ Hx). reflexivity.
Qed.

Lemma sprp_loop_law : forall k n m1 mm1 x N X, V n N -> okm N -> 2 <= N ->
  R N m1 (1 mod N) -> R N mm1 ((-1) mod N) -> R N x X ->
  exists o, sprp_loop OP k n m1 mm1 x = Ret o /\ sumrel o (z_sprp_loop k N X).
Proof.
  induction k as [|k IH]; intros n m1 mm1 x N X Hn Ho H2 H1 Hm Hx; cbn [sprp_loop z_sprp_loop].
  - rewrite (l_reqb _ _ _ _ _ L _ _ _ _ _ Hx H1). eexists. split; reflexivity.
  - destruct (l_sqm _ _ _ _ _ L _ _ _ _ Hx Hn Ho) as [y [-> Hy]]. cbn [bind].
    rewrite (l_reqb _ _ _ _ _ L _ _ _ _ _ Hy H1). cbn [bind].
    destruct (Z.eqb_spec ((X * X) mod N) (1 mod N)) as [E|E].
    + destruct o_one_ok as [o [-> Ho1]]. cbn [bind].
      assert (1 <= X).
      { pose proof (l_rrange _ _ _ _ _ L _ _ _ Hx). destruct (Z.eq_dec X 0) as [->|]; [|lia].
        rewrite (Z.mod_small 1) in E by lia. rewrite Z.mod_0_l in E by lia. lia. }
      destruct (l_rsub1 _ _ _ _ _ L _ _ _ _ Hx Ho1 H) as [z [-> Hz]]. cbn [bind].
      destruct (l_rgcd _ _ _ _ _ L _ _ _ _ Hn Hz) as [g [-> Hg]]. eexists. split; [reflexivity | exact Hg].
    + rewrite (l_reqb _ _ _ _ _ L _ _ _ _ _ Hy Hm). cbn [bind].
      destruct (Z.eqb_spec ((X * X) mod N) ((-1) mod N)); [eexists; split; reflexivity|].
      apply IH; assumption.
Qed.

Lemma test_sprp_law : forall n a N A, V n N -> V a A -> okm N -> 2 <= N ->
  exists o, test_sprp OP n a = Ret o /\ sumrel o (z_test_sprp N A).
Proof.
  intros n a N A Hn Ha Ho H2. unfold test_sprp, z_test_sprp. destruct o_one_ok as [o [-> H1]]. cbn [bind].
  rewrite (l_ltb _ _ _ _ _ L _ _ _ _ Hn H1). cbn [bind]. replace (N <? 1) with false by (symmetry; apply Z.ltb_ge; lia).
  assert (Hr : in_range t (N - 1)) by (eapply in_range_le; [|apply (l_range _ _ _ _ _ L _ _ Hn)]; lia).
  destruct (l_sub _ _ _ _ _ L _ _ _ _ Hn H1 Hr) as [z [-> Hz]]. cbn [bind].
  rewrite (l_tz _ _ _ _ _ L _ _ Hz) by lia. cbn [bind].
  destruct (l_shr _ _ _ _ _ L _ _ Hz) as [u [-> Hu]]; [lia|]. cbn [bind].
  destruct (l_rem _ _ _ _ _ L _ _ _ _ H1 Hn Ho) as [m1 [-> Hm1]]. cbn [bind].
  destruct (l_rnegm _ _ _ _ _ L _ _ _ _ Hm1 Hn Ho) as [mm1 [-> Hmm1]]. cbn [bind].
  replace (- (1 mod N)) with (-1) in Hmm1 by (rewrite (Z.mod_small 1); lia).
  destruct (l_powm _ _ _ _ _ L _ _ _ _ _ _ Ha Hu Hn Ho) as [x [-> Hx]]. cbn [bind].
  rewrite (l_reqb _ _ _ _ _ L _ _ _ _ _ Hx Hm1). cbn [bind]. cbv zeta.
  destruct (Z.eqb_spec (A ^ Z.shiftr (N - 1) (ztz (N - 1)) mod N) (1 mod N)) as [E|E].
  - cbn [bind orb]. eexists. split; reflexivity.
  - rewrite (l_reqb _ _ _ _ _ L _ _ _ _ _ Hx Hmm1). cbn [bind orb].
    destruct (Z.eqb_spec (A ^ Z.shiftr (N - 1) (ztz (N - 1)) mod N) ((-1) mod N)).
    + eexists. split; reflexivity.
    + apply sprp_loop_law; assumption.
Qed.
Lemma is_sprp_law : forall n a N A, V n N -> V a A -> okm N -> 2 <= N -> is_sprp OP n a = Ret (z_sprp N A).
Proof.
  intros n a N A Hn Ha Ho H2. destruct (test_sprp_law n a N A Hn Ha Ho H2) as [o [E Hs]]. unfold is_sprp, z_sprp. rewrite E. cbn [bind].
  destruct o, (z_test_sprp N A); cbn [sumrel] in Hs; try contradiction; subst; reflexivity.
Qed.
End Generic.

(** ** Facts about the mathematical tests *)
Ltac nn := first [lia | apply Z.pow_nonneg; nn | apply Z.mul_nonneg_nonneg; nn | apply Z.add_nonneg_nonneg; nn].

Lemma modN_eqm : forall n a b, 1 <= n -> (a mod n = b mod n <-> a =[n]= b).
Proof. intros n a b H. symmetry. apply eqm_mod_eq. lia. Qed.

(** All prime divisors = 1 mod M implies n = 1 mod M. *)

Lemma pos_ind_strong : forall P : Z -> Prop, (forall n, 1 <= n -> (forall m, 1 <= m < n -> P m) -> P n) -> forall n, 1 <= n -> P n.
Proof.
  intros P H n Hn. assert (G : forall k, 0 <= k -> forall m, 1 <= m <= k -> P m).
  { intros k Hk. pattern k. apply natlike_ind; [intros; lia | | exact Hk].
    intros x Hx IH m Hm. apply H; [lia|]. intros m' Hm'. apply IH. lia. }
  apply (G n); lia.
Qed.
Lemma eqm1_from_primes : forall M n, 1 <= n -> (forall p, prime p -> (p | n) -> p =[M]= 1) -> n =[M]= 1.
Proof.
  intros M n Hn. pattern n. apply pos_ind_strong; [|exact Hn]. clear n Hn. intros m Hm IH H.
  destruct (Z.eq_dec m 1) as [->|Hne]; [apply eqm_refl|].
  destruct (prime_divisor_exists m) as [p [Hp Hd]]; [lia|]. pose proof (prime_ge2 p Hp).
  destruct Hd as [c ->]. assert (Hc : 1 <= c) by nia. replace 1 with (1 * 1) by lia. apply eqm_mul.
  - apply IH; [nia|]. intros q Hq Hqd. apply H; [exact Hq | apply Z.divide_mul_l; exact Hqd].
  - apply H; [exact Hp | apply Z.divide_factor_r].
Qed.

Lemma odd_not_div2 : forall n, Z.odd n = true -> ~ (2 | n).
Proof. intros n H [c ->]. rewrite Z.mul_comm, Z.odd_mul in H. discriminate. Qed.
Lemma odd_divisor : forall n d, Z.odd n = true -> (d | n) -> Z.odd d = true.
Proof. intros n d H [c ->]. rewrite Z.odd_mul in H. apply andb_true_iff in H. tauto. Qed.

(** a^(n-1) = -1 mod n is impossible for odd n >= 3. *)
Lemma pow_m1_impossible : forall n a, 3 <= n -> Z.odd n = true -> ~ a ^ (n - 1) =[n]= -1.
Proof.
  intros n a Hn Ho C. destruct (ztz_spec (n - 1)) as [Hs [d [Ed [Hd Hdp]]]]; [lia|]. set (s := ztz (n - 1)) in *.
  assert (H2 : 0 < 2 ^ s) by (apply Z.pow_pos_nonneg; lia).
  assert (G : n =[2 ^ (s + 1)]= 1).
  { apply eqm1_from_primes; [lia|]. intros p Hp Hpn. pose proof (prime_ge2 p Hp).
    assert (Hpo : Z.odd p = true) by (exact (odd_divisor n p Ho Hpn)).
    assert (Cp : a ^ (n - 1) =[p]= -1) by (exact (eqm_divide n p _ _ Hpn C)).
    assert (Hpa : ~ (p | a)).
    { intros Hpa. assert (p | -1).
      { replace (-1) with (a ^ (n - 1) - (a ^ (n - 1) - -1)) by ring. apply Z.divide_sub_r; [|exact Cp].
        replace (n - 1) with (Z.succ (n - 2)) by lia. rewrite Z.pow_succ_r by lia. apply Z.divide_mul_l. exact Hpa. }
      assert (p | 1) by (apply Z.divide_opp_r in H0; exact H0). apply divide_pos_le in H1; lia. }
    destruct (ztz_spec (p - 1)) as [Ht [e [Ee [He Hep]]]]; [lia|]. set (t := ztz (p - 1)) in *.
    destruct (Z.lt_ge_cases s t) as [Hst|Hst].
    - exists (2 ^ (t - (s + 1)) * e). rewrite Ee. replace t with (t - (s + 1) + (s + 1)) at 1 by lia. rewrite Z.pow_add_r by lia. ring.
    - exfalso. pose proof (fermat p a Hp Hpa) as F.
      assert (A1 : a ^ ((n - 1) * e) =[p]= -1).
      { rewrite Z.pow_mul_r by lia. eapply eqm_trans; [apply eqm_pow; exact Cp|].
        destruct (Zodd_ex e) as [k Hk]; [apply Zodd_bool_iff; exact He|]. rewrite Hk.
        rewrite Z.pow_add_r, Z.pow_mul_r by lia. replace ((-1) ^ 2) with 1 by reflexivity. rewrite Z.pow_1_l by lia. apply eqm_refl. }
      assert (A2 : a ^ ((n - 1) * e) =[p]= 1).
      { replace ((n - 1) * e) with ((p - 1) * (2 ^ (s - t) * d)).
        - rewrite Z.pow_mul_r by nn.
          eapply eqm_trans; [apply eqm_pow; exact F|]. rewrite Z.pow_1_l; [apply eqm_refl|].
          apply Z.mul_nonneg_nonneg; [apply Z.pow_nonneg; lia | lia].
        - rewrite Ee, Ed. replace (2 ^ s) with (2 ^ t * 2 ^ (s - t)) by (rewrite <- Z.pow_add_r by lia; f_equal; lia). ring. }
      assert (A3 : 1 =[p]= -1) by (eapply eqm_trans; [apply eqm_sym; exact A2 | exact A1]).
      unfold eqm in A3. replace (1 - -1) with 2 in A3 by ring.
      apply divide_pos_le in A3; [|lia]. assert (p = 2) by lia. subst p. discriminate Hpo. }
  destruct G as [c G]. rewrite Ed in G. rewrite Z.pow_add_r, Z.pow_1_r in G by lia.
  assert (d = 2 * c) by nia. subst d. rewrite Z.odd_mul in Hd. discriminate Hd.
Qed.

Lemma m1_neq_1 : forall n, 3 <= n -> ~ 1 =[n]= -1.
Proof. intros n H C. unfold eqm in C. replace (1 - -1) with 2 in C by ring. apply divide_pos_le in C; lia. Qed.


Lemma sq_pow2 : forall x r, 0 <= r -> x ^ (2 ^ (r + 1)) = (x * x) ^ (2 ^ r).
Proof.
  intros x r Hr. rewrite Z.pow_add_r, Z.pow_1_r by lia. rewrite (Z.mul_comm (2 ^ r)).
  rewrite Z.pow_mul_r by nn. rewrite Z.pow_2_r. reflexivity.
Qed.

Lemma pow2_1 : forall n x r, 0 <= r -> x =[n]= 1 -> x ^ (2 ^ r) =[n]= 1.
Proof.
  intros n x r Hr H. eapply eqm_trans; [apply eqm_pow; exact H|]. rewrite Z.pow_1_l by (apply Z.pow_nonneg; lia). apply eqm_refl.
Qed.

(** The loop, started at x <> +-1: what its answers mean. *)
Lemma z_sprp_loop_spec : forall k n x, 3 <= n -> 0 <= x < n -> x <> 1 -> x <> n - 1 ->
  match z_sprp_loop k n x with
  | inl b => b = true <-> exists r, 1 <= r <= Z.of_nat k /\ x ^ (2 ^ r) =[n]= -1
  | inr g => (g | n) /\ 1 < g < n /\ ~ exists r, 1 <= r <= Z.of_nat k /\ x ^ (2 ^ r) =[n]= -1
  end.
Proof.
  induction k as [|k IH]; intros n x Hn Hx H1 Hm1; cbn [z_sprp_loop].
  - rewrite (Z.mod_small 1) by lia. replace (x =? 1) with false by (symmetry; apply Z.eqb_neq; lia).
    split; [discriminate | intros [r [Hr _]]; lia].
  - cbv zeta. assert (Hy : 0 <= (x * x) mod n < n) by (apply Z.mod_pos_bound; lia).
    assert (Ey : (x * x) mod n =[n]= x * x) by (apply eqm_mod; lia).
    assert (P : forall r, 2 <= r -> (x ^ 2 ^ r =[n]= ((x * x) mod n) ^ 2 ^ (r - 1))).
    { intros r Hr. replace r with (r - 1 + 1) at 1 by lia. rewrite sq_pow2 by lia. apply eqm_pow, eqm_sym, Ey. }
    assert (P1 : x ^ 2 ^ 1 =[n]= (x * x) mod n). { change (2 ^ 1) with 2. rewrite Z.pow_2_r. apply eqm_sym, Ey. }
    destruct (Z.eqb_spec ((x * x) mod n) (1 mod n)) as [E|E].
    + assert (Dv : (n | (x - 1) * (x + 1))).
      { replace ((x - 1) * (x + 1)) with (x * x - 1) by ring. apply modN_eqm in E; [exact E | lia]. }
      assert (E' : (x * x) mod n = 1) by (rewrite E; apply Z.mod_small; lia).
      pose proof (Z.gcd_nonneg n (x - 1)) as G0.
      assert (G1 : Z.gcd n (x - 1) <> 0) by (intros C; apply Z.gcd_eq_0 in C; lia).
      repeat split.
      * apply Z.gcd_divide_l.
      * destruct (Z.eq_dec (Z.gcd n (x - 1)) 1) as [C|C]; [|lia]. exfalso.
        apply Gauss in Dv; [|apply Zgcd_1_rel_prime; exact C]. apply divide_pos_le in Dv; lia.
      * destruct (Z.eq_dec x 0) as [->|]; [rewrite Z.mod_0_l in E' by lia; lia|].
        assert (Z.gcd n (x - 1) <= x - 1); [|lia]. apply divide_pos_le; [lia | apply Z.gcd_divide_r].
      * intros [r [Hr C]]. apply (m1_neq_1 n Hn).
        eapply eqm_trans; [|exact C]. apply eqm_sym. destruct (Z.eq_dec r 1) as [->|].
        -- eapply eqm_trans; [exact P1|]. rewrite E'. apply eqm_refl.
        -- eapply eqm_trans; [apply P; lia|]. rewrite E'. apply pow2_1; [lia | apply eqm_refl].
    + destruct (Z.eqb_spec ((x * x) mod n) ((-1) mod n)) as [E1|E1].
      * split; [intros _|reflexivity]. exists 1. split; [lia|]. eapply eqm_trans; [exact P1|]. rewrite E1. apply eqm_mod. lia.
      * assert (Em : (-1) mod n = n - 1) by (symmetry; apply (Z.mod_unique_pos _ _ (-1)); lia).
        rewrite (Z.mod_small 1) in E by lia. rewrite Em in E1.
        assert (Q : (exists r, 1 <= r <= Z.of_nat k /\ ((x * x) mod n) ^ 2 ^ r =[n]= -1) <->
                    (exists r, 1 <= r <= Z.of_nat (S k) /\ x ^ 2 ^ r =[n]= -1)).
        { split; intros [r [Hr C]].
          - exists (r + 1). split; [lia|]. eapply eqm_trans; [apply P; lia|]. replace (r + 1 - 1) with r by lia. exact C.
          - destruct (Z.eq_dec r 1) as [->|].
            + exfalso. apply E1. apply (eqm_small n); [lia | lia |]. eapply eqm_trans; [apply eqm_sym; exact P1|].
              eapply eqm_trans; [exact C|]. exists (-1). ring.
            + exists (r - 1). split; [lia|]. eapply eqm_trans; [apply eqm_sym, P; lia | exact C]. }
        specialize (IH n ((x * x) mod n) Hn Hy E E1). destruct (z_sprp_loop k n ((x * x) mod n)) as [b|g].
        -- rewrite IH. exact Q.
        -- destruct IH as [A [B C]]. split; [exact A|]. split; [exact B|]. intros X. apply C, Q, X.
Qed.

Lemma z_test_sprp_spec : forall n a, 3 <= n -> Z.odd n = true ->
  match z_test_sprp n a with
  | inl b => b = true <-> strong_prp n a
  | inr g => (g | n) /\ 1 < g < n /\ ~ strong_prp n a
  end.
Proof.
  intros n a Hn Ho. destruct (shiftr_ztz (n - 1)) as [d [Hd [Hdp [Ed Es]]]]; [lia|].
  destruct (ztz_spec (n - 1)) as [Hs _]; [lia|]. unfold z_test_sprp. cbv zeta. rewrite Es. set (s := ztz (n - 1)) in *.
  assert (Em : (-1) mod n = n - 1) by (symmetry; apply (Z.mod_unique_pos _ _ (-1)); lia).
  assert (Sp : strong_prp n a <-> a ^ d =[n]= 1 \/ exists r, 0 <= r < s /\ a ^ (d * 2 ^ r) =[n]= -1).
  { unfold strong_prp. split.
    - intros [d' [s' [Hs' [Hd' [E' C]]]]].
      destruct (val2_unique s s' d d') as [-> ->]; [lia | lia | assumption | assumption | rewrite <- Ed, E'; ring |].
      destruct C as [C|[r [Hr C]]].
      + left. apply modN_eqm in C; [exact C | lia].
      + right. exists r. split; [exact Hr|]. apply modN_eqm in C; [exact C | lia].
    - intros C. exists d, s. split; [exact Hs|]. split; [exact Hd|]. split; [rewrite Ed at 1; ring|].
      destruct C as [C|[r [Hr C]]].
      + left. apply modN_eqm; [lia | exact C].
      + right. exists r. split; [exact Hr|]. apply modN_eqm; [lia | exact C]. }
  set (x := a ^ d mod n). assert (Hx : 0 <= x < n) by (apply Z.mod_pos_bound; lia).
  assert (Ex : x =[n]= a ^ d) by (apply eqm_mod; lia).
  assert (Px : forall r, 0 <= r -> x ^ 2 ^ r =[n]= a ^ (d * 2 ^ r)).
  { intros r Hr. rewrite Z.pow_mul_r by nn. apply eqm_pow. exact Ex. }
  rewrite (Z.mod_small 1), Em by lia.
  assert (Hs1 : 1 <= s).
  { destruct (Z.eq_dec s 0) as [C|]; [|lia]. exfalso. rewrite C in Ed. rewrite Z.pow_0_r, Z.mul_1_l in Ed. subst d.
    replace (n - 1) with (n + -1) in Hd by lia. rewrite Z.odd_add, Ho in Hd. discriminate Hd. }
  destruct (Z.eqb_spec x 1) as [E1|E1].
  { cbn [orb]. split; [intros _|reflexivity]. apply Sp. left. eapply eqm_trans; [apply eqm_sym; exact Ex|]. rewrite E1. apply eqm_refl. }
  destruct (Z.eqb_spec x (n - 1)) as [Em1|Em1].
  { cbn [orb]. split; [intros _|reflexivity]. apply Sp. right. exists 0. split; [lia|]. rewrite Z.pow_0_r, Z.mul_1_r.
    eapply eqm_trans; [apply eqm_sym; exact Ex|]. rewrite Em1. exists 1. ring. }
  cbn [orb].
  assert (Q : (exists r, 1 <= r <= Z.of_nat (Z.to_nat s) /\ x ^ 2 ^ r =[n]= -1) <-> strong_prp n a).
  { rewrite Sp. rewrite Z2Nat.id by lia. split.
    - intros [r [Hr C]]. right. exists r. split.
      + split; [lia|]. destruct (Z.eq_dec r s) as [->|]; [|lia]. exfalso. apply (pow_m1_impossible n a Hn Ho).
        rewrite Ed. rewrite (Z.mul_comm (2 ^ s)). eapply eqm_trans; [apply eqm_sym, Px; lia | exact C].
      + eapply eqm_trans; [apply eqm_sym, Px; lia | exact C].
    - intros [C|[r [Hr C]]].
      + exfalso. apply E1. apply (eqm_small n); [lia | lia |]. eapply eqm_trans; [exact Ex | exact C].
      + destruct (Z.eq_dec r 0) as [->|].
        * exfalso. apply Em1. apply (eqm_small n); [lia | lia |]. rewrite Z.pow_0_r, Z.mul_1_r in C.
          eapply eqm_trans; [exact Ex|]. eapply eqm_trans; [exact C|]. exists (-1). ring.
        * exists r. split; [lia|]. eapply eqm_trans; [apply Px; lia | exact C]. }
  pose proof (z_sprp_loop_spec (Z.to_nat s) n x Hn Hx E1 Em1) as HL.
  destruct (z_sprp_loop (Z.to_nat s) n x) as [b|g].
  - rewrite HL. exact Q.
  - destruct HL as [A [B C]]. split; [exact A|]. split; [exact B|]. intros X. apply C, Q, X.
Qed.

Lemma z_sprp_spec : forall n a, 3 <= n -> Z.odd n = true -> (z_sprp n a = true <-> strong_prp n a).
Proof.
  intros n a Hn Ho. pose proof (z_test_sprp_spec n a Hn Ho) as H. unfold z_sprp. destruct (z_test_sprp n a) as [b|g]; [exact H|].
  destruct H as [_ [_ H]]. split; [discriminate | contradiction].
Qed.

(** Even n: a reported factor is still proper. *)
Lemma z_test_sprp_right : forall n a g, 2 <= n -> z_test_sprp n a = inr g -> (g | n) /\ 1 < g < n.
Proof.
  intros n a g Hn. destruct (Z.eq_dec n 2) as [->|Hn2].
  - unfold z_test_sprp. cbv zeta.
    assert (H : forall x, 0 <= x < 2 -> (x =? 1) || (x =? 1) = false -> x = 0).
    { intros x Hx Hb. destruct (Z.eqb_spec x 1); [discriminate | lia]. }
    change ((-1) mod 2) with 1. change (1 mod 2) with 1. change (Z.to_nat (ztz (2 - 1))) with O.
    cbn [z_sprp_loop]. destruct (_ || _); discriminate.
  - unfold z_test_sprp. cbv zeta. set (x := a ^ _ mod n). assert (Hx : 0 <= x < n) by (apply Z.mod_pos_bound; lia).
    assert (Em : (-1) mod n = n - 1) by (symmetry; apply (Z.mod_unique_pos _ _ (-1)); lia). rewrite (Z.mod_small 1), Em by lia.
    destruct (Z.eqb_spec x 1); [discriminate|]. destruct (Z.eqb_spec x (n - 1)); [discriminate|]. cbn [orb]. intros E.
    pose proof (z_sprp_loop_spec (Z.to_nat (ztz (n - 1))) n x) as HL. rewrite E in HL.
    destruct HL as [A [B _]]; [lia | lia | assumption | assumption |]. auto.
Qed.

(** Primes pass. *)
Lemma prime_strong_prp : forall p a, prime p -> Z.odd p = true -> ~ (p | a) -> strong_prp p a.
Proof.
  intros p a Hp Ho Ha. pose proof (prime_ge2 p Hp). assert (H3 : 3 <= p) by (destruct (Z.eq_dec p 2) as [->|]; [discriminate Ho | lia]).
  destruct (ztz_spec (p - 1)) as [Hs [d [Ed [Hd Hdp]]]]; [lia|]. set (s := ztz (p - 1)) in *.
  exists d, s. split; [exact Hs|]. split; [exact Hd|]. split; [rewrite Ed at 1; ring|].
  assert (F : a ^ (d * 2 ^ s) =[p]= 1). { replace (d * 2 ^ s) with (p - 1) by (rewrite Ed at 1; ring). apply fermat; assumption. }
  assert (G : forall k, 0 <= k -> a ^ (d * 2 ^ k) =[p]= 1 -> a ^ d =[p]= 1 \/ exists r, 0 <= r < k /\ a ^ (d * 2 ^ r) =[p]= -1).
  { intros k Hk. pattern k. apply natlike_ind; [| |exact Hk].
    - intros C. left. rewrite Z.pow_0_r, Z.mul_1_r in C. exact C.
    - intros x Hx IH C. assert (Sq : a ^ (d * 2 ^ x) * a ^ (d * 2 ^ x) =[p]= 1).
      { rewrite <- Z.pow_add_r by (apply Z.mul_nonneg_nonneg; [lia | apply Z.pow_nonneg; lia]).
        replace (d * 2 ^ x + d * 2 ^ x) with (d * 2 ^ Z.succ x) by (rewrite Z.pow_succ_r by lia; ring). exact C. }
      destruct (sqrt1_prime p _ Hp Sq) as [C1|C1].
      + destruct (IH C1) as [D|[r [Hr D]]]; [left; exact D | right; exists r; split; [lia | exact D]].
      + right. exists x. split; [lia | exact C1]. }
  destruct (G s Hs F) as [C|[r [Hr C]]].
  - left. apply modN_eqm; [lia | exact C].
  - right. exists r. split; [exact Hr|]. apply modN_eqm; [lia | exact C].
Qed.
