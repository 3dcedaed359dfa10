(** * Lucas tests: is_eslprp, comparison with the textbook definitions, behaviour on primes. *)
From Coq Require Import ZArith Znumtheory Zpow_facts List Lia Bool.
From Verif Require Import Base Spec Ext NT NTLegendre NTLucas PBase MInteger Ops PInteger POps MPrimality PSprp PLucas.
Import ListNotations.
Local Open Scope Z_scope.

(** ** is_eslprp on plain integers *)
Lemma eslprp_loop_law : forall f pf t k n p vd i, in_range t n -> 1 <= n -> 0 <= i ->
  vd = lucasV p 1 i mod n -> eslprp_loop (uops f pf t) k n 2 vd = Ret (z_vloop k n p 1 i).
Proof.
  intros f pf t. induction k as [|k IH]; intros n p vd i Hn H1 Hi ->; cbn [eslprp_loop z_vloop]; [reflexivity|].
  cbn [uops o_sqm o_subm o_is_zero]. unfold ext_sqm, ext_subm. rewrite rem_ok by lia. cbn [bind]. rewrite rem_ok by lia. cbn [bind].
  assert (E : ((lucasV p 1 i mod n * (lucasV p 1 i mod n)) mod n - 2) mod n = lucasV p 1 (2 * i) mod n).
  { rewrite V_double, Z.pow_1_l by lia. rewrite <- Zmult_mod, Zminus_mod_idemp_l. f_equal. }
  rewrite E. destruct (lucasV p 1 (2 * i) mod n =? 0); cbn [orb]; [reflexivity|]. apply IH; [exact Hn | exact H1 | lia | reflexivity].
Qed.

Definition eslprp_tail {T} (pf : profile) (OP : ops T) (n : T) (sp : Z) : res bool :=
      delta <- lucas_delta pf OP n sp 1 ;;
      shift <- o_tz OP delta ;;
      base <- o_shr OP delta shift ;;
      '(ud, vd) <- lucasm pf OP sp 1 n base ;;
      two <- o_const OP 2 ;;
      hit <- (if o_is_zero OP ud then
                e1 <- o_eqb OP vd two ;;
                if e1 then Ret true
                else nm2 <- o_sub OP n two ;; o_eqb OP vd nm2
              else Ret false) ;;
      if hit then Ret true
      else if o_is_zero OP vd then Ret true
      else
        sm1 <- sub_ pf usize shift 1 ;;
        if shift =? 0 then NoFuel
        else eslprp_loop OP (Z.to_nat sm1 - 1) n two vd.

Lemma ztz_log2 : forall n, 0 < n -> ztz n <= Z.log2 n.
Proof.
  intros n Hn. destruct (ztz_spec n Hn) as [Hs [m [E [_ Hm]]]]. apply Z.log2_le_pow2; [exact Hn|].
  assert (P : 0 < 2 ^ ztz n) by (apply Z.pow_pos_nonneg; lia).
  assert (H0 : 2 ^ ztz n * 1 <= 2 ^ ztz n * m) by (apply Z.mul_le_mono_nonneg_l; lia).
  rewrite <- E in H0. lia.
Qed.

Lemma eslprp_core : forall f pf t n p, valid_ity t -> in_range t n -> in_range t (n + 1) -> Z.odd n = true -> 3 <= n ->
  params_ok t p 1 -> Z.log2 (n + 1) < 2 ^ 64 ->
  let s := ztz (z_delta n p 1) in
  let d := Z.shiftr (z_delta n p 1) s in
  eslprp_tail pf (uops f pf t) n p =
    if (0 <? s) || z_eslprp n p then Ret (z_eslprp n p)
    else match pf with Debug => Panic | Release => NoFuel end.
Proof.
  intros f pf t n p Hv Hn Hn1 Ho H3 Hpar Hbig s d.
  assert (Ht : in_range t 1) by (eapply in_range_le; [|exact Hn]; lia).
  assert (Ht2 : in_range t 2) by (eapply in_range_le; [|exact Hn]; lia).
  pose proof (uops_lawful f pf t) as L. assert (HV : UV t n n) by (split; auto).
  unfold eslprp_tail.
  destruct (lucas_delta_law pf _ _ _ _ _ L Ht n n p 1 HV ltac:(cbv beta; lia) Ho H3 Hn1 Hpar) as [x [-> Hx]]. cbn [bind].
  destruct Hpar as (Hp & Hpp & Hq & HD & Rp & Rq & RD). pose proof (delta_pos n p 1 H3) as Hpos. fold (z_delta n p 1) in Hpos.
  rewrite (l_tz _ _ _ _ _ L _ _ Hx Hpos). cbn [bind]. destruct (l_shr _ _ _ _ _ L _ _ Hx Hpos) as [b [-> Hb]]. cbn [bind].
  destruct (shiftr_ztz _ Hpos) as [d' [Hd' [Hdp [Ed Es]]]]. destruct (ztz_spec _ Hpos) as [Hs0 _].
  fold s in Hb, Hs0, Es |- *. fold d in Hb, Es. assert (Hd : 0 < d) by lia.
  destruct (lucasm_law pf _ _ _ _ _ L Ht p 1 n b n d HV ltac:(cbv beta; lia) Hb Rp Rq) as [u [v [-> [[-> _] [-> _]]]]]; [lia|]. cbn [bind].
  unfold o_const. cbn [uops o_from]. rewrite from_prim_ok by exact Ht2. cbn [unwrap bind uops o_is_zero o_eqb o_sub].
  rewrite sub_ok by (eapply in_range_le; [|exact Hn]; lia). cbn [bind]. unfold z_eslprp. cbv zeta. fold s. fold d.
  assert (Es64 : s < 2 ^ 64).
  { pose proof (ztz_log2 _ Hpos). fold s in H. pose proof (jacobi_range (p * p - 4 * 1) n ltac:(lia)).
    assert (Z.log2 (z_delta n p 1) <= Z.log2 (n + 1)) by (apply Z.log2_le_mono; unfold z_delta; lia). lia. }
  destruct (lucasU p 1 d mod n =? 0) eqn:EU.
  - destruct (lucasV p 1 d mod n =? 2) eqn:E2; [cbn [bind orb andb]; rewrite orb_true_r; reflexivity|].
    destruct (lucasV p 1 d mod n =? n - 2) eqn:E3; [cbn [bind orb andb]; rewrite orb_true_r; reflexivity|].
    cbn [bind orb andb]. destruct (lucasV p 1 d mod n =? 0) eqn:E0; [cbn [orb]; rewrite orb_true_r; reflexivity|].
    cbn [orb]. destruct (Z.eqb_spec s 0) as [->|Hs].
    + cbn [Z.to_nat Nat.sub z_vloop]. unfold sub_, wrapz. destruct pf; reflexivity.
    + rewrite sub_ok by rng. cbn [bind]. replace (0 <? s) with true by (symmetry; apply Z.ltb_lt; lia). cbn [orb].
      replace (Z.to_nat s - 2)%nat with (Z.to_nat (s - 1) - 1)%nat by lia.
      apply eslprp_loop_law; [exact Hn | lia | lia | reflexivity].
  - cbn [bind orb andb]. destruct (lucasV p 1 d mod n =? 0) eqn:E0; [cbn [orb]; rewrite orb_true_r; reflexivity|].
    cbn [orb]. destruct (Z.eqb_spec s 0) as [->|Hs].
    + cbn [Z.to_nat Nat.sub z_vloop]. unfold sub_, wrapz. destruct pf; reflexivity.
    + rewrite sub_ok by rng. cbn [bind]. replace (0 <? s) with true by (symmetry; apply Z.ltb_lt; lia). cbn [orb].
      replace (Z.to_nat s - 2)%nat with (Z.to_nat (s - 1) - 1)%nat by lia.
      apply eslprp_loop_law; [exact Hn | lia | lia | reflexivity].
Qed.

(** ** Textbook definitions *)
Lemma z_vloop_spec : forall k n p q i, 1 <= n -> z_vloop k n p q i = true <-> exists r, 1 <= r <= Z.of_nat k /\ lucasV p q (i * 2 ^ r) mod n = 0.
Proof.
  induction k as [|k IH]; intros n p q i Hn; cbn [z_vloop].
  - split; [discriminate | intros [r [Hr _]]; lia].
  - rewrite orb_true_iff, Z.eqb_eq, (IH n p q (2 * i) Hn). split.
    + intros [H|[r [Hr H]]].
      * exists 1. split; [lia|]. rewrite Z.pow_1_r, Z.mul_comm. exact H.
      * exists (r + 1). split; [lia|]. rewrite Z.pow_add_r, Z.pow_1_r by lia. replace (i * (2 ^ r * 2)) with (2 * i * 2 ^ r) by ring. exact H.
    + intros [r [Hr H]]. destruct (Z.eq_dec r 1) as [->|Hr1].
      * left. rewrite Z.pow_1_r, Z.mul_comm in H. exact H.
      * right. exists (r - 1). split; [lia|]. replace (2 * i * 2 ^ (r - 1)) with (i * 2 ^ r); [exact H|].
        replace r with (r - 1 + 1) at 1 by lia. rewrite Z.pow_add_r, Z.pow_1_r by lia. ring.
Qed.

Lemma z_lprp_spec : forall n p q, z_lprp n p q = true <-> lucas_prp n p q.
Proof. intros n p q. unfold z_lprp, lucas_prp, z_delta. apply Z.eqb_eq. Qed.

Lemma p4Qm : forall p Q m, prime p -> Z.odd p = true -> 0 <= m -> (p | 4 * Q ^ m) -> (p | Q).
Proof.
  intros p Q m Hp Ho Hm H. pose proof (odd_prime_3 p Hp Ho).
  apply prime_div_mul in H; [|exact Hp]. destruct H as [H|H].
  - exfalso. change 4 with (2 * 2) in H. apply prime_div_mul in H; [|exact Hp]. destruct H as [H|H]; apply divide_pos_le in H; lia.
  - apply prime_div_pow in H; assumption.
Qed.
Lemma V_U_both : forall P Q p m, prime p -> Z.odd p = true -> 0 <= m -> (p | lucasV P Q m) -> (p | lucasU P Q m) -> (p | Q).
Proof.
  intros P Q p m Hp Ho Hm HV HU. apply (p4Qm p Q m Hp Ho Hm). rewrite <- (VU_norm P Q m Hm).
  apply Z.divide_sub_r; [apply Z.divide_mul_l; exact HV | apply Z.divide_mul_r, Z.divide_mul_l; exact HU].
Qed.

(** p divides V_m for some m >= 1 and Q: then it divides P, hence D. *)
Lemma V_pQ : forall P Q p m, prime p -> (p | Q) -> 1 <= m -> (p | lucasV P Q m) -> (p | P).
Proof.
  intros P Q p m Hp HQ Hm HV.
  assert (G : forall k, 0 <= k -> lucasV P Q (k + 1) =[p]= P ^ (k + 1)).
  { intros k Hk. pattern k. apply natlike_ind; [| |exact Hk].
    - change (0 + 1) with 1. rewrite V_1, Z.pow_1_r. apply eqm_refl.
    - intros x Hx IH. replace (Z.succ x + 1) with (x + 2) by lia. rewrite V_rec by lia. replace (x + 2) with (Z.succ (x + 1)) by lia.
      rewrite Z.pow_succ_r by lia. replace (P * P ^ (x + 1)) with (P * P ^ (x + 1) - 0) by ring.
      apply eqm_sub; [apply eqm_mul; [apply eqm_refl | exact IH] | apply eqm_0, Z.divide_mul_l; exact HQ]. }
  specialize (G (m - 1) ltac:(lia)). replace (m - 1 + 1) with m in G by lia.
  apply (prime_div_pow p P m Hp ltac:(lia)). apply eqm_0. eapply eqm_trans; [apply eqm_sym; exact G | apply eqm_0; exact HV].
Qed.

Lemma pow2_split : forall a b m, 0 <= a <= b -> 2 ^ b * m = 2 ^ a * (2 ^ (b - a) * m).
Proof. intros a b m H. rewrite Z.mul_assoc, <- Z.pow_add_r by lia. do 2 f_equal. lia. Qed.

(** V_{n-(D/n)} = 0 mod n does not happen when D is coprime to the odd n. *)
Lemma V_delta_impossible : forall n P Q, 3 <= n -> Z.odd n = true -> jacobi (P * P - 4 * Q) n <> 0 ->
  ~ (n | lucasV P Q (z_delta n P Q)).
Proof.
  intros n P Q Hn Ho HJ C. set (D := P * P - 4 * Q) in *. pose proof (delta_pos n P Q Hn) as Hpos. fold (z_delta n P Q) in Hpos.
  destruct (ztz_spec _ Hpos) as [Hs [d [Ed [Hd Hdp]]]]. set (s := ztz (z_delta n P Q)) in *.
  assert (HpD : forall p, prime p -> (p | n) -> ~ (p | D)).
  { intros p Hp Hpn HD. apply HJ. apply jacobi_0; [lia|]. exists p. auto. }
  assert (G : n =[2 ^ (s + 1)]= jacobi D n).
  { apply jacobi_from_primes; [lia|]. intros p Hp Hpn. pose proof (odd_divisor n p Ho Hpn) as Hpo. pose proof (odd_prime_3 p Hp Hpo).
    assert (HVp : (p | lucasV P Q (z_delta n P Q))) by (eapply Z.divide_trans; eassumption).
    assert (HQ : ~ (p | Q)).
    { intros HQ. apply (HpD p Hp Hpn). pose proof (V_pQ P Q p (z_delta n P Q) Hp HQ ltac:(lia) HVp) as HP.
      apply Z.divide_sub_r; [apply Z.divide_mul_l; exact HP | apply Z.divide_mul_r; exact HQ]. }
    assert (Hl : 0 < p - legendre D p) by (pose proof (legendre_range D p ltac:(lia)); lia).
    destruct (ztz_spec _ Hl) as [Ht [e [Ee [He Hep]]]]. set (t := ztz (p - legendre D p)) in *.
    destruct (Z.lt_ge_cases s t) as [Hst|Hst].
    - exists (2 ^ (t - (s + 1)) * e). rewrite Ee, (pow2_split (s + 1) t) by lia. ring.
    - exfalso. apply HQ.
      destruct (Zodd_ex e) as [k Hk]; [apply Zodd_bool_iff; exact He|].
      apply (V_U_both P Q p (z_delta n P Q * e) Hp Hpo); [nia | |].
      + rewrite Hk. apply V_divides_odd; [exact Hp | exact Hpo | lia | lia | exact HVp].
      + replace (z_delta n P Q * e) with ((p - legendre D p) * (2 ^ (s - t) * d)).
        * apply U_divides; [lia | nn |]. apply U_prime_index; [exact Hp | exact Hpo | left; exact HQ].
        * rewrite Ee, Ed, (pow2_split t s) by lia. ring. }
  destruct G as [c G]. fold (z_delta n P Q) in G. change (n - jacobi D n) with (z_delta n P Q) in G. rewrite Ed in G.
  rewrite Z.pow_add_r, Z.pow_1_r in G by lia. assert (0 < 2 ^ s) by (apply Z.pow_pos_nonneg; lia).
  assert (d = 2 * c) by nia. subst d. rewrite Z.odd_mul in Hd. discriminate Hd.
Qed.

Lemma z_slprp_spec : forall n P Q, 3 <= n -> Z.odd n = true -> jacobi (P * P - 4 * Q) n <> 0 ->
  (z_slprp n P Q = true <-> strong_lucas_prp n P Q).
Proof.
  intros n P Q Hn Ho HJ. pose proof (delta_pos n P Q Hn) as Hpos. fold (z_delta n P Q) in Hpos.
  destruct (shiftr_ztz _ Hpos) as [d [Hd [Hdp [Ed Es]]]]. destruct (ztz_spec _ Hpos) as [Hs _].
  unfold z_slprp. cbv zeta. rewrite Es. set (s := ztz (z_delta n P Q)) in *.
  rewrite !orb_true_iff, !Z.eqb_eq, z_vloop_spec by lia. rewrite Z2Nat.id by lia.
  assert (X : strong_lucas_prp n P Q <-> (lucasU P Q d mod n = 0 \/ exists r, 0 <= r < s /\ lucasV P Q (d * 2 ^ r) mod n = 0)).
  { unfold strong_lucas_prp. fold (z_delta n P Q). split.
    - intros [d' [s' [Hs' [Hd' [E' C]]]]].
      destruct (val2_unique s s' d d') as [-> ->]; [lia | lia | assumption | assumption | rewrite <- Ed, E'; ring | exact C].
    - intros C. exists d, s. split; [exact Hs|]. split; [exact Hd|]. split; [rewrite Ed at 1; ring | exact C]. }
  rewrite X.
  assert (Hs1 : 1 <= s).
  { destruct (Z.eq_dec s 0) as [C|]; [|lia]. exfalso. rewrite C, Z.pow_0_r, Z.mul_1_l in Ed. unfold z_delta in Ed.
    pose proof (jacobi_range (P * P - 4 * Q) n ltac:(lia)). assert (J : jacobi (P * P - 4 * Q) n = 1 \/ jacobi (P * P - 4 * Q) n = -1) by lia.
    destruct J as [J|J]; rewrite J in Ed; subst d; rewrite Z.odd_sub, Ho in Hd; discriminate Hd. }
  assert (Last : lucasV P Q (d * 2 ^ s) mod n <> 0).
  { intros C. apply (V_delta_impossible n P Q Hn Ho HJ). apply mod0_divide; [lia|]. rewrite Ed, Z.mul_comm. exact C. }
  split.
  - intros [[H|H]|[r [Hr H]]].
    + left. exact H.
    + right. exists 0. split; [lia|]. rewrite Z.pow_0_r, Z.mul_1_r. exact H.
    + right. exists r. split; [|exact H]. destruct (Z.eq_dec r s) as [->|]; [contradiction | lia].
  - intros [H|[r [Hr H]]].
    + left. left. exact H.
    + destruct (Z.eq_dec r 0) as [->|].
      * left. right. rewrite Z.pow_0_r, Z.mul_1_r in H. exact H.
      * right. exists r. split; [lia | exact H].
Qed.

(** Q = 1, n - (D/n) = 2 d with d odd: V_d = 0 mod n does not happen. *)
Lemma V_half_impossible : forall n P d, 3 <= n -> Z.odd n = true -> jacobi (P * P - 4 * 1) n <> 0 ->
  Z.odd d = true -> 0 < d -> z_delta n P 1 = 2 * d -> ~ (n | lucasV P 1 d).
Proof.
  intros n P d Hn Ho HJ Hd Hdp Ed C. set (D := P * P - 4 * 1) in *.
  assert (G : n =[4]= jacobi D n).
  { apply jacobi_from_primes; [lia|]. intros p Hp Hpn. pose proof (odd_divisor n p Ho Hpn) as Hpo. pose proof (odd_prime_3 p Hp Hpo).
    assert (HVp : (p | lucasV P 1 d)) by (eapply Z.divide_trans; eassumption).
    assert (HL : legendre D p <> 0). { intros HL. apply HJ. apply jacobi_0; [lia|]. exists p. split; [exact Hp|]. split; [exact Hpn|]. apply legendre_0 in HL; [exact HL | lia]. }
    pose proof (legendre_range D p ltac:(lia)) as Hr.
    destruct (Zodd_ex p) as [k Hk]; [apply Zodd_bool_iff; exact Hpo|].
    assert (Ev : exists e, p - legendre D p = 2 * e /\ 0 <= e).
    { assert (Cs : legendre D p = 1 \/ legendre D p = -1) by lia. destruct Cs as [-> | ->]; [exists k | exists (k + 1)]; lia. }
    destruct Ev as [e [Ee He]]. destruct (Z.odd e) eqn:Oe.
    - exfalso. assert (Q1 : (p | 1)); [|apply divide_pos_le in Q1; lia].
      destruct (Zodd_ex e) as [j Hj]; [apply Zodd_bool_iff; exact Oe|].
      apply (V_U_both P 1 p (d * e) Hp Hpo); [nia | |].
      + rewrite Hj. apply V_divides_odd; [exact Hp | exact Hpo | lia | lia | exact HVp].
      + rewrite Z.mul_comm. apply U_divides; [lia | lia |]. apply (U_prime_half P 1 p e); auto.
    - unfold eqm. rewrite Ee. destruct (Zeven_ex e) as [j Hj]; [apply Zeven_bool_iff; rewrite <- Z.negb_odd, Oe; reflexivity|].
      exists j. lia. }
  unfold eqm in G. change (n - jacobi D n) with (z_delta n P 1) in G. rewrite Ed in G. destruct G as [c G].
  assert (d = 2 * c) by lia. subst d. rewrite Z.odd_mul in Hd. discriminate Hd.
Qed.

Lemma z_eslprp_spec : forall n P, 3 <= n -> Z.odd n = true -> jacobi (P * P - 4 * 1) n <> 0 ->
  (z_eslprp n P = true <-> extra_strong_lucas_prp n P).
Proof.
  intros n P Hn Ho HJ. pose proof (delta_pos n P 1 Hn) as Hpos. fold (z_delta n P 1) in Hpos.
  destruct (shiftr_ztz _ Hpos) as [d [Hd [Hdp [Ed Es]]]]. destruct (ztz_spec _ Hpos) as [Hs _].
  unfold z_eslprp. cbv zeta. rewrite Es. set (s := ztz (z_delta n P 1)) in *.
  rewrite !orb_true_iff, andb_true_iff, orb_true_iff, !Z.eqb_eq, z_vloop_spec by lia.
  assert (Em : (-2) mod n = n - 2) by (symmetry; apply (Z.mod_unique_pos _ _ (-1)); lia).
  assert (X : extra_strong_lucas_prp n P <-> ((lucasU P 1 d mod n = 0 /\ (lucasV P 1 d mod n = 2 \/ lucasV P 1 d mod n = n - 2)) \/ exists r, 0 <= r < s - 1 /\ lucasV P 1 (d * 2 ^ r) mod n = 0)).
  { unfold extra_strong_lucas_prp. replace (P * P - 4) with (P * P - 4 * 1) by ring. fold (z_delta n P 1). rewrite Em, (Z.mod_small 2) by lia. split.
    - intros [d' [s' [Hs' [Hd' [E' C]]]]].
      destruct (val2_unique s s' d d') as [-> ->]; [lia | lia | assumption | assumption | rewrite <- Ed, E'; ring | exact C].
    - intros C. exists d, s. split; [exact Hs|]. split; [exact Hd|]. split; [rewrite Ed at 1; ring | exact C]. }
  rewrite X.
  assert (Hs1 : 1 <= s).
  { destruct (Z.eq_dec s 0) as [C|]; [|lia]. exfalso. rewrite C, Z.pow_0_r, Z.mul_1_l in Ed. unfold z_delta in Ed.
    pose proof (jacobi_range (P * P - 4 * 1) n ltac:(lia)). assert (J : jacobi (P * P - 4 * 1) n = 1 \/ jacobi (P * P - 4 * 1) n = -1) by lia.
    destruct J as [J|J]; rewrite J in Ed; subst d; rewrite Z.odd_sub, Ho in Hd; discriminate Hd. }
  split.
  - intros [[H|H]|[r [Hr H]]].
    + left. exact H.
    + right. exists 0. rewrite Z.pow_0_r, Z.mul_1_r. split; [|exact H]. split; [lia|].
      destruct (Z.eq_dec s 1) as [E1|]; [|lia]. exfalso. rewrite E1, Z.pow_1_r in Ed.
      apply (V_half_impossible n P d Hn Ho HJ Hd Hdp Ed). apply mod0_divide; [lia | exact H].
    + right. exists r. split; [lia | exact H].
  - intros [H|[r [Hr H]]].
    + left. left. exact H.
    + destruct (Z.eq_dec r 0) as [->|].
      * left. right. rewrite Z.pow_0_r, Z.mul_1_r in H. exact H.
      * right. exists r. split; [lia | exact H].
Qed.

(** ** Primes *)
Lemma z_delta_prime : forall p P Q, prime p -> z_delta p P Q = p - legendre (P * P - 4 * Q) p.
Proof. intros p P Q Hp. unfold z_delta. rewrite jacobi_prime by exact Hp. reflexivity. Qed.

Lemma U_zero_descend : forall p P Q d s, prime p -> 0 <= d -> 0 <= s -> (p | lucasU P Q (d * 2 ^ s)) ->
  (p | lucasU P Q d) \/ exists r, 0 <= r < s /\ (p | lucasV P Q (d * 2 ^ r)).
Proof.
  intros p P Q d s Hp Hd Hs. pattern s. apply natlike_ind; [| |exact Hs].
  - intros H. left. rewrite Z.pow_0_r, Z.mul_1_r in H. exact H.
  - intros x Hx IH H. replace (d * 2 ^ Z.succ x) with (2 * (d * 2 ^ x)) in H by (rewrite Z.pow_succ_r by lia; ring).
    rewrite U_double in H by nn. apply prime_div_mul in H; [|exact Hp]. destruct H as [H|H].
    + destruct (IH H) as [A|[r [Hr A]]]; [left; exact A | right; exists r; split; [lia | exact A]].
    + right. exists x. split; [lia | exact H].
Qed.

Lemma prime_lprp : forall p P Q, prime p -> Z.odd p = true -> (~ (p | Q) \/ legendre (P * P - 4 * Q) p <> 1) -> z_lprp p P Q = true.
Proof.
  intros p P Q Hp Ho H. pose proof (odd_prime_3 p Hp Ho). unfold z_lprp. apply Z.eqb_eq. apply mod0_divide; [lia|].
  rewrite z_delta_prime by exact Hp. apply U_prime_index; assumption.
Qed.
Lemma prime_slprp : forall p P Q, prime p -> Z.odd p = true -> (~ (p | Q) \/ legendre (P * P - 4 * Q) p <> 1) -> z_slprp p P Q = true.
Proof.
  intros p P Q Hp Ho H. pose proof (odd_prime_3 p Hp Ho) as H3. pose proof (delta_pos p P Q H3) as Hpos. fold (z_delta p P Q) in Hpos.
  destruct (shiftr_ztz _ Hpos) as [d [Hd [Hdp [Ed Es]]]]. destruct (ztz_spec _ Hpos) as [Hs _].
  unfold z_slprp. cbv zeta. rewrite Es. set (s := ztz (z_delta p P Q)) in *.
  rewrite !orb_true_iff, !Z.eqb_eq, z_vloop_spec by lia. rewrite Z2Nat.id by lia.
  assert (HU : (p | lucasU P Q (d * 2 ^ s))). { rewrite Z.mul_comm, <- Ed, z_delta_prime by exact Hp. apply U_prime_index; assumption. }
  destruct (U_zero_descend p P Q d s Hp ltac:(lia) Hs HU) as [A|[r [Hr A]]].
  - left. left. apply mod0_divide; [lia | exact A].
  - apply mod0_divide in A; [|lia]. destruct (Z.eq_dec r 0) as [->|].
    + left. right. rewrite Z.pow_0_r, Z.mul_1_r in A. exact A.
    + right. exists r. split; [lia | exact A].
Qed.
Lemma prime_eslprp : forall p P, prime p -> Z.odd p = true -> z_eslprp p P = true.
Proof.
  intros p P Hp Ho. pose proof (odd_prime_3 p Hp Ho) as H3. pose proof (delta_pos p P 1 H3) as Hpos. fold (z_delta p P 1) in Hpos.
  destruct (shiftr_ztz _ Hpos) as [d [Hd [Hdp [Ed Es]]]]. destruct (ztz_spec _ Hpos) as [Hs _].
  unfold z_eslprp. cbv zeta. rewrite Es. set (s := ztz (z_delta p P 1)) in *.
  rewrite !orb_true_iff, andb_true_iff, orb_true_iff, !Z.eqb_eq, z_vloop_spec by lia.
  assert (P1 : ~ (p | 1)) by (intros C; apply divide_pos_le in C; lia).
  assert (UtoV : (p | lucasU P 1 d) -> lucasU P 1 d mod p = 0 /\ (lucasV P 1 d mod p = 2 \/ lucasV P 1 d mod p = p - 2)).
  { intros HU. split; [apply mod0_divide; [lia | exact HU]|]. pose proof (VU_norm P 1 d ltac:(lia)) as N. rewrite Z.pow_1_l in N by lia.
    assert (F : (p | (lucasV P 1 d - 2) * (lucasV P 1 d - -2))).
    { replace ((lucasV P 1 d - 2) * (lucasV P 1 d - -2)) with ((P * P - 4 * 1) * (lucasU P 1 d * lucasU P 1 d)) by lia. apply Z.divide_mul_r, Z.divide_mul_l. exact HU. }
    apply prime_div_mul in F; [|exact Hp]. destruct F as [F|F].
    - left. rewrite <- (Z.mod_small 2 p) by lia. apply eqm_mod_eq; [lia | exact F].
    - right. replace (p - 2) with ((-2) mod p) by (symmetry; apply (Z.mod_unique_pos _ _ (-1)); lia). apply eqm_mod_eq; [lia | exact F]. }
  destruct (Z.eq_dec (legendre (P * P - 4 * 1) p) 0) as [L0|L0].
  - (* D = 0 mod p *)
    left. left. apply UtoV. assert (E0 : z_delta p P 1 = p) by (rewrite z_delta_prime, L0 by exact Hp; lia).
    assert (d = p).
    { destruct (val2_unique s 0 d p); [lia | lia | exact Hd | exact Ho | | assumption]. rewrite <- Ed, E0, Z.pow_0_r. ring. }
    subst d. pose proof (U_prime_index P 1 p Hp Ho (or_introl P1)) as HU. rewrite L0, Z.sub_0_r in HU. rewrite H. exact HU.
  - assert (Hs1 : 1 <= s).
    { destruct (Z.eq_dec s 0) as [C|]; [|lia]. exfalso. rewrite C, Z.pow_0_r, Z.mul_1_l in Ed. rewrite z_delta_prime in Ed by exact Hp.
      pose proof (legendre_range (P * P - 4 * 1) p ltac:(lia)). assert (J : legendre (P * P - 4 * 1) p = 1 \/ legendre (P * P - 4 * 1) p = -1) by lia.
      destruct J as [J|J]; rewrite J in Ed; subst d; rewrite Z.odd_sub, Ho in Hd; discriminate Hd. }
    assert (HU : (p | lucasU P 1 (d * 2 ^ (s - 1)))).
    { apply (U_prime_half P 1 p (d * 2 ^ (s - 1))); [exact Hp | exact Ho | reflexivity | exact L0 | nn |].
      rewrite <- z_delta_prime by exact Hp. rewrite Ed at 1. replace s with (s - 1 + 1) at 1 by lia. rewrite Z.pow_add_r, Z.pow_1_r by lia. ring. }
    destruct (U_zero_descend p P 1 d (s - 1) Hp ltac:(lia) ltac:(lia) HU) as [A|[r [Hr A]]].
    + left. left. apply UtoV. exact A.
    + apply mod0_divide in A; [|lia]. destruct (Z.eq_dec r 0) as [->|].
      * left. right. rewrite Z.pow_0_r, Z.mul_1_r in A. exact A.
      * right. exists r. split; [lia | exact A].
Qed.
