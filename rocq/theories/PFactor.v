(** * Proofs about src/factor.rs: trial division, Pollard's rho, one line, SQUFOF. *)
From Coq Require Import ZArith Znumtheory List Lia Bool Sorted.
From Verif Require Import Base Tables Spec Ext NT PBase PTables MInteger PInteger Ops POps MPrimality PSprp PropSprp MFactor PLucas3.
Import ListNotations.
Local Open Scope Z_scope.

(** ** Trial division *)
Section TD.
Variables (f : feature) (pf : profile) (t : ity).
Hypothesis Ht : valid_ity t.
Notation OP := (uops f pf t).

Lemma td_divide_spec : forall fuel p r, in_range t r -> 2 <= p -> 1 <= r -> Z.log2 r + 1 < fuel ->
  exists r' e, td_divide OP fuel p r = Ret (r', e) /\ 0 <= e /\ r = p ^ e * r' /\ 1 <= r' /\ ~ (p | r').
Proof.
  intros fuel p r Hr Hp H1 Hf. unfold td_divide.
  assert (G : run False False (fun x => 0 <= snd x /\ r = p ^ snd x * fst x /\ 1 <= fst x /\ ~ (p | fst x))
    (loop fuel (fun '(r, e) => m <- o_is_multiple_of OP r p ;; if m then r' <- o_div OP r p ;; Ret (Next (r', e + 1)) else Ret (Done (r, e))) (r, 0))).
  { apply (run_loop_measure _ _ _ _ (fun x => 0 <= snd x /\ r = p ^ snd x * fst x /\ 1 <= fst x) _ (fun x => Z.log2 (fst x))).
    - cbn [fst snd]. rewrite Z.pow_0_r. lia.
    - cbn [fst]. pose proof (Z.log2_nonneg r). lia.
    - intros [x e] [He [Ex Hx]]. cbn [fst snd] in *. cbn [uops o_is_multiple_of o_div]. rewrite rem_ok by lia. cbn [bind].
      destruct (Z.eqb_spec (x mod p) 0) as [E|E].
      + rewrite div_ok by lia. cbn [bind run fst snd]. apply mod0_divide in E; [|lia]. destruct E as [c E].
        assert (Ec : x / p = c) by (rewrite E; apply Z.div_mul; lia). rewrite Ec. assert (Hc : 1 <= c) by nia.
        split; [split; [lia|]; split; [|exact Hc]|].
        * rewrite Z.pow_add_r, Z.pow_1_r by lia. rewrite Ex, E. ring.
        * split; [apply Z.log2_nonneg|]. assert (L : 2 * c <= x) by nia.
          apply Z.log2_le_mono in L. rewrite Z.log2_double in L by lia. lia.
      + cbn [run fst snd]. split; [lia|]. split; [exact Ex|]. split; [exact Hx|]. intros C. apply E. apply mod0_divide; [lia | exact C]. }
  apply run_total in G. destruct G as [[r' e] [E H]]. exists r', e. cbn [fst snd] in H. split; [exact E | exact H].
Qed.

(** The loop over an increasing list of primes. *)
Lemma td_loop_spec : forall fuel tsqrt limit ps residual result,
  StronglySorted Z.lt ps -> (forall p, In p ps -> prime p) ->
  (forall p, In p ps -> in_range t p \/ exists q, In q ps /\ q < p /\ limit < q) ->
  limit <= tsqrt -> in_range t residual -> 1 <= residual -> Z.log2 residual + 1 < fuel -> wf_map result ->
  exists res rsd fac, td_loop OP fuel ps tsqrt limit residual result = Ret (res, rsd, fac) /\
    wf_map res /\ prod_powers res * rsd = prod_powers result * residual /\ 1 <= rsd /\ (rsd | residual) /\
    (forall k, In k (map fst res) -> In k (map fst result) \/ (In k ps /\ k <= limit /\ (k | residual))) /\
    (forall k, In k (map fst result) -> In k (map fst res)) /\
    (forall p, In p ps -> p <= limit -> ~ (p | rsd)) /\
    (fac = true -> rsd = 1 \/ exists p, In p ps /\ tsqrt < p /\ (forall q, In q ps -> q < p -> q <= limit)).
Proof.
  intros fuel tsqrt limit ps. induction ps as [|p ps IH]; intros residual result Hs Hpr Hfit Hlt Hr H1 Hf Hwf.
  - exists result, residual, false. split; [reflexivity|]. split; [exact Hwf|]. split; [reflexivity|]. split; [exact H1|].
    split; [apply Z.divide_refl|]. split; [auto|]. split; [auto|]. split; [intros p []|discriminate].
  - inversion Hs as [|a l Hs' Hall]; subst. rewrite Forall_forall in Hall.
    assert (Hp : prime p) by (apply Hpr; left; reflexivity). pose proof (prime_ge2 p Hp) as Hp2.
    assert (Hpin : in_range t p).
    { destruct (Hfit p (or_introl eq_refl)) as [H|[q [[<-|Hq] [Hq1 _]]]]; [exact H | lia |]. specialize (Hall q Hq). lia. }
    cbn [td_loop]. unfold o_const. cbn [uops o_from o_ltb]. rewrite from_prim_ok by exact Hpin. cbn [unwrap bind].
    destruct (Z.ltb_spec limit p) as [Hst|Hst].
    + exists result, residual, (tsqrt <? p). split; [reflexivity|]. split; [exact Hwf|]. split; [reflexivity|]. split; [exact H1|].
      split; [apply Z.divide_refl|]. split; [auto|]. split; [auto|]. split.
      * intros q [<-|Hq] Hle; [lia|]. specialize (Hall q Hq). lia.
      * intros E. apply Z.ltb_lt in E. right. exists p. split; [left; reflexivity|]. split; [exact E|]. intros q [<-|Hq] Hqp; [lia|]. specialize (Hall q Hq). lia.
    + replace (tsqrt <? p) with false by (symmetry; apply Z.ltb_ge; lia).
      destruct (td_divide_spec fuel p residual Hr Hp2 H1 Hf) as [r' [e [-> [He [Er [Hr1 Hnd]]]]]]. cbn [bind].
      set (result' := if 0 <? e then bt_add result p e else result).
      assert (Hpe : 1 <= p ^ e) by (pose proof (Z.pow_pos_nonneg p e ltac:(lia) He); lia).
      assert (Hwf' : wf_map result') by (unfold result'; destruct (Z.ltb_spec 0 e); [apply bt_add_wf; [exact Hwf | lia] | exact Hwf]).
      assert (Hprod : prod_powers result' * r' = prod_powers result * residual).
      { unfold result'. destruct (Z.ltb_spec 0 e) as [He1|He1].
        - rewrite bt_add_prod by (auto; lia). rewrite Er. ring.
        - assert (e = 0) as -> by lia. rewrite Z.pow_0_r in Er. rewrite Er. ring. }
      assert (Hk1 : forall k, In k (map fst result') -> In k (map fst result) \/ (k = p /\ (p | residual))).
      { intros k Hk. unfold result' in Hk. destruct (Z.ltb_spec 0 e) as [He1|He1]; [|auto]. apply bt_add_keys in Hk. destruct Hk as [->|Hk]; [|auto].
        right. split; [reflexivity|]. rewrite Er. apply Z.divide_mul_l. replace e with (Z.succ (e - 1)) by lia. rewrite Z.pow_succ_r by lia. apply Z.divide_factor_l. }
      assert (Hk2 : forall k, In k (map fst result) -> In k (map fst result')).
      { intros k Hk. unfold result'. destruct (0 <? e); [apply bt_add_keys; auto | exact Hk]. }
      assert (Hdiv : (r' | residual)) by (exists (p ^ e); exact Er).
      assert (Hle : r' <= residual) by (apply Z.divide_pos_le; [lia | exact Hdiv]).
      destruct (Z.eqb_spec r' 1) as [E1|E1]; cbn [o_is_one uops].
      * exists result', r', true. replace (r' =? 1) with true by (symmetry; apply Z.eqb_eq; exact E1). split; [reflexivity|]. split; [exact Hwf'|]. split; [exact Hprod|].
        split; [lia|]. split; [exact Hdiv|]. split.
        { intros k Hk. destruct (Hk1 k Hk) as [H|[-> H]]; [auto|]. right. split; [left; reflexivity|]. split; [exact Hst | exact H]. }
        split; [exact Hk2|]. split; [|auto].
        intros q Hq Hql C. rewrite E1 in C. assert (2 <= q) by (apply prime_ge2, Hpr, Hq). apply Z.divide_pos_le in C; lia.
      * replace (r' =? 1) with false by (symmetry; apply Z.eqb_neq; exact E1).
        destruct (IH r' result') as [res [rsd [fac [E [A1 [A2 [A3 [A4 [A5 [A6 [A7 A8]]]]]]]]]]].
        { exact Hs'. } { intros q Hq. apply Hpr. right. exact Hq. }
        { intros q Hq. destruct (Hfit q (or_intror Hq)) as [H|[q' [[<-|Hq'] [H2 H3]]]]; [left; exact H | lia |]. right. exists q'. auto. }
        { exact Hlt. } { eapply in_range_le; [|exact Hr]. lia. } { exact Hr1. }
        { apply Z.log2_le_mono in Hle. lia. } { exact Hwf'. }
        rewrite E. cbn [bind orb]. exists res, rsd, fac. split; [reflexivity|]. split; [exact A1|]. split; [rewrite A2; exact Hprod|].
        split; [exact A3|]. split; [eapply Z.divide_trans; eassumption|]. split.
        { intros k Hk. destruct (A5 k Hk) as [H|[H2 [H3 H4]]].
          - destruct (Hk1 k H) as [H'|[-> H']]; [auto|]. right. split; [left; reflexivity|]. split; [exact Hst | exact H'].
          - right. split; [right; exact H2|]. split; [exact H3 | eapply Z.divide_trans; eassumption]. }
        split; [auto|]. split.
        { intros q [<-|Hq] Hql; [|apply A7; assumption]. intros C. apply Hnd. eapply Z.divide_trans; [exact C | exact A4]. }
        { intros Hfac. destruct (A8 Hfac) as [H|[q [Hq1 [Hq2 Hq3]]]]; [auto|]. right. exists q. split; [right; exact Hq1|]. split; [exact Hq2|].
          intros x [<-|Hx] Hxq; [exact Hst | apply Hq3; assumption]. }
Qed.
End TD.

(** primes above half the bit width: for narrow types they still fit *)
Lemma prime_17 : prime 17. Proof. apply fast_primeb_spec. reflexivity. Qed.
Lemma prime_257 : prime 257. Proof. apply fast_primeb_spec. reflexivity. Qed.
Lemma prime_65537 : prime 65537. Proof. apply fast_primeb_spec. vm_compute. reflexivity. Qed.

Lemma sqrt1_range : forall t n, valid_ity t -> in_range t n -> in_range t (Z.sqrt n + 1).
Proof. intros t n Ht Hn. eapply self_range; [exact Ht | exact Hn |]. pose proof (Z.sqrt_nonneg n). lia. Qed.

Lemma primes_fit : forall t target limit primes B, valid_ity t -> in_range t target -> limit <= Z.sqrt target + 1 ->
  lists_primes primes (fun p => p < B) -> B <= 2 ^ 64 ->
  forall p, In p primes -> in_range t p \/ exists q, In q primes /\ q < p /\ limit < q.
Proof.
  intros t target limit primes B Ht Hn Hl [Hs Hin] HB p Hp. apply Hin in Hp. destruct Hp as [Hpp HpB]. pose proof (prime_ge2 p Hpp) as H2.
  assert (K : forall Q w, prime Q -> Q < 2 ^ w -> target < 2 ^ w -> Z.sqrt target + 1 < Q -> (0 <= p < 2 ^ w) \/ exists q, In q primes /\ q < p /\ limit < q).
  { intros Q w HQ HQw Htw HQs. destruct (Z.lt_ge_cases Q p) as [H|H]; [|left; lia]. right. exists Q. split; [apply Hin; split; [exact HQ | lia]|]. split; [exact H | lia]. }
  assert (S : forall h, 0 <= h -> target < 2 ^ (2 * h) -> Z.sqrt target + 1 <= 2 ^ h).
  { intros h Hh H. replace (2 ^ (2 * h)) with (2 ^ h * 2 ^ h) in H by (rewrite <- Z.pow_add_r by lia; f_equal; lia).
    assert (Z.sqrt target < 2 ^ h); [|lia]. apply Z.sqrt_lt_square; [apply (in_range_nonneg _ _ Hn) | apply Z.pow_nonneg; lia | exact H]. }
  destruct t as [w|]; [|left; cbn [in_range]; lia]. cbn [in_range valid_ity] in *. destruct Ht as [->|[->|[->|[->| ->]]]].
  - apply (K 17); [exact prime_17 | lia | lia |]. specialize (S 4 ltac:(lia) ltac:(lia)). lia.
  - apply (K 257); [exact prime_257 | lia | lia |]. specialize (S 8 ltac:(lia) ltac:(lia)). lia.
  - apply (K 65537); [exact prime_65537 | lia | lia |]. specialize (S 16 ltac:(lia) ltac:(lia)). lia.
  - left. lia.
  - left. lia.
Qed.

Definition td_limit_of (target : Z) (limit : option Z) : Z :=
  match limit with Some l => Z.min l (Z.sqrt target + 1) | None => Z.sqrt target + 1 end.

Theorem trial_division_spec : forall f pf t fuel primes B target limit, valid_ity t -> in_range t target -> 1 <= target ->
  lists_primes primes (fun p => p < B) -> B <= 2 ^ 64 -> (forall l, limit = Some l -> in_range t l) -> Z.log2 target + 1 < fuel ->
  exists m o, trial_division (uops f pf t) fuel primes target limit = Ret (m, o) /\
    let r := match o with inl r => r | inr r => r end in
    wf_map m /\ prod_powers m * r = target /\ 1 <= r /\
    (forall k, In k (map fst m) <-> (In k primes /\ k <= td_limit_of target limit /\ (k | target))) /\
    (forall p, In p primes -> p <= td_limit_of target limit -> ~ (p | r)) /\
    (match o with inl _ => r = 1 \/ prime r | inr _ => True end).
Proof.
  intros f pf t fuel primes B target limit Ht Hn H1 Hl HB Hlim Hf. unfold trial_division. cbn [uops o_sqrt]. unfold ext_sqrt. cbn [bind].
  unfold o_one, o_const. cbn [uops o_from]. rewrite from_prim_ok by (apply valid_one, Ht). cbn [unwrap bind].
  cbn [uops o_add]. rewrite add_ok by (apply sqrt1_range; assumption). cbn [bind].
  assert (EL : match limit with Some l => lt <- unwrap (from_prim t l) ;; b <- o_ltb (uops f pf t) lt (Z.sqrt target + 1) ;; Ret (if b then lt else Z.sqrt target + 1) | None => Ret (Z.sqrt target + 1) end
             = Ret (td_limit_of target limit)).
  { destruct limit as [l|]; [|reflexivity]. rewrite from_prim_ok by (apply Hlim; reflexivity). cbn [unwrap bind uops o_ltb td_limit_of]. f_equal.
    destruct (Z.ltb_spec l (Z.sqrt target + 1)); lia. }
  unfold o_const in *. cbn [uops o_from] in *. rewrite EL. cbn [bind]. clear EL.
  assert (HL : td_limit_of target limit <= Z.sqrt target + 1) by (unfold td_limit_of; destruct limit; lia).
  pose proof Hl as [Hs Hin].
  destruct (td_loop_spec f pf t fuel (Z.sqrt target + 1) (td_limit_of target limit) primes target [] Hs) as [res [rsd [fac [E [A1 [A2 [A3 [A4 [A5 [A6 [A7 A8]]]]]]]]]]].
  { intros p Hp. apply Hin in Hp. tauto. } { eapply primes_fit; eassumption. } { exact HL. } { exact Hn. } { exact H1. } { exact Hf. } { apply wf_nil. }
  rewrite E. cbn [bind]. exists res, (if fac then inl rsd else inr rsd). split; [reflexivity|].
  assert (Er : match (if fac then inl rsd else inr rsd) with inl r => r | inr r => r end = rsd) by (destruct fac; reflexivity).
  cbv zeta. rewrite Er. cbn [prod_powers] in A2. rewrite Z.mul_1_l in A2.
  assert (Hpos : forall q e, In (q, e) res -> 0 <= e) by (intros q e H; destruct A1 as [_ A1]; rewrite Forall_forall in A1; specialize (A1 _ H); cbn [snd] in A1; lia).
  split; [exact A1|]. split; [exact A2|]. split; [exact A3|]. split; [|split; [exact A7|]].
  - intros k. split.
    + intros Hk. destruct (A5 k Hk) as [[]|H]. exact H.
    + intros [Hk1 [Hk2 Hk3]]. assert (Hkp : prime k) by (apply Hin in Hk1; tauto). rewrite <- A2 in Hk3.
      apply prime_div_mul in Hk3; [|exact Hkp]. destruct Hk3 as [Hk3|Hk3]; [|exfalso; eapply A7; eassumption].
      apply prime_div_prod_powers in Hk3; [|exact Hkp | exact Hpos]. destruct Hk3 as [q [e [Hq1 Hq2]]].
      assert (Hq : In q (map fst res)) by (apply in_map_iff; exists (q, e); auto).
      destruct (A5 q Hq) as [[]|[Hq3 _]]. apply Hin in Hq3. destruct Hq3 as [Hqp _].
      apply prime_divides_prime in Hq2; [subst; exact Hq | exact Hkp | exact Hqp].
  - destruct fac; [|exact I]. destruct (A8 eq_refl) as [->|[p [Hp1 [Hp2 Hp3]]]]; [left; reflexivity|].
    destruct (Z.eq_dec rsd 1) as [->|Hne]; [left; reflexivity|]. right. apply prime_no_small_divisor; [lia|].
    intros q Hq Hqq Hd. assert (Hqs : q <= Z.sqrt target).
    { apply Z.sqrt_le_square; [lia | pose proof (prime_ge2 q Hq); lia |]. apply Z.divide_pos_le in A4; lia. }
    assert (Hqin : In q primes) by (apply Hin; split; [exact Hq|]; apply Hin in Hp1; lia).
    apply (A7 q Hqin); [apply Hp3; [exact Hqin | lia] | exact Hd].
Qed.

(** ** Pollard's rho *)
Lemma gcd_proper : forall n x, 1 <= n -> Z.gcd x n <> 1 -> Z.gcd x n <> n -> proper_divisor (Z.gcd x n) n.
Proof.
  intros n x Hn H1 H2. pose proof (Z.gcd_nonneg x n). assert (Z.gcd x n <> 0) by (intros C; apply Z.gcd_eq_0 in C; lia).
  pose proof (Z.gcd_divide_r x n) as D. pose proof (Z.divide_pos_le (Z.gcd x n) n ltac:(lia) D). unfold proper_divisor. split; [lia|]. split; [lia | exact D].
Qed.

Section Rho.
Variables (f : feature) (pf : profile) (t : ity).
Hypothesis Ht : valid_ity t.
Notation OP := (uops f pf t).

Definition rho_inv (target : Z) (k : Z) (st : rho_state (T := Z)) : Prop :=
  r_i st = k /\ in_range t (r_a st) /\ in_range t (r_b st) /\ in_range t (r_s st) /\ 0 <= r_j st.

Lemma rho_step_spec : forall target offset maxi k st, in_range t target -> 1 <= target -> 0 <= k < maxi -> maxi < 2 ^ 64 -> rho_inv target k st ->
  run False False (fun r => match r with
    | Next st' => rho_inv target (k + 1) st'
    | Done (o, i) => i = k + 1 /\ (forall d, o = Some d -> proper_divisor d target) end) (rho_step pf OP target offset st).
Proof.
  intros target offset maxi k st Hn H1 Hk Hmax [Ei [Ha [Hb [Hs Hj]]]].
  assert (Hmod : forall x, in_range t (x mod target)) by (intros x; eapply in_range_le; [|exact Hn]; pose proof (Z.mod_pos_bound x target ltac:(lia)); lia).
  unfold rho_step. rewrite Ei, add_ok by rng. cbn [bind]. cbn [uops o_sqm o_addm o_eqb o_ltb o_sub o_mulm o_is_zero o_rem o_gcd o_is_one].
  unfold ext_sqm, ext_addm, ext_mulm. rewrite rem_ok by lia. cbn [bind]. rewrite rem_ok by lia. cbn [bind].
  set (a := ((r_a st * r_a st) mod target + offset) mod target). assert (Har : in_range t a) by apply Hmod.
  destruct (a =? r_b st); [cbn [run]; split; [reflexivity | discriminate]|].
  assert (Hd : exists d, (if a <? r_b st then sub_ pf t (r_b st) a else sub_ pf t a (r_b st)) = Ret d).
  { pose proof (in_range_nonneg _ _ Har). pose proof (in_range_nonneg _ _ Hb).
    destruct (Z.ltb_spec a (r_b st)); (rewrite sub_ok; [eauto|]); [eapply in_range_le; [|exact Hb] | eapply in_range_le; [|exact Har]]; lia. }
  destruct Hd as [d ->]. cbn [bind]. rewrite rem_ok by lia. cbn [bind]. set (z := (r_z st * d) mod target).
  destruct (z =? 0).
  - destruct (r_bt st); [cbn [run]; split; [reflexivity | discriminate]|].
    unfold o_one, o_const. cbn [uops o_from]. rewrite from_prim_ok by (apply valid_one, Ht). cbn [unwrap bind]. rewrite rem_ok by lia.
    cbn [bind run]. unfold rho_inv. cbn [r_i r_a r_b r_s r_j]. split; [reflexivity|]. split; [exact Hs|]. split; [exact Hb|]. split; [apply valid_one, Ht | exact Hj].
  - set (check := (k + 1 =? r_j st) || (Z.land (k + 1) 127 =? 0) || r_bt st).
    set (fnd := if check then _ else _).
    assert (Hfnd : exists o, fnd = Ret o /\ (forall g, o = Some g -> proper_divisor g target)).
    { unfold fnd. destruct check; [|exists None; split; [reflexivity | discriminate]]. cbn [bind]. unfold ext_gcd.
      destruct (Z.eqb_spec (Z.gcd z target) 1) as [E|E]; [exists None; split; [reflexivity | discriminate]|]. cbn [bind].
      destruct (Z.eqb_spec (Z.gcd z target) target) as [E2|E2]; [exists None; split; [reflexivity | discriminate]|].
      eexists. split; [reflexivity|]. intros g Eg. injection Eg as <-. apply gcd_proper; assumption. }
    destruct Hfnd as [o [-> Ho]]. cbn [bind]. destruct o as [g|].
    + cbn [run]. split; [reflexivity | exact Ho].
    + assert (Hs' : in_range t (if check then a else r_s st)) by (destruct check; assumption).
      destruct (k + 1 =? r_j st).
      * assert (Esh : exists j', shl_ pf usize (r_j st) 1 = Ret j' /\ 0 <= j').
        { unfold shl_, usize. cbn [Z.leb Z.ltb Z.compare Pos.compare Pos.compare_cont andb]. eexists. split; [reflexivity | apply Z.mod_pos_bound; lia]. }
        destruct Esh as [j' [-> Hj']]. cbn [bind run]. unfold rho_inv. cbn [r_i r_a r_b r_s r_j]. auto.
      * cbn [run]. unfold rho_inv. cbn [r_i r_a r_b r_s r_j]. auto.
Qed.

Theorem pollard_rho_spec : forall target start offset maxi, in_range t target -> 1 <= target -> in_range t start -> 0 <= maxi < 2 ^ 64 ->
  exists o i, pollard_rho pf OP target start offset maxi = Ret (o, i) /\ 0 <= i <= maxi /\ (forall d, o = Some d -> proper_divisor d target).
Proof.
  intros target start offset maxi Hn H1 Hs Hm. unfold pollard_rho, o_one, o_const. cbn [uops o_from o_rem].
  rewrite from_prim_ok by (apply valid_one, Ht). cbn [unwrap bind]. rewrite rem_ok by lia. cbn [bind].
  pose proof (run_iter_count _ _ False False (rho_inv target) (fun k x => snd x = k + 1 /\ (forall d, fst x = Some d -> proper_divisor d target)) (rho_step pf OP target offset) maxi
    {| r_a := start; r_b := start; r_z := 1 mod target; r_i := 0; r_j := 1; r_s := start; r_bt := false |}) as R.
  assert (R' := R ltac:(lia) ltac:(unfold rho_inv; cbn [r_i r_a r_b r_s r_j]; repeat split; auto; lia)). clear R.
  assert (R'' := R' ltac:(intros k s Hk HI; eapply run_mono; [apply (rho_step_spec target offset maxi k s Hn H1 Hk ltac:(lia) HI) | auto | auto | intros [x|[o i]] H; exact H])). clear R'.
  apply run_total in R''. destruct R'' as [r [-> HR]]. cbn [bind]. destruct r as [st|[o i]].
  - exists None, (r_i st). split; [reflexivity|]. destruct HR as [-> _]. split; [lia | discriminate].
  - destruct HR as [k [Hk [E H]]]. cbn [fst snd] in *. exists o, i. split; [reflexivity|]. split; [lia | exact H].
Qed.
End Rho.
