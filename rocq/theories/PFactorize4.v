(** * Proofs about PrimeBufferExt::divisor, factors and factorize (src/buffer.rs:108-251). *)
From Coq Require Import ZArith Znumtheory List Lia Bool Sorted.
From Verif Require Import Base Tables Spec Ext NT PBase PTables MInteger PInteger Ops POps MPrimality MTraits PSprp PropSprp MFactor MSieve MIsPrime NTLucas NTResidue PLucas PLucas2 PLucas3 PropMint PIsPrime PIsPrime2 MFactorize PFactor PFactor2 PFactorize PFactorize2 PFactorize3.
Import ListNotations.
Local Open Scope Z_scope.

(** ** Collecting a map *)
Lemma bt_insert_end : forall m k v, (forall x, In x (map fst m) -> x < k) -> bt_insert m k v = m ++ [(k, v)].
Proof.
  induction m as [|[k' v'] m IH]; intros k v H; cbn [bt_insert app]; [reflexivity|]. specialize (H k' (or_introl eq_refl)) as H'. cbn [map fst] in H.
  replace (k <? k') with false by (symmetry; apply Z.ltb_ge; lia). replace (k =? k') with false by (symmetry; apply Z.eqb_neq; lia).
  f_equal. apply IH. intros x Hx. apply H. right. exact Hx.
Qed.
Lemma collect_map_id : forall f pf t l, StronglySorted Z.lt (map fst l) -> (forall k, In k (map fst l) -> in_range t k) -> collect_map f pf t l = Ret l.
Proof.
  intros f pf t l Hs Hr. unfold collect_map.
  assert (G : forall l acc, StronglySorted Z.lt (map fst (acc ++ l)) -> (forall k, In k (map fst l) -> in_range t k) ->
    foldM (fun m kv => k <- o_const (uops f pf t) (fst kv) ;; Ret (bt_insert m k (snd kv))) l acc = Ret (acc ++ l)).
  { clear. induction l as [|[k v] l IH]; intros acc Hs Hr; cbn [foldM]; [rewrite app_nil_r; reflexivity|]. cbn [fst snd].
    unfold o_const at 1. cbn [uops o_from]. rewrite from_prim_ok by (apply Hr; left; reflexivity). cbn [unwrap bind].
    assert (Hlt : forall x, In x (map fst acc) -> x < k).
    { intros x Hx. rewrite map_app in Hs. cbn [map fst] in Hs. clear - Hs Hx. induction (map fst acc) as [|y a IHa]; [destruct Hx|]. cbn [app] in Hs.
      inversion Hs as [|q r Hs' Hall]; subst. destruct Hx as [<-|Hx]; [|apply IHa; assumption]. rewrite Forall_forall in Hall. apply Hall. apply in_or_app. right. left. reflexivity. }
    rewrite bt_insert_end by exact Hlt. rewrite IH.
    - rewrite <- app_assoc. reflexivity.
    - rewrite <- app_assoc. exact Hs.
    - intros x Hx. apply Hr. right. exact Hx. }
  apply (G l []); assumption.
Qed.
Lemma key_le_prod : forall m k, (forall p e, In (p, e) m -> 1 <= p /\ 1 <= e) -> In k (map fst m) -> 1 <= k <= prod_powers m.
Proof.
  induction m as [|[p e] m IH]; intros k H Hk; [destruct Hk|]. cbn [prod_powers]. destruct (H p e (or_introl eq_refl)) as [Hp He].
  assert (P0 : 1 <= prod_powers m) by (apply prod_powers_pos; intros q x Hq; destruct (H q x (or_intror Hq)); lia).
  assert (Hpe : p <= p ^ e) by (replace e with (1 + (e - 1)) by lia; rewrite Z.pow_add_r, Z.pow_1_r by lia; pose proof (Z.pow_pos_nonneg p (e - 1) ltac:(lia) ltac:(lia)); nia).
  destruct Hk as [<-|Hk]; [cbn [fst]; nia|]. destruct (IH k) as [A B]; [intros q x Hq; apply (H q x); right; exact Hq | exact Hk|]. nia.
Qed.

(** ** divisor *)
Section Divisor.
Variables (f : feature) (pf : profile) (t : ity).
Hypothesis (Ht : valid_ity t).
Variables (buf : list Z).
Hypothesis (Hbuf : forall p, In p buf -> 1 <= p).

(** with [td_limit = Some(0)] the trial division finds nothing *)
Lemma divisor_td_nothing : forall ps target tsqrt limit o, (forall p, In p ps -> 1 <= p) -> limit <= 0 -> divisor_td f pf t ps target tsqrt limit = Ret o -> forall d, o <> Some (Some d).
Proof.
  intros ps target tsqrt limit o Hp Hl E d. destruct ps as [|p ps]; cbn [divisor_td] in E; [injection E as <-; discriminate|].
  unfold o_const in E. cbn [uops o_from] in E. destruct (from_prim t p) as [pt|] eqn:Ep; [|discriminate]. cbn [unwrap bind] in E. apply from_prim_inv in Ep. destruct Ep as [-> _].
  destruct (tsqrt <? p); [injection E as <-; discriminate|]. specialize (Hp p (or_introl eq_refl)). replace (limit <? p) with true in E by (symmetry; apply Z.ltb_lt; lia). injection E as <-. discriminate.
Qed.
Lemma divisor_td_total : forall ps target tsqrt limit, (forall p, In p ps -> 1 <= p /\ in_range t p) -> limit <= 0 -> exists o, divisor_td f pf t ps target tsqrt limit = Ret o.
Proof.
  intros ps target tsqrt limit Hp Hl. destruct ps as [|p ps]; cbn [divisor_td]; [eauto|]. destruct (Hp p (or_introl eq_refl)) as [H1 H2].
  unfold o_const. cbn [uops o_from]. rewrite from_prim_ok by exact H2. cbn [unwrap bind]. destruct (tsqrt <? p); [eauto|].
  replace (limit <? p) with true by (symmetry; apply Z.ltb_lt; lia). eauto.
Qed.

Lemma divisor_step_spec : forall target trials dr, in_range t target -> 1 <= target ->
  run False (length dr < 2)%nat (fun r => match r with Next s => fst s = trials - 1 /\ S (S (length (snd s))) = length dr
     | Done (o, tr, dr') => tr = trials - 1 /\ exists d, o = Some d /\ proper_divisor d target end) (divisor_step f pf t target (trials, dr)).
Proof.
  intros target trials dr Hn H1. unfold divisor_step. set (w := if target <? 2 ^ 64 then 8 else 64).
  assert (Hc : forall x, exists c, o_const (uops f pf t) (x mod 2 ^ w) = Ret c /\ c = x mod 2 ^ w).
  { intros x. exists (x mod 2 ^ w). split; [|reflexivity]. unfold o_const. cbn [uops o_from]. rewrite from_prim_ok; [reflexivity|].
    unfold w. destruct (Z.ltb_spec target (2 ^ 64)) as [L|L].
    - pose proof (Z.mod_pos_bound x (2 ^ 8) ltac:(lia)) as B. destruct t as [u|]; cbn [in_range valid_ity] in *; [|lia].
      assert (2 ^ 8 <= 2 ^ u) by (apply Z.pow_le_mono_r; lia). lia.
    - pose proof (Z.mod_pos_bound x (2 ^ 64) ltac:(lia)) as B. eapply in_range_le; [|exact Hn]. lia. }
  destruct dr as [|x1 dr]; [cbn; lia|]. cbn [draw bind]. destruct (Hc x1) as [c1 [-> ->]]. cbn [bind uops o_rem]. rewrite rem_ok by lia. cbn [bind].
  destruct dr as [|x2 dr]; [cbn; lia|]. cbn [draw bind]. destruct (Hc x2) as [c2 [-> ->]]. cbn [bind uops o_rem]. rewrite rem_ok by lia. cbn [bind].
  pose proof (Z.mod_pos_bound (x1 mod 2 ^ w) target ltac:(lia)) as B1.
  destruct (pollard_rho_spec f pf t Ht target ((x1 mod 2 ^ w) mod target) ((x2 mod 2 ^ w) mod target) 1048576 Hn H1) as [o [j [-> [_ H]]]]; [eapply in_range_le; [|exact Hn]; lia | lia |].
  cbn [bind]. destruct o as [d|]; cbn [run fst snd length].
  - split; [reflexivity|]. exists d. split; [reflexivity | apply H; reflexivity].
  - split; reflexivity.
Qed.

Theorem divisor_spec : forall target td trials dr, in_range t target -> 1 <= target -> 0 <= trials -> (forall p, In p buf -> in_range t p \/ td <> Some 0) ->
  run False (Z.of_nat (length dr) < 2 * trials) (fun '(o, tr, dr') => 0 <= tr <= trials /\ (forall d, o = Some d -> proper_divisor d target) /\ (trials = 0 -> o = None)) (divisor f pf t buf target td trials dr).
Proof.
  intros target td trials dr Hn H1 Htr Hfit. unfold divisor.
  assert (Early : exists o, (match td with Some 0 => r <- o_sqrt (uops f pf t) target ;; one <- o_one (uops f pf t) ;; tsqrt <- o_add (uops f pf t) r one ;; l <- o_const (uops f pf t) 0 ;;
      divisor_td f pf t buf target tsqrt (if l <? tsqrt then l else tsqrt) | _ => Ret None end) = Ret o /\ forall d, o <> Some (Some d)).
  { destruct (match td with Some 0 => true | _ => false end) eqn:Etd.
    - destruct td as [[|l|l]|]; try discriminate. cbn [uops o_sqrt]. unfold ext_sqrt. cbn [bind]. unfold o_one, o_const. cbn [uops o_from].
      rewrite from_prim_ok by (apply valid_one, Ht). cbn [unwrap bind o_add uops]. rewrite add_ok by (apply sqrt1_range; assumption). cbn [bind].
      rewrite from_prim_ok by (eapply in_range_le; [|exact Hn]; lia). cbn [unwrap bind]. pose proof (Z.sqrt_nonneg target). replace (0 <? Z.sqrt target + 1) with true by (symmetry; apply Z.ltb_lt; lia).
      destruct (divisor_td_total buf target (Z.sqrt target + 1) 0) as [o E]; [|lia|].
      + intros p Hp. split; [apply Hbuf, Hp|]. destruct (Hfit p Hp) as [?|?]; [assumption | congruence].
      + exists o. split; [exact E|]. eapply (divisor_td_nothing buf); [exact Hbuf | | exact E]. lia.
    - exists None. split; [|discriminate]. destruct td as [[|l|l]|]; try discriminate; reflexivity. }
  destruct Early as [o [-> Ho]]. cbn [bind]. destruct o as [[d|]|].
  - exfalso. exact (Ho d eq_refl).
  - cbn [run]. split; [lia|]. split; [discriminate | reflexivity].
  - apply run_bind. rewrite iter_niter. 
    assert (G : forall n tr d, Z.of_nat n <= tr -> run False (Z.of_nat (length d) < 2 * Z.of_nat n) (fun r => match r with Next (tr', _) => tr - Z.of_nat n <= tr' <= tr
       | Done (o, tr', _) => tr - Z.of_nat n <= tr' <= tr /\ (exists x, o = Some x /\ proper_divisor x target) /\ (0 < n)%nat end) (niter (divisor_step f pf t target) n (tr, d))).
    { induction n as [|n IH]; intros tr d Hle; cbn [niter].
      - cbn [run]. lia.
      - unfold kbind. apply run_bind. eapply run_mono; [apply (divisor_step_spec target tr d Hn H1) | auto | lia |].
        intros [[tr' d']|[[o tr'] d']]; cbn [fst snd].
        + intros [-> El]. eapply run_mono; [apply (IH (tr - 1) d'); lia | auto | lia |]. intros [[a b]|[[a b] c]]; [lia|]. intros [A [B C]]. split; [lia|]. split; [exact B | lia].
        + intros [-> Hx]. cbn [run]. split; [lia|]. split; [exact Hx | lia]. }
    eapply run_mono; [apply (G (Z.to_nat trials) trials dr); lia | auto | lia |].
    intros [[tr' d']|[[o tr'] d']].
    + intros Hb. cbn [run]. split; [lia|]. split; [discriminate | reflexivity].
    + intros [A [[x [-> Hx]] C]]. cbn [run]. split; [lia|]. split; [intros d E; injection E as <-; exact Hx | lia].
Qed.
End Divisor.

(** ** factors *)
Lemma td_loop_not_one : forall f pf t fuel primes tsqrt limit residual result m r, residual <> 1 -> td_loop (uops f pf t) fuel primes tsqrt limit residual result = Ret (m, r, false) -> r <> 1.
Proof.
  induction primes as [|p ps IH]; intros tsqrt limit residual result m r H E; cbn [td_loop] in E.
  - injection E as _ <-. exact H.
  - destruct (o_const (uops f pf t) p) as [pt| |]; try discriminate. cbn [bind uops o_ltb] in E. destruct (limit <? pt).
    + injection E as _ <- _. exact H.
    + destruct (td_divide (uops f pf t) fuel pt residual) as [[r' e]| |]; try discriminate. cbn [bind] in E. unfold o_is_one in E. cbn [uops o_to_z] in E.
      destruct (Z.eqb_spec r' 1) as [C|C]; [discriminate|].
      match type of E with bind ?m _ = _ => destruct m as [[[a b] c]| |] eqn:E2; try discriminate end. cbn [bind] in E. injection E as _ <- Ec.
      apply orb_false_iff in Ec. destruct Ec as [_ ->]. exact (IH _ _ _ _ _ _ C E2).
Qed.
Lemma trial_division_not_one : forall f pf t fuel primes target limit m r, target <> 1 -> trial_division (uops f pf t) fuel primes target limit = Ret (m, inr r) -> r <> 1.
Proof.
  intros f pf t fuel primes target limit m r H E. unfold trial_division in E.
  do 4 match type of E with bind ?x _ = _ => let q := fresh in destruct x as [q| |]; cbn [bind] in E; try discriminate end.
  match type of E with bind ?x _ = _ => destruct x as [[[a b] c]| |] eqn:E2; cbn [bind] in E; try discriminate end.
  destruct c; [discriminate|]. injection E as _ <-. eapply td_loop_not_one; eassumption.
Qed.

Section Factors.
Variables (f : feature) (pf : profile) (lf : nat) (fuel : Z) (t : ity) (buf : list Z) (B : Z).
Hypothesis (Ht : valid_ity t).
Hypothesis (Hbuf : lists_primes buf (fun p => p < B)).
Hypothesis (HB : B <= 2 ^ 64).
Hypothesis (Hlf : Z.of_nat lf <= 2 ^ 61).
Hypothesis (Hfuel : 129 < fuel).

Lemma buf_pos : forall p, In p buf -> 1 <= p < 2 ^ 64.
Proof. intros p Hp. destruct Hbuf as [_ H]. apply H in Hp. destruct Hp as [Pp L]. pose proof (prime_ge2 p Pp). lia. Qed.

(** [k] is prime, or was accepted by is_prime under the configuration [pc] *)
Definition key_ok (pc : prime_config) (k : Z) : Prop :=
  prime k \/ exists d p d', is_prime f pf (uops f pf t) no_probs lf buf k (Some pc) d = Ret (p, d') /\ probably p = true.

Section Step.
Variables (pc : prime_config) (N : Z).
Definition fac_inv (st : list Z * list (Z * Z) * list Z * Z * draws) : Prop :=
  let '(todo, result, failed, trials, _) := st in
  (forall x, In x todo -> 1 < x <= N) /\ (forall x, In x failed -> 1 < x) /\ wf_map result /\ (forall k, In k (map fst result) -> 1 <= k /\ key_ok pc k) /\ 0 <= trials /\
  prod todo * (prod_powers result * prod failed) = N.
Definition fac_done (x : list (Z * Z) * list Z * draws) : Prop :=
  let '(result, failed, _) := x in
  (forall x, In x failed -> 1 < x) /\ wf_map result /\ (forall k, In k (map fst result) -> 1 <= k /\ key_ok pc k) /\ prod_powers result * prod failed = N.

Lemma prod_app : forall a b, prod (a ++ b) = prod a * prod b.
Proof. induction a as [|x a IH]; intros b; cbn [app prod]; [lia|]. rewrite IH. ring. Qed.

Lemma factors_step_spec : forall st, in_range t N -> 2 ^ 64 <= N -> fac_inv st -> run True True (fun r => match r with Next st' => fac_inv st' | Done x => fac_done x end) (factors_step f pf lf t buf pc st).
Proof.
  intros [[[[todo result] failed] trials] dr] HN HN64 [H1 [H2 [H3 [H4 [H5 E]]]]]. unfold factors_step. destruct todo as [|x todo].
  - cbn [run fac_done]. cbn [prod] in E. rewrite Z.mul_1_l in E. auto.
  - destruct (H1 x (or_introl eq_refl)) as [Hx1 HxN]. assert (Hx : in_range t x) by (eapply in_range_le; [|exact HN]; lia). cbn [prod] in E.
    assert (H1' : forall y, In y todo -> 1 < y <= N) by (intros y Hy; apply H1; right; exact Hy).
    destruct (is_prime f pf (uops f pf t) no_probs lf buf x (Some pc) dr) as [[p dr1]| |] eqn:Ep; cbn [bind run]; try exact I.
    destruct (probably p) eqn:Epr.
    { cbn [run fac_inv]. split; [exact H1'|]. split; [exact H2|]. split; [apply bt_add_wf; [exact H3 | lia]|]. split.
      - intros k Hk. apply bt_add_keys in Hk. destruct Hk as [->|Hk]; [|apply H4, Hk]. split; [lia|]. right. exists dr, p, dr1. auto.
      - split; [exact H5|]. rewrite bt_add_prod by (auto; lia). rewrite Z.pow_1_r. rewrite <- E. ring. }
    apply run_bind. eapply run_mono; [apply (divisor_spec f pf t Ht buf ltac:(intros q Hq; apply buf_pos in Hq; lia) x (Some 0) trials dr1 Hx ltac:(lia) H5) | tauto | auto |].
    { intros q Hq. left. eapply in_range_le; [|exact HN]. apply buf_pos in Hq. lia. }
    intros [[o tr] dr2] [A1 [A2 _]]. destruct o as [d|].
    + destruct (A2 d eq_refl) as [D1 [D2 [c D3]]]. cbn [uops o_div]. rewrite div_ok by lia. cbn [bind run fac_inv].
      assert (Ec : x / d = c) by (rewrite D3; apply Z.div_mul; lia). rewrite Ec. assert (Hc : 1 < c <= x) by nia.
      split; [intros y [<-|[<-|Hy]]; [lia | lia | apply H1', Hy]|]. split; [exact H2|]. split; [exact H3|]. split; [exact H4|]. split; [lia|].
      cbn [prod]. rewrite <- E, D3. ring.
    + cbn [run fac_inv]. split; [exact H1'|]. split; [intros y Hy; apply in_app_or in Hy; destruct Hy as [Hy|[<-|[]]]; [apply H2, Hy | lia]|].
      split; [exact H3|]. split; [exact H4|]. split; [lia|]. rewrite prod_app. cbn [prod]. rewrite <- E. ring.
Qed.
End Step.

Definition cfg (config : option factor_config) : factor_config := match config with Some c => c | None => fc_default end.
Definition rest_list (o : option (list Z)) : list Z := match o with Some l => l | None => [] end.

Theorem factors_spec : forall target config dr, in_range t target -> 1 <= target -> Z.log2 target + 1 < fuel ->
  (forall l, td_limit (cfg config) = Some l -> 0 <= l) -> 0 <= rho_trials (cfg config) ->
  run True True (fun '(m, rest, _) => wf_map m /\ prod_powers m * prod (rest_list rest) = target /\ (forall x, In x (rest_list rest) -> 1 < x) /\ rest <> Some [] /\
      (target < 2 ^ 128 -> rest = None) /\
      (forall k, In k (map fst m) -> 1 <= k /\ if target <? 2 ^ 128 then accepted f pf lf k /\ (k <> target -> k < SMALL_PRIMES_NEXT f * SMALL_PRIMES_NEXT f -> prime k) else key_ok (primality_config (cfg config)) k))
    (factors f pf lf fuel t buf target config dr).
Proof.
  intros target config dr Hn H1 Hlog Htd Hrho. unfold factors. destruct (Z.ltb_spec target (2 ^ 128)) as [L|L].
  - apply run_bind. eapply run_mono; [apply (factorize128_spec f pf lf fuel Hlf Hfuel target dr ltac:(lia)) | auto | auto |].
    intros [m dr'] [W [P K]]. cbn [fst] in *.
    assert (Hk1 : forall k, In k (map fst m) -> 1 <= k).
    { intros k Hk. destruct (K k Hk) as [A _]. specialize (A []). destruct (Z.lt_ge_cases k 1) as [C|C]; [|exact C]. exfalso.
      unfold prime_probably, nt_is_prime, is_prime in A. cbn [uops o_is_even] in A. destruct (Z.even k) eqn:Ev.
      - unfold o_const in A. cbn [uops o_from] in A. rewrite from_prim_ok in A by (cbn [u128 in_range]; lia). cbn [unwrap bind uops o_eqb] in A.
        replace (k =? 2) with false in A by (symmetry; apply Z.eqb_neq; lia). discriminate.
      - cbn [uops o_to_z] in A. replace (k <? 2 ^ 64) with true in A by (symmetry; apply Z.ltb_lt; lia). rewrite is_prime64_law in A by lia. unfold z_is_prime64 in A.
        replace (k <? 2) with true in A by (symmetry; apply Z.ltb_lt; lia). discriminate. }
    assert (Hent : forall p e, In (p, e) m -> 1 <= p /\ 1 <= e).
    { intros p e Hin. split; [apply Hk1, (in_map fst _ _ Hin)|]. destruct W as [_ W]. rewrite Forall_forall in W. exact (W _ Hin). }
    rewrite collect_map_id; [|apply W | intros k Hk; eapply in_range_le; [|exact Hn]; pose proof (key_le_prod m k Hent Hk); lia].
    cbn [bind run rest_list prod]. split; [exact W|]. split; [lia|]. split; [intros x []|]. split; [discriminate|]. split; [reflexivity|].
    intros k Hk. split; [apply Hk1, Hk | apply K, Hk].
  - fold (cfg config). assert (EB : t = Big).
    { destruct t as [w|]; [|reflexivity]. cbn [valid_ity in_range] in *. assert (2 ^ w <= 2 ^ 128) by (apply Z.pow_le_mono_r; lia). lia. }
    destruct (trial_division_spec f pf t fuel buf B target (td_limit (cfg config)) Ht Hn H1 Hbuf HB) as [m [o [E [W [P [R [K [ND O]]]]]]]].
    { intros l El. rewrite EB. cbn [in_range]. apply Htd, El. }
    { exact Hlog. }
    rewrite E. cbn [bind]. assert (Hkp : forall k, In k (map fst m) -> prime k) by (intros k Hk; apply K in Hk; destruct Hk as [Hk _]; destruct Hbuf as [_ Hb]; apply Hb in Hk; tauto).
    rewrite collect_map_id; [|apply W | intros k Hk; specialize (Hkp k Hk); pose proof (prime_ge2 k Hkp); rewrite EB; cbn [in_range]; lia].
    cbn [bind]. assert (Hk0 : forall k, In k (map fst m) -> 1 <= k /\ key_ok (primality_config (cfg config)) k) by (intros k Hk; specialize (Hkp k Hk); pose proof (prime_ge2 k Hkp); split; [lia | left; exact Hkp]).
    assert (Hlt128 : (target <? 2 ^ 128) = false) by (apply Z.ltb_ge; exact L).
    destruct o as [r|r].
    + cbn [bind run rest_list prod]. destruct (Z.eqb_spec r 1) as [E1|E1].
      * rewrite E1 in P. split; [exact W|]. split; [lia|]. split; [intros x []|]. split; [discriminate|]. split; [lia | exact Hk0].
      * destruct O as [O|O]; [contradiction|].
        assert (Hfresh : bt_get m r = None).
        { apply bt_get_fresh. intros C. apply K in C. destruct C as [C1 [C2 _]]. apply (ND r C1 C2). apply Z.divide_refl. }
        split; [destruct W as [W1 W2]; split; [apply bt_insert_sorted, W1 | apply bt_insert_values; [cbn [snd]; lia | exact W2]]|].
        split; [rewrite bt_insert_new_prod by exact Hfresh; rewrite Z.pow_1_r; lia|]. split; [intros x []|]. split; [discriminate|]. split; [lia|].
        intros k Hk. apply bt_insert_keys in Hk. destruct Hk as [->|Hk]; [|apply Hk0, Hk]. split; [lia|]. left. exact O.
    + pose proof (trial_division_not_one f pf t fuel buf target (td_limit (cfg config)) m r ltac:(lia) E) as Hr1.
      apply run_bind. eapply run_mono; [apply (run_loop _ _ True True (fac_inv (primality_config (cfg config)) target) (fac_done (primality_config (cfg config)) target)) | auto | auto |].
      * cbn [fac_inv prod]. assert (1 <= prod_powers m) by (apply prod_powers_pos; intros p e Hin; specialize (Hkp p (in_map fst _ _ Hin)); pose proof (prime_ge2 p Hkp); destruct W as [_ W]; rewrite Forall_forall in W; specialize (W _ Hin); cbn [snd] in W; lia).
        split; [intros x [<-|[]]; nia|]. split; [intros x []|]. split; [exact W|]. split; [exact Hk0|]. split; [exact Hrho|]. lia.
      * exact I.
      * intros st Hst. apply factors_step_spec; [exact Hn | lia | exact Hst].
      * intros [[result failed] dr'] [D1 [D2 [D3 D4]]]. cbn [run].
        assert (Er : rest_list (match failed with [] => None | _ :: _ => Some failed end) = failed) by (destruct failed; reflexivity). rewrite Er.
        split; [exact D2|]. split; [exact D4|]. split; [exact D1|]. split; [destruct failed; discriminate|]. split; [lia | exact D3].
Qed.

(** ** factorize *)
Theorem factorize_spec : forall target dr, in_range t target -> 1 <= target -> Z.log2 target + 1 < fuel ->
  run True True (fun '(m, _) => wf_map m /\ prod_powers m = target /\
      (forall k, In k (map fst m) -> 1 <= k /\ if target <? 2 ^ 128 then accepted f pf lf k /\ (k <> target -> k < SMALL_PRIMES_NEXT f * SMALL_PRIMES_NEXT f -> prime k) else key_ok pc_default k))
    (factorize f pf lf fuel t buf target dr).
Proof.
  intros target dr Hn H1 Hlog. unfold factorize. apply (run_loop _ _ True True (fun _ => True)); [exact I | exact I |]. intros d _.
  apply run_bind. eapply run_mono; [apply (factors_spec target None d Hn H1 Hlog) | auto | auto |].
  - cbn [cfg fc_default td_limit]. intros l El. injection El as <-. lia.
  - cbn. lia.
  - intros [[m rest] d'] [W [P [_ [_ [_ K]]]]]. destruct rest as [l|]; cbn [run]; [exact I|]. cbn [rest_list prod] in P. split; [exact W|]. split; [lia | exact K].
Qed.
(** below 2^128 factorize is factorize128 *)
Lemma factorize_small : forall target dr, target < 2 ^ 128 -> factorize f pf lf fuel t buf target dr = ('(m, dr') <- factorize128 f pf lf fuel target dr ;; m' <- collect_map f pf t m ;; Ret (m', dr')).
Proof.
  intros target dr L. unfold factorize, loop. assert (EF : exists k, 0 <= k /\ fuel = k + 1) by (exists (fuel - 1); lia). destruct EF as [k [Hk EF]]. rewrite EF at 1. rewrite iter_succ by lia.
  unfold factors. apply Z.ltb_lt in L. rewrite L. destruct (factorize128 f pf lf fuel target dr) as [[m dr']| |]; cbn [bind kbind]; try reflexivity.
  destruct (collect_map f pf t m); reflexivity.
Qed.
End Factors.
