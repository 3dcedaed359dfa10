(** * The divisor search of factorize128 in debug builds ends (C80). *)
From Coq Require Import ZArith Znumtheory List Lia Bool Sorted.
From Verif Require Import Base Tables Spec Ext NT PBase PTables MInteger PInteger Ops POps MPrimality MTraits PSprp MFactor MSieve MIsPrime PIsPrime PIsPrime2 MFactorize PFactor PFactor2 PFactorize PFactorize2 PFactorize3 PDraws PHart2 PSearch.
Import ListNotations.
Local Open Scope Z_scope.

Section Adv128.
Variables (f : feature) (lf : nat) (fuel P : Z).
Hypothesis (HP : 1 <= P < 2 ^ 128).
Hypothesis (Hlf : 6 + Z.sqrt P <= Z.of_nat lf <= 2 ^ 61).
Hypothesis (Hfuel : 2 ^ 129 <= fuel).

Lemma adv128_step_ends : forall n e t128 t64 factored dr, adv128_inv f Debug lf P ((n, e) :: t128, t64, factored, dr) -> (130 <= length dr)%nat ->
  run True False (fun r => match r with
    | Next (a, b, _, dr') => weights a + 1 <= weights ((n, e) :: t128) /\ weights a + weights b <= weights ((n, e) :: t128) + weights t64 /\ (length dr <= length dr' + 130)%nat
    | Done _ => False end)
    (adv128_step f Debug lf fuel ((n, e) :: t128, t64, factored, dr)).
Proof.
  intros n e t128 t64 factored dr [H1 [H2 [H3 E]]] Hdr. inversion H1 as [|x l [Hc He] H1']; subst x l. cbn [fst snd] in Hc, He. cbn [prod_powers] in E.
  pose proof (cofactor_odd f 128 n Hc) as Ho. pose proof (cofactor_ge f 128 n Hc) as Hge. pose proof (next_ge f) as Hnx. pose proof Hc as [Hn _].
  assert (Hin : in_range u128 n) by (cbn [in_range u128]; lia).
  pose proof (entry128_pos f lf t128 H1') as T1. pose proof (entry64_pos f t64 H2) as T2.
  assert (F1 : 1 <= prod_powers factored) by (apply (entry128_pos f lf); eapply Forall_impl; [|exact H3]; cbn beta; tauto).
  assert (He' : e < 128) by (apply (exponent_small P HP n e (prod_powers t128 * (prod_powers t64 * prod_powers factored))); [lia | lia | nia | lia]).
  assert (HnP : n <= P).
  { assert (n ^ 1 <= n ^ e) by (apply Z.pow_le_mono_r; lia). rewrite Z.pow_1_r in *.
    assert (1 <= prod_powers t128 * (prod_powers t64 * prod_powers factored)) by nia. rewrite <- Z.mul_assoc in E. nia. }
  pose proof (entries64 f t64 H2) as G64.
  cbn [weights]. pose proof (weight_pos n e ltac:(lia)) as W1.
  destruct (bpsw_returns f Debug lf P HP Hlf n ltac:(lia) Ho) as [b [Hb _]].
  assert (Hm : mint_probably f Debug u128 lf n (Some pc_bpsw) dr = Ret (b, dr)) by (rewrite (mint_probably_eq f Debug u128 n lf (Some pc_bpsw) dr ltac:(cbn; lia) Hin Ho ltac:(lia) eq_refl ltac:(lia)); apply Hb).
  cbn [adv128_step]. rewrite Hm. cbn [bind]. destruct b; [cbn [run]; lia|].
  destruct (sqrt_exact_lawful f Debug u128 n Hin ltac:(lia)) as [o [-> Hr]]. cbn [bind]. destruct o as [d|]; cbn [exact_root] in Hr.
  { destruct Hr as [Hd0 Hd]. rewrite Z.pow_2_r in Hd. assert (Hd1 : 1 < d) by nia. rewrite mul_ok by (cbn [usize in_range]; lia). cbn [bind].
    destruct (route_weights lf d (e * 2) t128 t64 Hd1 G64) as [R1 R2]. destruct (route d (e * 2) t128 t64) as [a b]. cbn [fst snd run] in *.
    pose proof (weight_split d d (e * 2) (e * 2) e Hd1 Hd1) as W. rewrite Hd in W. pose proof (weight_pos d (e * 2) Hd1). lia. }
  destruct (nth_root_exact_nonneg n 3) as [o [Eo3 Hr3]]; [lia | lia|]. cbn [cbrt_exact u128]. unfold cbrt_exact_prim. rewrite Eo3. cbn [bind]. destruct o as [d|].
  { destruct Hr3 as [Hd0 Hd]. assert (Ed : d ^ 3 = d * (d * d)) by ring. assert (Hd1 : 1 < d) by nia. rewrite mul_ok by (cbn [usize in_range]; lia). cbn [bind].
    destruct (route_weights lf d (e * 3) t128 t64 Hd1 G64) as [R1 R2]. destruct (route d (e * 3) t128 t64) as [a b]. cbn [fst snd run] in *.
    pose proof (weight_split d (d * d) (e * 3) 1 e Hd1 ltac:(nia)) as W. rewrite <- Ed, Hd in W. pose proof (weight_pos (d * d) 1 ltac:(nia)). lia. }
  apply run_bind. unfold find_divisor. eapply run_mono; [apply (search_ends f Debug fuel 128 n) | tauto | tauto |].
  - cbn; lia.
  - lia.
  - apply (cofactor_lcm f 128), Hc.
  - intros [s Es]. apply (Hr (Z.abs s) ltac:(lia)). rewrite Z.pow_2_r, Z.abs_square. exact Es.
  - exact Ho.
  - exact Hfuel.
  - reflexivity.
  - change (2 ^ 129) with (2 * 2 ^ 128) in Hfuel. lia.
  - exact Hdr.
  - intros [d dr'] [Hd Hl]. cbn [fst snd] in Hd, Hl. pose proof Hd as [D1 [D2 [c D3]]]. assert (Hc1 : 1 < c) by nia.
    destruct (route_weights lf d e t128 t64 D1 G64) as [R1 R2].
    assert (Hcd : cofactor f 128 d) by (apply (cofactor_div f 128 n d Hc D1); exists c; lia).
    destruct (route_spec f lf d e t128 t64 Hcd He H1' H2) as [_ [S2 _]]. pose proof (entries64 f _ S2) as G64'.
    destruct (route d e t128 t64) as [a b]. cbn [fst snd] in *. rewrite div_ok by lia. cbn [bind]. replace (n / d) with c by (rewrite D3, Z.div_mul; lia).
    destruct (route_weights lf c e a b Hc1 G64') as [R3 R4]. destruct (route c e a b) as [a' b']. cbn [fst snd run] in *.
    pose proof (weight_split c d e e e Hc1 D1) as W. rewrite <- D3 in W. lia.
Qed.

Lemma adv128_ends : forall k : nat, forall t128 t64 factored dr fl, adv128_inv f Debug lf P (t128, t64, factored, dr) -> weights t128 <= Z.of_nat k -> Z.of_nat k < fl -> (130 * k <= length dr)%nat ->
  run True False (fun x => let '(b, fs, dr') := x in adv128_done f Debug lf P x /\ weights b <= weights t128 + weights t64 /\ (length dr <= length dr' + 130 * k)%nat) (loop fl (adv128_step f Debug lf fuel) (t128, t64, factored, dr)).
Proof.
  assert (Base : forall k t64 factored dr fl, 0 < fl -> adv128_inv f Debug lf P ([], t64, factored, dr) ->
    run True False (fun x => let '(b, fs, dr') := x in adv128_done f Debug lf P x /\ weights b <= weights [] + weights t64 /\ (length dr <= length dr' + 130 * k)%nat) (loop fl (adv128_step f Debug lf fuel) ([], t64, factored, dr))).
  { intros k t64 factored dr fl Hfl [_ [H2 [H3 E]]]. unfold loop. replace fl with (fl - 1 + 1) by lia. rewrite iter_succ by lia. cbn [adv128_step kbind bind run weights adv128_done]. cbn [prod_powers] in E.
    split; [|lia]. split; [exact H2|]. split; [exact H3 | lia]. }
  induction k as [|k IH]; intros t128 t64 factored dr fl HI Hw Hfl Hdr.
  - destruct t128 as [|[n e] t128]; [apply Base; [lia | exact HI]|].
    exfalso. destruct HI as [Ht _]. pose proof (entries128 f lf _ Ht) as H. inversion H; subst. cbn [fst] in *. cbn [weights] in Hw.
    pose proof (weight_pos n e ltac:(assumption)). pose proof (weights_pos t128 ltac:(assumption)). lia.
  - destruct t128 as [|[n e] t128]; [apply Base; [lia | exact HI]|].
    pose proof (adv128_step_ends n e t128 t64 factored dr HI ltac:(lia)) as R. pose proof (adv128_step_spec f Debug lf fuel P HP ltac:(lia) ((n, e) :: t128, t64, factored, dr) HI) as R2.
    unfold loop. replace fl with (fl - 1 + 1) by lia. rewrite iter_succ by lia.
    destruct (adv128_step f Debug lf fuel ((n, e) :: t128, t64, factored, dr)) as [[[[[a b] fs] dr']|x]| |]; cbn [run] in R, R2; cbn [kbind bind run]; try contradiction; [|exact I].
    destruct R as [A [B C]]. pose proof (IH a b fs dr' (fl - 1) R2 ltac:(lia) ltac:(lia) ltac:(lia)) as Q. eapply run_mono; [exact Q | tauto | tauto|].
    intros [[b' fs'] dr''] [Q1 [Q2 Q3]]. split; [exact Q1 | lia].
Qed.
End Adv128.

Lemma factorize128_ends : forall f lf fuel n dr, 2 ^ 129 <= fuel -> 6 + Z.sqrt n <= Z.of_nat lf <= 2 ^ 61 -> 1 <= n < 2 ^ 128 -> 66300 <= Z.of_nat (length dr) -> factorize128 f Debug lf fuel n dr <> NoFuel.
Proof.
  intros f lf fuel n dr Hf Hlf Hn Hdr. assert (Hf65 : 2 ^ 65 <= fuel) by (change (2 ^ 129) with (2 ^ 64 * 2 ^ 65) in Hf; lia). assert (Hf' : 256 < fuel) by (change (2 ^ 65) with (2 * 2 ^ 64) in Hf65; lia).
  unfold factorize128. destruct (Z.ltb_spec n (2 ^ 64)) as [L|L]; [apply factorize64_ends; lia|].
  unfold bt_trailing_zeros. replace (n =? 0) with false by (symmetry; apply Z.eqb_neq; lia). cbv zeta.
  assert (Hin : in_range u128 n) by (cbn [u128 in_range]; lia). destruct (shr_ztz Debug u128 n Hin ltac:(lia)) as [-> _]. cbn [bind].
  destruct (table_stage f fuel true None n Hn ltac:(lia)) as [res [rsd [fac [-> [W [P [R [K [F T]]]]]]]]]. cbn [bind].
  destruct fac; [discriminate|]. specialize (F eq_refl). pose proof F as [F1 _].
  assert (Hle : rsd <= n).
  { assert (1 <= prod_powers res); [|nia]. apply prod_powers_pos. intros p e Hin'. destruct (K p (in_map fst _ _ Hin')) as [Kp _]. pose proof (prime_ge2 p Kp).
    destruct W as [_ W]. rewrite Forall_forall in W. specialize (W _ Hin'). cbn [snd] in W. lia. }
  assert (Hsq : Z.sqrt rsd <= Z.sqrt n) by (apply Z.sqrt_le_mono; lia).
  unfold factorize128_advanced. destruct (route_spec f lf rsd 1 [] [] F ltac:(lia) ltac:(constructor) ltac:(constructor)) as [R1 [R2 R3]].
  destruct (route_weights lf rsd 1 [] [] ltac:(lia) ltac:(constructor)) as [Q1 Q2].
  destruct (route rsd 1 [] []) as [t128 t64]. cbn [fst snd prod_powers weights] in *. pose proof (weight_bound 128 rsd 1 ltac:(lia) ltac:(lia)) as B.
  assert (HI : adv128_inv f Debug lf rsd (t128, t64, [], dr)).
  { cbn [adv128_inv prod_powers]. split; [exact R1|]. split; [exact R2|]. split; [constructor|]. rewrite Z.mul_1_r, R3, Z.pow_1_r. lia. }
  pose proof (adv128_ends f lf fuel rsd ltac:(lia) ltac:(lia) Hf 255 t128 t64 [] dr fuel HI ltac:(lia) ltac:(lia) ltac:(lia)) as E.
  match goal with |- bind (bind ?m _) _ <> _ => change (run True False (fun x => let '(b, fs, dr') := x in adv128_done f Debug lf rsd x /\ weights b <= weights t128 + weights t64 /\ (length dr <= length dr' + 130 * 255)%nat) m) in E; destruct m as [[[b fs] dr']| |] end;
    cbn [run] in E; cbn [bind]; [|discriminate | contradiction].
  destruct E as [[D1 [D2 D3]] [E2 E3]]. pose proof (entry64_pos f b D1) as T2.
  assert (F2 : 1 <= prod_powers fs) by (apply (entry128_pos f lf); eapply Forall_impl; [|exact D2]; cbn beta; tauto).
  assert (N : loop fuel (adv64_step f Debug fuel) (b, [], dr') <> NoFuel).
  { apply (adv64_ends f fuel (prod_powers b) ltac:(nia) Hf65 255 b [] dr' fuel); [|lia | lia | lia].
    split; [exact D1|]. split; [constructor | cbn [prod_powers]; lia]. }
  unfold factorize64_advanced. match goal with |- bind (bind ?x _) _ <> _ => destruct x as [[gs dr'']| |] eqn:Q end; cbn [bind]; try discriminate. exfalso. apply N. reflexivity.
Qed.
