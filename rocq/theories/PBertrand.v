(** * Searches for a prime that end because of Bertrand's postulate. *)
From Coq Require Import ZArith Znumtheory List Lia Bool Sorted.
From Verif Require Import Base Tables Spec Ext NT PBase PTables MInteger PInteger Ops POps MPrimality MTraits PSprp PropSprp MFactor MSieve MIsPrime NTLucas NTResidue PLucas PLucas2 PLucas3 PropLucas PIsPrime PIsPrime2 PNext PDoc NTBertrand.
Import ListNotations.
Local Open Scope Z_scope.

(** configurations that use no random witnesses and not the extra strong Lucas test *)
Definition quiet (config : option prime_config) : Prop := sprp_random_trials (the_config config) <= 0 /\ eslprp_test (the_config config) = false.

Section Quiet.
Variables (f : feature) (pf : profile) (t : ity) (lf : nat) (config : option prime_config) (P : Z).
Hypothesis (Ht : valid_ity t).
Hypothesis (Hq : quiet config).
Hypothesis (Hlf : slprp_test (the_config config) = true -> 6 + Z.sqrt P <= Z.of_nat lf <= 2 ^ 61).

Lemma quiet_returns : forall n, 0 <= n <= P -> in_range t n -> exists b, (forall dr, prime_probably f pf t lf n config dr = Ret (b, dr)) /\ (prime n -> b = true).
Proof.
  intros n Hn Hin. destruct Hq as [Hq1 Hq2]. assert (VU : UV t n n) by (split; auto). unfold prime_probably, nt_is_prime.
  destruct (Z.lt_ge_cases n (2 ^ 64)) as [Hsm|Hl].
  { eexists. split.
    - intros dr. rewrite (is_prime_small f pf _ no_probs t _ _ _ (uops_lawful f pf t) Ht _ _ _ _ _ _ VU Hsm). cbn [bind]. reflexivity.
    - intros Pn. cbv beta. rewrite z_is_prime64_complete by exact Pn. reflexivity. }
  destruct (Z.even n) eqn:Ev.
  { eexists. split.
    - intros dr. rewrite (is_prime_even f pf _ no_probs t _ _ _ (uops_lawful f pf t) Ht _ _ _ _ _ _ VU Ev). cbn [bind]. reflexivity.
    - intros Pn. rewrite (even_prime n Pn Ev) in Hl. lia. }
  assert (Ho : Z.odd n = true) by (rewrite <- Z.negb_even, Ev; reflexivity).
  assert (Hb : forall w, In w (buf_iter (buf_new f)) -> 0 <= w < 2 ^ 64) by (intros w Hw; apply new_buf_range in Hw; lia).
  set (c := the_config config) in *. set (ws := fixed_witnesses c (buf_iter (buf_new f))).
  assert (Hws : forall a, In a ws -> 1 <= a < 2 ^ 64) by (intros a Ha; apply fixed_in in Ha; apply new_buf_range in Ha; lia).
  assert (C1 : prime n -> forallb (z_sprp n) ws = true).
  { intros Pn. apply forallb_forall. intros a Ha. specialize (Hws a Ha). apply z_sprp_spec; [lia | exact Ho|]. apply prime_strong_prp; [exact Pn | exact Ho |]. intros D. apply Z.divide_pos_le in D; lia. }
  assert (S : exists sl, (if slprp_test c then is_slprp pf (uops f pf t) lf n None None else Ret true) = Ret sl /\ (prime n -> sl = true)).
  { destruct (slprp_test c) eqn:Es; [|exists true; split; reflexivity]. specialize (Hlf eq_refl). assert (Hs : Z.sqrt n <= Z.sqrt P) by (apply Z.sqrt_le_mono; lia). destruct (self_at_exists n ltac:(lia) Ho) as [e Ha].
    rewrite (is_slprp_auto pf _ t _ _ _ (uops_lawful f pf t) Ht lf n n e None None VU ltac:(cbv beta; lia) Ho ltac:(lia) Ha ltac:(left; lia) (or_introl eq_refl)).
    rewrite (sqrt_fuel_self n e lf Ha ltac:(lia)). eexists. split; [reflexivity|]. intros Pn. unfold z_auto. rewrite (self_prime_usable n e Pn Ho Ha). apply prime_slprp; [exact Pn | exact Ho | right; apply auto_cond; assumption]. }
  destruct S as [sl [Es Hsl]].
  assert (E : forall dr, is_prime f pf (uops f pf t) no_probs lf (buf_iter (buf_new f)) n config dr =
    if negb (forallb (z_sprp n) ws) then Ret (No, dr) else if negb sl then Ret (No, dr) else Ret (Probable (confidence no_probs c), dr)).
  { intros dr. rewrite (is_prime_large f pf _ no_probs t _ _ _ (uops_lawful f pf t) Ht lf _ n n config dr VU ltac:(cbv beta; lia) Ho Hl Hb). cbv zeta. fold c. fold ws.
    unfold draw_witnesses. replace (0 <? sprp_random_trials c) with false by (symmetry; apply Z.ltb_ge; lia). cbn [bind]. rewrite Es, Hq2. cbn [bind negb]. destruct (forallb (z_sprp n) ws), sl; reflexivity. }
  exists (forallb (z_sprp n) ws && sl). split.
  - intros dr. rewrite E. destruct (forallb (z_sprp n) ws); [|reflexivity]. destruct sl; reflexivity.
  - intros Pn. rewrite (C1 Pn), (Hsl Pn). reflexivity.
Qed.

Lemma next_quiet : forall fuel n q dr, in_range t n -> ~ (f = SmallTable /\ 252 <= n <= 255) -> prime q -> n < q <= P -> in_range t q -> q - n < fuel ->
  exists p, next_prime f pf t lf fuel n config dr = Ret (Some p, dr) /\ n < p <= q.
Proof.
  intros fuel n q dr Hn Hg Pq Hnq Hqr Hfuel. destruct (next_prime_cases f pf t lf config Ht fuel n dr Hn Hg) as [[p [[Pp [Hp1 Hp2]] [_ ->]]]|[H251 [_ ->]]].
  - specialize (Hp2 q Pq ltac:(lia)). pose proof (prime_ge2 p Pp). rewrite from_prim_ok by (eapply in_range_le; [|exact Hqr]; lia). exists p. split; [reflexivity | lia].
  - assert (R : run False False (fun x => snd x = dr /\ exists p, fst x = Some p /\ n < p <= q) (loop fuel (next_step f pf t lf config) (n mod WHEEL_SIZE f, n, dr))).
    { apply (run_loop_measure _ _ False False (fun '(i, x, d) => i = x mod WHEEL_SIZE f /\ in_range t x /\ d = dr /\ n <= x < q) _ (fun '(i, x, d) => q - x)).
      - split; [reflexivity|]. split; [exact Hn|]. split; [reflexivity | lia].
      - lia.
      - intros [[i x] d] [-> [Hx [-> Hb]]]. unfold next_step. destruct (next_jump f x) as [off [E [B H]]]. rewrite E. cbn [bind]. rewrite from_prim_ok by (apply valid_byte; [exact Ht | lia]). cbn [unwrap bind].
        assert (Hle : x + off <= q) by (destruct (Z.le_gt_cases (x + off) q) as [|L]; [assumption | exfalso; apply (H q); [lia | apply wheel_prime'; [exact Pq | lia]]]).
        assert (Hr : in_range t (x + off)) by (eapply in_range_le; [|exact Hqr]; pose proof (in_range_nonneg _ _ Hx); lia). pose proof (in_range_nonneg _ _ Hr).
        rewrite (from_prim_ok t (x + off) Hr : checked t (x + off) = Some (x + off)). unfold ext_addm. pose proof (wheel_size_pos f). rewrite rem_ok by lia. cbn [bind].
        destruct (quiet_returns (x + off) ltac:(lia) Hr) as [b [-> Hbp]]. cbn [bind]. destruct b; cbn [run].
        + split; [reflexivity|]. exists (x + off). split; [reflexivity | lia].
        + assert (x + off <> q) by (intros C; rewrite C in Hbp; specialize (Hbp Pq); discriminate). split; [|lia]. split; [rewrite Z.add_mod_idemp_l by lia; reflexivity|]. split; [exact Hr|]. split; [reflexivity | lia]. }
    destruct (loop fuel _ _) as [[o d]| |]; cbn [run fst snd] in R; [|destruct R | destruct R]. destruct R as [-> [p [-> Hp]]]. exists p. auto.
Qed.

Lemma prev_quiet : forall fuel n dr, in_range t n -> 2 < n <= P -> n < fuel -> exists p, prev_prime f pf t lf fuel n config dr = Ret (Some p, dr) /\ 2 <= p < n /\ (forall q, prime q -> ~ (p < q < n)).
Proof.
  intros fuel n dr Hn Hb Hf. destruct (prev_prime_cases f pf t lf config Ht fuel n dr Hn ltac:(lia)) as [[p [[Pp [Hp1 Hp2]] [_ ->]]]|[H251 ->]].
  { exists p. pose proof (prime_ge2 p Pp). split; [reflexivity|]. split; [lia|]. intros q Pq Hq0. specialize (Hp2 q Pq ltac:(lia)). lia. }
  assert (R : run False False (fun x => snd x = dr /\ exists p, fst x = Some p /\ 2 <= p < n /\ (forall q, prime q -> ~ (p < q < n))) (loop fuel (prev_step f pf t lf config) (n mod WHEEL_SIZE f, n, dr))).
  { apply (run_loop_measure _ _ False False (fun '(i, x, d) => i = x mod WHEEL_SIZE f /\ in_range t x /\ d = dr /\ 13 < x <= n /\ (forall q, prime q -> ~ (x <= q < n))) _ (fun '(i, x, d) => x)).
    - split; [reflexivity|]. split; [exact Hn|]. split; [reflexivity|]. split; [lia|]. intros q _ Hq0. lia.
    - lia.
    - intros [[i x] d] [-> [Hx [-> [Hx2 Hno]]]]. destruct (prev_step_eq f pf t lf config Ht x dr Hx ltac:(lia)) as [off [Ho [H13 [Hq0 ->]]]]. assert (Hr : in_range t (x - off)) by (eapply in_range_le; [|exact Hx]; lia).
      assert (Hno' : forall q, prime q -> ~ (x - off < q < n)) by (intros q Pq Hq2; destruct (Z.lt_ge_cases q x); [apply (Hq0 q Pq); lia | apply (Hno q Pq); lia]).
      destruct (quiet_returns (x - off) ltac:(lia) Hr) as [b [-> Hbp]]. cbn [bind run]. destruct b; [split; [reflexivity | exists (x - off); split; [reflexivity|]; split; [lia | exact Hno']]|].
      assert (x - off <> 13) by (intros C; rewrite C in Hbp; specialize (Hbp prime13); discriminate).
      split; [|lia]. split; [reflexivity|]. split; [exact Hr|]. split; [reflexivity|]. split; [lia|]. intros q Pq Hq2. destruct (Z.eq_dec q (x - off)) as [Eq|Nq]; [|apply (Hno' q Pq); lia].
      subst q. specialize (Hbp Pq). discriminate. }
  destruct (loop fuel _ _) as [[o d]| |]; cbn [run fst snd] in R; [|destruct R | destruct R]. destruct R as [-> [p [-> R]]]. exists p. split; [reflexivity | exact R].
Qed.
End Quiet.
