(** * C23 (Pollard's rho), C24-C27: the factoring routines of src/factor.rs. *)
From Coq Require Import ZArith Znumtheory List Lia Bool Sorted.
From Verif Require Import Base Tables Spec Ext NT PBase PTables MInteger Ops POps MPrimality PSprp PropSprp MFactor PFactor PFactor2 PSqufof.
Import ListNotations.
Local Open Scope Z_scope.

Lemma sorted_lt_nodup : forall l, StronglySorted Z.lt l -> NoDup l.
Proof.
  induction 1 as [|a l Hs IH Hall]; constructor; [|exact IH]. intros C. rewrite Forall_forall in Hall. specialize (Hall _ C). lia.
Qed.

(** ** C24: trial division *)
(** [primes] is the ascending list of all primes below some bound B. The result [m] holds exactly the
    primes of the list that divide the target and do not exceed the limit (or sqrt(target)+1), with
    their full multiplicity; [inl r] is Ok(r), [inr r] is Err(r). *)
Theorem C24_trial_division : forall f pf t fuel primes B target limit, valid_ity t -> in_range t target -> 1 <= target ->
  lists_primes primes (fun p => p < B) -> B <= 2 ^ 64 -> (forall l, limit = Some l -> in_range t l) -> Z.log2 target + 1 < fuel ->
  exists m o, trial_division (uops f pf t) fuel primes target limit = Ret (m, o) /\
    let r := match o with inl r => r | inr r => r end in
    let lim := match limit with Some l => Z.min l (Z.sqrt target + 1) | None => Z.sqrt target + 1 end in
    wf_map m /\ prod_powers m * r = target /\ 1 <= r /\
    (forall k, In k (map fst m) <-> In k primes /\ k <= lim /\ (k | target)) /\
    (forall p, In p primes -> p <= lim -> ~ (p | r)) /\
    (forall r0, o = inl r0 -> r0 = 1 \/ prime r0).
Proof.
  intros f pf t fuel primes B target limit Ht Hn H1 Hl HB Hlim Hf.
  destruct (trial_division_spec f pf t fuel primes B target limit Ht Hn H1 Hl HB Hlim Hf) as [m [o [E H]]].
  exists m, o. split; [exact E|]. cbv zeta in *. destruct H as (A1 & A2 & A3 & A4 & A5 & A6).
  split; [exact A1|]. split; [exact A2|]. split; [exact A3|]. split; [exact A4|]. split; [exact A5|]. intros r0 E0. subst o. exact A6.
Qed.
(** Full multiplicity, spelled out: the exponent of a listed prime is its valuation. *)
Theorem C24_multiplicity : forall f pf t fuel primes B target limit m o, valid_ity t -> in_range t target -> 1 <= target ->
  lists_primes primes (fun p => p < B) -> B <= 2 ^ 64 -> (forall l, limit = Some l -> in_range t l) -> Z.log2 target + 1 < fuel ->
  trial_division (uops f pf t) fuel primes target limit = Ret (m, o) ->
  forall p e, In (p, e) m -> (p ^ e | target) /\ ~ (p ^ (e + 1) | target).
Proof.
  intros f pf t fuel primes B target limit m o Ht Hn H1 Hl HB Hlim Hf E p e Hpe.
  destruct (C24_trial_division f pf t fuel primes B target limit Ht Hn H1 Hl HB Hlim Hf) as [m' [o' [E' H]]].
  rewrite E in E'. injection E' as <- <-. cbv zeta in H. destruct H as (A1 & A2 & A3 & A4 & A5 & _).
  set (r := match o with inl r => r | inr r => r end) in *.
  pose proof A1 as [Hs Hpos]. rewrite Forall_forall in Hpos.
  assert (Hkey : forall k, In k (map fst m) -> prime k) by (intros k Hk; apply A4 in Hk; destruct Hk as [Hk _]; destruct Hl as [_ Hl]; apply Hl in Hk; tauto).
  assert (Hp : In p (map fst m)) by (apply in_map_iff; exists (p, e); auto). pose proof (Hkey p Hp) as Hpp. pose proof (prime_ge2 p Hpp) as Hp2.
  assert (He : 0 < e) by (specialize (Hpos _ Hpe); cbn [snd] in Hpos; lia).
  assert (Hnd : NoDup (map fst m)) by (apply sorted_lt_nodup; exact Hs).
  apply in_split in Hpe. destruct Hpe as [l1 [l2 ->]].
  assert (EP : prod_powers (l1 ++ (p, e) :: l2) = p ^ e * prod_powers (l1 ++ l2)).
  { clear. induction l1 as [|[q x] l1 IH]; [reflexivity|]. cbn [app prod_powers]. rewrite IH. ring. }
  rewrite EP in A2. split; [exists (prod_powers (l1 ++ l2) * r); rewrite <- A2; ring|].
  intros [c D]. rewrite Z.pow_add_r, Z.pow_1_r in D by lia. pose proof (Z.pow_pos_nonneg p e ltac:(lia) ltac:(lia)).
  assert (D2 : (p | prod_powers (l1 ++ l2) * r)) by (exists c; nia).
  apply prime_div_mul in D2; [|exact Hpp]. destruct D2 as [D2|D2].
  - apply prime_div_prod_powers in D2; [|exact Hpp|].
    + destruct D2 as [q [x [Hq D2]]]. rewrite map_app in Hnd. cbn [map fst] in Hnd. apply NoDup_remove_2 in Hnd. apply Hnd. rewrite <- map_app.
      assert (Hqm : In q (map fst (l1 ++ l2))) by (apply in_map_iff; exists (q, x); auto).
      assert (prime q) by (apply Hkey; rewrite map_app in *; cbn [map fst]; apply in_app_iff in Hqm; apply in_app_iff; cbn [In]; tauto).
      apply prime_divides_prime in D2; [subst q; exact Hqm | exact Hpp | assumption].
    + intros q x Hq. assert (Hq' : In (q, x) (l1 ++ (p, e) :: l2)) by (apply in_app_iff in Hq; apply in_app_iff; cbn [In]; tauto). specialize (Hpos _ Hq'). cbn [snd] in Hpos. lia.
  - apply A4 in Hp. destruct Hp as [Hp3 [Hp4 _]]. exact (A5 p Hp3 Hp4 D2).
Qed.
(** A limit that does not fit the target's type panics. *)
Theorem C24_unfit_limit_panics : forall f pf t fuel primes target l, valid_ity t -> in_range t target -> ~ in_range t l ->
  trial_division (uops f pf t) fuel primes target (Some l) = Panic.
Proof.
  intros f pf t fuel primes target l Ht Hn Hl. unfold trial_division, o_one, o_const. cbn [uops o_sqrt o_from o_add]. unfold ext_sqrt. cbn [bind].
  rewrite from_prim_ok by (apply valid_one, Ht). cbn [unwrap bind]. rewrite add_ok by (apply sqrt1_range; assumption). cbn [bind].
  unfold from_prim. destruct (in_rangeb t l) eqn:E; [apply in_rangeb_spec in E; contradiction | reflexivity].
Qed.
Lemma primes20 : lists_primes [2; 3; 5; 7; 11; 13; 17; 19] (fun p => p < 20).
Proof.
  split; [repeat constructor|]. intros p. split.
  - intros H. cbn [In] in H. repeat destruct H as [<-|H]; try (split; [apply fast_primeb_spec; reflexivity | lia]). destruct H.
  - intros [Hp HB]. pose proof (prime_ge2 p Hp). apply fast_primeb_spec in Hp.
    assert (Hc : p = 2 \/ p = 3 \/ p = 4 \/ p = 5 \/ p = 6 \/ p = 7 \/ p = 8 \/ p = 9 \/ p = 10 \/ p = 11 \/ p = 12 \/ p = 13 \/ p = 14 \/ p = 15 \/ p = 16 \/ p = 17 \/ p = 18 \/ p = 19) by lia.
    repeat destruct Hc as [->|Hc]; try subst p; try discriminate Hp; cbn [In]; tauto.
Qed.
Example C24_case : trial_division (uops BigTable Debug (U 16)) 20 [2; 3; 5; 7; 11; 13; 17; 19] 62244 None = Ret ([(2, 2); (3, 2); (7, 1); (13, 1); (19, 1)], inl 1)
  /\ trial_division (uops BigTable Debug (U 16)) 20 [2; 3; 5; 7; 11; 13; 17; 19] 62244 (Some 7) = Ret ([(2, 2); (3, 2); (7, 1)], inr 247)
  /\ trial_division (uops BigTable Debug (U 8)) 20 [2; 3; 5; 7; 11; 13; 17; 19] 254 None = Ret ([(2, 1)], inl 127)
  /\ Z.log2 62244 + 1 < 20 /\ in_rangeb (U 16) 62244 = true /\ in_rangeb (U 16) 7 = true.
Proof. vmc. Qed.

(** ** C25: Pollard's rho *)
Theorem C25_pollard_rho : forall f pf t target start offset max_iter, valid_ity t -> in_range t target -> 1 <= target -> in_range t start ->
  0 <= max_iter < 2 ^ 64 ->
  exists o i, pollard_rho pf (uops f pf t) target start offset max_iter = Ret (o, i) /\ 0 <= i <= max_iter /\
    (forall d, o = Some d -> 1 < d /\ d < target /\ (d | target)).
Proof. intros. apply pollard_rho_spec; assumption. Qed.
Example C25_case : pollard_rho Debug (uops BigTable Debug u64) 8051 2 1 100 = Ret (Some 97, 8)
  /\ pollard_rho Debug (uops BigTable Debug u64) 8051 2 2 100 = Ret (Some 83, 8)
  /\ pollard_rho Debug (uops BigTable Debug u64) 8051 2 1 3 = Ret (None, 3).
Proof. vmc. Qed.

(** ** C23: Pollard's rho on Montgomery residues follows the same walk *)
Theorem C23_pollard_rho_agrees : forall f pf t n start offset max_iter, valid_ity t -> in_range t n -> 1 <= n -> Z.odd n = true ->
  0 <= start < n -> 0 <= offset < n ->
  pollard_rho pf (mops pf t) (ML n) (MR start n) (MR offset n) max_iter =
  ('(o, i) <- pollard_rho pf (uops f pf t) n start offset max_iter ;; Ret (option_map ML o, i)).
Proof. intros. apply pollard_rho_mint; assumption. Qed.

Example C23_rho_case : pollard_rho Debug (mops Debug u64) (ML 8051) (MR 2 8051) (MR 1 8051) 100 = Ret (Some (ML 97), 8).
Proof. vmc. Qed.

(** ** C26: one line *)
(** [safe]: the product mul_target * i stays below (2^(w/2) - 1)^2 *)
Theorem C26_one_line : forall f pf t target mul_target max_iter, valid_ity t -> 1 <= target -> 1 <= mul_target -> in_range t mul_target ->
  (target | mul_target) -> 0 <= max_iter ->
  (pf = Release \/ match t with Big => True | U w => mul_target * (max_iter - 1) < (2 ^ (w / 2) - 1) * (2 ^ (w / 2) - 1) end) ->
  exists o i, one_line f pf t target mul_target max_iter = Ret (o, i) /\ 0 <= i <= max_iter /\
    (forall d, o = Some d -> 1 < d /\ d < target /\ (d | target)).
Proof. intros. apply one_line_spec; assumption. Qed.
(** Above that bound debug builds panic on the square. *)
Theorem C26_overflow_refuted : forall f w target mul_target max_iter, valid_ity (U w) -> 1 <= target -> 0 <= mul_target < 2 ^ w ->
  (target | mul_target) -> 2 <= max_iter -> (2 ^ (w / 2) - 1) * (2 ^ (w / 2) - 1) <= mul_target ->
  one_line f Debug (U w) target mul_target max_iter = Panic.
Proof. exact ol_overflow. Qed.
Theorem C26_not_multiple_panics : forall f pf t target mul_target max_iter, 1 <= target -> ~ (target | mul_target) ->
  one_line f pf t target mul_target max_iter = Panic.
Proof.
  intros f pf t target mt mi H1 Hd. unfold one_line. rewrite rem_ok by lia. cbn [bind].
  replace (mt mod target =? 0) with false; [reflexivity|]. symmetry. apply Z.eqb_neq. intros C. apply Hd. apply mod0_divide; [lia | exact C].
Qed.
Example C26_case : one_line BigTable Debug u64 11111 (11111 * 480) 1000 = Ret (Some 271, 2)
  /\ one_line BigTable Debug (U 8) 15 225 10 = Panic /\ one_line BigTable Release (U 8) 77 231 10 = Ret (Some 11, 1)
  /\ 11111 * 480 * (1000 - 1) < (2 ^ (64 / 2) - 1) * (2 ^ (64 / 2) - 1).
Proof. vmc. Qed.

(** ** C27: SQUFOF *)
(** [mul_target] is not a square: squfof returns (the backward walks all end, [fuel] bounds their
    length), no operation under- or overflows (no panic in debug builds, and release builds compute
    the same), and a returned factor is proper. *)
Theorem C27_squfof : forall f pf t fuel target mul_target max_iter, valid_ity t -> 1 <= target -> 1 <= mul_target ->
  in_range t mul_target -> (target | mul_target) -> 0 <= max_iter -> (~ exists r, r * r = mul_target) -> 2 * mul_target <= fuel ->
  exists o i, squfof f pf t fuel target mul_target max_iter = Ret (o, i) /\
    0 <= i <= max_iter /\ (forall d, o = Some d -> 1 < d /\ d < target /\ (d | target)) /\
    squfof f Release t fuel target mul_target max_iter = squfof f Debug t fuel target mul_target max_iter.
Proof.
  intros f pf t fuel target N maxi Ht H1 HN1 HN Hd Hm Hsq Hf.
  pose proof (squfof_total f pf t fuel target N maxi Ht H1 HN1 HN Hd Hm Hsq Hf) as R. apply run_total in R. destruct R as [[o i] [E [A B]]].
  exists o, i. split; [exact E|]. split; [exact A|]. split; [exact B|]. apply squfof_profile; assumption.
Qed.
(** The same with any bound on the walks, for the runs that end within it. *)
Theorem C27_squfof_any_fuel : forall f pf t fuel target mul_target max_iter, valid_ity t -> 1 <= target -> 1 <= mul_target ->
  in_range t mul_target -> (target | mul_target) -> 0 <= max_iter -> (~ exists r, r * r = mul_target) ->
  squfof f pf t fuel target mul_target max_iter <> Panic /\
  (forall o i, squfof f pf t fuel target mul_target max_iter = Ret (o, i) ->
     0 <= i <= max_iter /\ forall d, o = Some d -> 1 < d /\ d < target /\ (d | target)) /\
  squfof f Release t fuel target mul_target max_iter = squfof f Debug t fuel target mul_target max_iter.
Proof.
  intros f pf t fuel target N maxi Ht H1 HN1 HN Hd Hm Hsq.
  pose proof (squfof_spec f pf t fuel target N maxi Ht H1 HN1 HN Hd Hm Hsq) as R. split; [|split].
  - intros C. rewrite C in R. exact R.
  - intros o i E. rewrite E in R. cbn [run fst snd] in R. exact R.
  - apply squfof_profile; assumption.
Qed.
(** The walk itself: every triple reached is reduced, every division in it is exact. *)
Theorem C27_walk : forall pf t N p q qm1, valid_ity t -> in_range t N -> (~ exists r, r * r = N) ->
  let rd := Z.sqrt N in
  0 < p <= rd -> p * p + q * qm1 = N -> rd - p < q <= rd + p -> rd - p < qm1 <= rd + p ->
  exists p' q', sq_rho pf t rd p q qm1 = Ret (p', q', q) /\
    0 < p' <= rd /\ p' * p' + q' * q = N /\ rd - p' < q' <= rd + p' /\ rd - p' < q <= rd + p' /\ (q | p + p').
Proof.
  intros pf t N p q qm1 Ht HN Hsq rd Hp E Hq Hm. pose proof (in_range_nonneg _ _ HN) as H0. pose proof (Z.sqrt_spec N H0) as [S1 S2].
  assert (Hns : rd * rd < N) by (assert (rd * rd <> N) by (intros C; apply Hsq; eauto); unfold rd in *; lia).
  destruct (sq_rho_spec pf t N rd p q qm1 Ht HN eq_refl Hns) as [p' [q' [E' [HR Ep]]]]; [unfold reduced; auto|].
  exists p', q'. split; [exact E'|]. destruct HR as (A1 & A2 & A3 & A4). split; [exact A1|]. split; [exact A2|]. split; [exact A3|]. split; [exact A4|].
  exists ((rd + p) / q). lia.
Qed.
(** A square mul_target: its root is returned unchecked; it can be the target or not divide it. *)
Theorem C27_square : forall f pf t fuel target mul_target max_iter r, valid_ity t -> 1 <= target -> 1 <= mul_target ->
  in_range t mul_target -> (target | mul_target) -> 0 <= r -> r * r = mul_target ->
  squfof f pf t fuel target mul_target max_iter = Ret (Some r, 0).
Proof.
  intros f pf t fuel target N maxi r Ht H1 HN1 HN Hd Hr Er. unfold squfof, ext_sqrt. rewrite rem_ok by lia. cbn [bind].
  replace (N mod target =? 0) with true by (symmetry; apply Z.eqb_eq, mod0_divide; [lia | exact Hd]). cbn [negb].
  assert (Es : Z.sqrt N = r) by (rewrite <- Er; apply Z.sqrt_square; exact Hr). rewrite Es.
  rewrite mul_ok by (rewrite Er; exact HN). cbn [bind]. rewrite sub_ok by (eapply in_range_le; [|exact HN]; lia). cbn [bind].
  replace (N - r * r =? 0) with true by (symmetry; apply Z.eqb_eq; lia). reflexivity.
Qed.
Theorem C27_square_refuted : forall f pf, squfof f pf u64 10 3 9 10 = Ret (Some 3, 0) /\ squfof f pf u64 10 2 16 10 = Ret (Some 4, 0) /\ ~ (4 | 2).
Proof. intros f pf. split; [|split]; [destruct f, pf; vm_compute; reflexivity | destruct f, pf; vm_compute; reflexivity|]. intros [c C]. lia. Qed.
Example C27_case : squfof BigTable Debug u64 100 11111 11111 100 = Ret (Some 41, 5)
  /\ squfof BigTable Debug u64 100 11111 (3 * 11111) 100 = Ret (Some 41, 29)
  /\ squfof BigTable Debug u64 100 1000730021 1000730021 1000 = Ret (Some 10007, 87).
Proof. vmc. Qed.

Print Assumptions C23_pollard_rho_agrees.
Print Assumptions C24_trial_division.
Print Assumptions C24_multiplicity.
Print Assumptions C24_unfit_limit_panics.
Print Assumptions C25_pollard_rho.
Print Assumptions C26_one_line.
Print Assumptions C26_overflow_refuted.
Print Assumptions C26_not_multiple_panics.
Print Assumptions C27_squfof.
Print Assumptions C27_squfof_any_fuel.
Print Assumptions C27_walk.
Print Assumptions C27_square.
Print Assumptions C27_square_refuted.
