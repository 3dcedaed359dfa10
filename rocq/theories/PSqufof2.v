(** * SQUFOF: what exactly is returned, and a fast way to find out. *)
From Coq Require Import ZArith Znumtheory List Lia Bool Arith.
From Verif Require Import Base Spec SpecCF Ext NT PBase MInteger PInteger Ops POps MPrimality PSprp MFactor PLucas3 PFactor PFactor2 PSqufof.
Import ListNotations.
Local Open Scope Z_scope.

Section Exact.
Context (N rd : Z) (H0 : 0 <= N) (Erd : rd = Z.sqrt N) (Hns : rd * rd < N).

Definition pq (s : tri) : Z * Z := fst s.
Lemma cf_next_rho : forall s, red N rd s -> cf_next N (pq s) = pq (rhoz rd s).
Proof.
  intros [[p q] w] HR. pose proof (red_rho N rd H0 Erd Hns _ HR) as HR'. unfold pq, cf_next, rhoz, red in *. cbn [fst] in *. cbv zeta in *. rewrite <- Erd.
  f_equal. destruct HR' as [_ [E _]]. destruct HR as [Hp [_ [Hq _]]]. symmetry. apply Z.div_unique_exact; [lia|]. lia.
Qed.
Lemma cf_walk : forall k s, red N rd s -> Nat.iter k (cf_next N) (pq s) = pq (walk rd k s).
Proof.
  induction k as [|k IH]; intros s HR; [reflexivity|]. cbn [Nat.iter nat_rect]. change (nat_rect _ _ _ k) with (Nat.iter k (cf_next N) (pq s)).
  rewrite IH by exact HR. rewrite walk_S. apply cf_next_rho. apply (red_walk N rd H0 Erd Hns), HR.
Qed.
Lemma cf_first : cf_next N (0, 1) = (rd, N - rd * rd).
Proof. unfold cf_next. rewrite <- Erd, Z.div_1_r. replace ((rd + 0) * 1 - 0) with rd by ring. rewrite Z.div_1_r. reflexivity. Qed.
Definition start : tri := (rd, N - rd * rd, 1).
Lemma red_start : red N rd start.
Proof.
  assert (1 <= N) by nia. pose proof (sq_init Big N I H0 H) as R. rewrite <- Erd in R. exact (R Hns).
Qed.
Lemma cf_start : forall k, cf N (S k) = pq (walk rd k start).
Proof.
  intros k. unfold cf. rewrite <- (cf_walk k start red_start). change (pq start) with (rd, N - rd * rd). rewrite <- cf_first.
  induction k as [|k IH]; [reflexivity|]. cbn [Nat.iter nat_rect] in *. f_equal. exact IH.
Qed.

(** the turning point of a walk *)
Definition turn (s : tri) (u : Z) : Prop :=
  exists b, (forall i, (i < b)%nat -> ~ stops rd (walk rd i s)) /\ stops rd (walk rd b s) /\ fst (fst (walk rd b s)) = u.
Lemma turn_cf : forall s u, red N rd s -> (turn s u <-> cf_turn N (pq s) u).
Proof.
  intros s u HR.
  assert (E : forall i, fst (Nat.iter i (cf_next N) (pq s)) = fst (fst (walk rd i s))) by (intros i; rewrite cf_walk by exact HR; reflexivity).
  assert (E' : forall i, fst (Nat.iter (S i) (cf_next N) (pq s)) = fst (fst (rhoz rd (walk rd i s)))) by (intros i; rewrite E, walk_S; reflexivity).
  unfold turn, cf_turn. setoid_rewrite E'. setoid_rewrite E. unfold stops. split.
  - intros [b [A [B <-]]]. exists b. split; [exact A|]. split; [reflexivity | exact B].
  - intros [b [A [B C]]]. exists b. split; [exact A|]. split; [congruence | exact B].
Qed.
Lemma turn_unique : forall s u u', turn s u -> turn s u' -> u = u'.
Proof.
  intros s u u' [b [A [B <-]]] [b' [A' [B' <-]]]. assert (b = b') as ->; [|reflexivity].
  destruct (lt_eq_lt_dec b b') as [[L|L]|L]; [exfalso; exact (A' _ L B) | exact L | exfalso; exact (A _ L B')].
Qed.
Lemma sq_backward_turn : forall pf t fuel u v r, valid_ity t -> in_range t N -> reduced N rd u v r ->
  (exists j, stops rd (walk rd j (u, v, r))) -> 2 * N <= fuel ->
  run False False (fun u' => turn (u, v, r) u') (sq_backward pf t fuel rd u v r).
Proof.
  intros pf t fuel u v r Ht HN HR [j0 Hj0] Hf. destruct (stops_soon N rd H0 Erd Hns (u, v, r) j0 HR Hj0) as [j [Hlt Hj]].
  unfold sq_backward, loop. apply run_bind.
  eapply run_mono; [apply (run_iter_count _ _ False False (fun k st => st = walk rd (Z.to_nat k) (u, v, r) /\ forall i, Z.of_nat i < k -> ~ stops rd (walk rd i (u, v, r))) (fun _ x => turn (u, v, r) x)) | auto | auto |].
  - lia.
  - split; [reflexivity | intros i Hi; lia].
  - intros k st Hk [-> Hno]. pose proof (red_walk N rd H0 Erd Hns (Z.to_nat k) (u, v, r) HR) as Rk.
    destruct (walk rd (Z.to_nat k) (u, v, r)) as [[p q] w] eqn:Ew.
    destruct (rho_eq N rd Erd Hns pf t p q w Ht HN Rk) as [-> _]. cbn [bind]. destruct (rhoz rd (p, q, w)) as [[p' q'] w'] eqn:Er. cbn [bind].
    destruct (Z.eqb_spec p' p) as [E|E]; cbn [run].
    + exists (Z.to_nat k). rewrite Ew. split; [intros i Hi; apply Hno; lia|]. split; [|reflexivity]. unfold stops. rewrite Er. exact E.
    + split.
      * replace (Z.to_nat (k + 1)) with (S (Z.to_nat k)) by lia. rewrite walk_S, Ew, Er. reflexivity.
      * intros i Hi Hs. destruct (Z.eq_dec (Z.of_nat i) k) as [Ei|Ei]; [|apply (Hno i); [lia | exact Hs]].
        replace i with (Z.to_nat k) in Hs by lia. rewrite Ew in Hs. unfold stops in Hs. rewrite Er in Hs. cbn [fst] in Hs. contradiction.
  - intros [st|x] H; cbn [run]; [|destruct H as [k [_ H]]; exact H]. destruct H as [_ H]. apply (H j); [lia | exact Hj].
Qed.

(** a hit at the k-th pass *)
Definition hit (n k d : Z) : Prop := shanks_hit n N (Z.to_nat (k + 1)) d.
Lemma hit_inv : forall n k d p q w, 0 <= k -> walk rd (Z.to_nat k) start = (p, q, w) ->
  (hit n k d <-> exists r, 0 < r /\ q = r * r /\ exists u, cf_turn N ((rd - p) / r * r + p, (N - ((rd - p) / r * r + p) * ((rd - p) / r * r + p)) / r) u /\ d = Z.gcd n u /\ 1 < d < n).
Proof.
  intros n k d p q w Hk Ew. unfold hit, shanks_hit. replace (Z.to_nat (k + 1)) with (S (Z.to_nat k)) by lia. rewrite cf_start, Ew. unfold pq. cbn [fst snd]. cbv zeta. rewrite <- Erd.
  split.
  - intros [r [u [A [B [C D]]]]]. exists r. split; [exact A|]. split; [exact B|]. exists u. split; [exact C | exact D].
  - intros [r [A [B [u [C D]]]]]. exists r, u. split; [exact A|]. split; [exact B|]. split; [exact C | exact D].
Qed.
Lemma hit_unique : forall n k d d', 0 <= k -> hit n k d -> hit n k d' -> d = d'.
Proof.
  intros n k d d' Hk H H'. destruct (walk rd (Z.to_nat k) start) as [[p q] w] eqn:Ew. rewrite (hit_inv n k d _ _ _ Hk Ew) in H. rewrite (hit_inv n k d' _ _ _ Hk Ew) in H'.
  destruct H as [r [A [B [u [C [D _]]]]]], H' as [r' [A' [B' [u' [C' [D' _]]]]]].
  assert (r = r') as <- by nia. rewrite D, D'. f_equal.
  destruct C as [b [C1 [C2 C3]]], C' as [b' [C1' [C2' C3']]]. assert (b = b') as <-; [|congruence].
  destruct (lt_eq_lt_dec b b') as [[L|L]|L]; [exfalso; apply (C1' _ L); congruence | exact L | exfalso; apply (C1 _ L); congruence].
Qed.
Definition sq_inv3 (n k : Z) (st : Z * Z * Z * Z) : Prop :=
  let '(i, p, q, qm1) := st in i = k + 1 /\ (p, q, qm1) = walk rd (Z.to_nat k) start /\ fwd N (Z.to_nat k) (p, q, qm1) /\
    forall j d, 1 <= j <= k -> Z.odd j = true -> ~ hit n j d.

Lemma sq_step_exact : forall f pf t fuel target k st, valid_ity t -> in_range t N -> 1 <= target ->
  2 * N <= fuel -> 0 <= k -> sq_inv3 target k st ->
  run False False (fun r => match r with
    | Next st' => sq_inv3 target (k + 1) st'
    | Done (o, i) => i = k + 1 /\ Z.odd i = true /\ (exists d, o = Some d /\ hit target i d) /\ forall j d, 1 <= j < i -> Z.odd j = true -> ~ hit target j d end) (sq_step f pf t fuel target N rd st).
Proof.
  intros f pf t fuel target k [[[i p0] q0] m0] Ht HN H1 Hf Hk [Ei [Ew [HF Hno]]].
  assert (HR : reduced N rd p0 q0 m0) by (pose proof (red_walk N rd H0 Erd Hns (Z.to_nat k) start red_start) as R; rewrite <- Ew in R; exact R).
  unfold sq_step. destruct (rho_eq N rd Erd Hns pf t p0 q0 m0 Ht HN HR) as [-> HR'].
  pose proof (fwd_S N rd (Z.to_nat k) (p0, q0, m0) HR HF) as HF'. replace (S (Z.to_nat k)) with (Z.to_nat (k + 1)) in HF' by lia.
  assert (Ew' : rhoz rd (p0, q0, m0) = walk rd (Z.to_nat (k + 1)) start) by (replace (Z.to_nat (k + 1)) with (S (Z.to_nat k)) by lia; rewrite walk_S, Ew; reflexivity).
  destruct (rhoz rd (p0, q0, m0)) as [[p q] m] eqn:Er. assert (m = q0) as -> by (unfold rhoz in Er; injection Er as _ _ <-; reflexivity). cbn [bind].
  assert (Rg : forall x, 0 <= x <= 2 * rd -> in_range t x) by (intros x Hx; eapply self_range; [exact Ht | exact HN | rewrite <- Erd; lia]).
  pose proof HR' as [Hp [E [Hq Hm]]].
  assert (Hnext : (Z.odd i = true -> forall d, ~ hit target i d) -> sq_inv3 target (k + 1) (i + 1, p, q, q0)).
  { intros H. split; [lia|]. split; [exact Ew'|]. split; [exact HF'|]. intros j d Hj Ho. destruct (Z.eq_dec j i) as [->|Ne]; [apply H, Ho | apply Hno; [lia | exact Ho]]. }
  assert (Hhit : forall d, hit target i d <-> exists r, 0 < r /\ q = r * r /\ exists u, cf_turn N ((rd - p) / r * r + p, (N - ((rd - p) / r * r + p) * ((rd - p) / r * r + p)) / r) u /\ d = Z.gcd target u /\ 1 < d < target).
  { intros d. apply (hit_inv target i d p q q0); [lia|]. rewrite Ei. symmetry. exact Ew'. }
  apply run_bind. destruct (Z.odd i) eqn:Eo; [|cbn [run]; apply Hnext; discriminate].
  destruct (sqrt_exact_lawful f pf t q (Rg q ltac:(lia)) ltac:(lia)) as [o [-> Ho]]. cbn [bind].
  destruct o as [rq|].
  2:{ cbn [run]. apply Hnext. intros _ d Hh. apply Hhit in Hh. destruct Hh as [r [Hr0 [Eq _]]]. cbn [exact_root] in Ho. apply (Ho r); [lia | rewrite Z.pow_2_r; symmetry; exact Eq]. }
  cbn [exact_root] in Ho. destruct Ho as [Hrq Eq]. rewrite Z.pow_2_r in Eq.
  destruct (sq_start N rd p q q0 rq Erd H0 Hns HR' Hrq Eq) as [Hr0 [HRu Hb]]. cbv zeta in HRu.
  rewrite sub_ok by (apply Rg; lia). cbn [bind]. rewrite div_ok by lia. cbn [bind]. rewrite mul_ok by (apply Rg; lia). cbn [bind].
  pose proof HRu as [Hu [Eu _]]. rewrite add_ok by (apply Rg; lia). cbn [bind]. set (u := (rd - p) / rq * rq + p) in *.
  assert (Huu : u * u <= rd * rd) by nia.
  rewrite mul_ok by (eapply in_range_le; [|exact HN]; nia). cbn [bind]. rewrite sub_ok by (eapply in_range_le; [|exact HN]; nia). cbn [bind].
  rewrite div_ok by lia. cbn [bind]. apply run_bind.
  assert (Hst : exists j, stops rd (walk rd j (u, (N - u * u) / rq, rq))).
  { rewrite <- Eq in HR', HF'.
    destruct (mirror_reached N rd H0 Erd Hns (Z.to_nat (k + 1)) p q0 rq (sgn_odd (k + 1) ltac:(lia) ltac:(rewrite <- Ei; exact Eo)) HR' HF' Hr0 _ u _ eq_refl HRu) as [j Hj].
    exists j. apply (mirror_stops N rd H0 Erd Hns); [exact HRu | exact Hj]. }
  eapply run_mono; [apply (sq_backward_turn pf t fuel u _ rq Ht HN HRu Hst Hf) | auto | auto |]. intros u' Hturn. cbv zeta. cbn [run]. unfold ext_gcd.
  pose proof (proj1 (turn_cf (u, (N - u * u) / rq, rq) u' HRu) Hturn) as Hcf. change (pq (u, (N - u * u) / rq, rq)) with (u, (N - u * u) / rq) in Hcf.
  assert (Hit : forall d, hit target i d <-> d = Z.gcd target u' /\ 1 < d < target).
  { intros d. rewrite Hhit. split.
    - intros [r [A [B [u2 [C D]]]]]. assert (r = rq) as -> by (assert (r * r = rq * rq) by lia; nia). fold u in C.
      apply (turn_cf (u, (N - u * u) / rq, rq) u2 HRu) in C. rewrite (turn_unique _ _ _ Hturn C). exact D.
    - intros D. exists rq. split; [exact Hr0|]. split; [symmetry; exact Eq|]. exists u'. split; [exact Hcf | exact D]. }
  destruct (Z.ltb_spec 1 (Z.gcd target u')); cbn [andb]; [destruct (Z.ltb_spec (Z.gcd target u') target)|]; cbn [run];
    try (apply Hnext; intros _ d Hd; apply Hit in Hd; lia).
  split; [lia|]. split; [exact Eo|]. split; [eexists; split; [reflexivity|]; apply Hit; lia|]. intros j d Hj Hodd. apply Hno; [lia | exact Hodd].
Qed.
End Exact.

Theorem squfof_exact : forall f pf t fuel target N maxi, valid_ity t -> 1 <= target -> 1 <= N -> in_range t N -> (target | N) -> 0 <= maxi ->
  (~ exists r, r * r = N) -> 2 * N <= fuel ->
  exists o i, squfof f pf t fuel target N maxi = Ret (o, i) /\
    match o with
    | Some d => 1 <= i < maxi /\ Z.odd i = true /\ hit N target i d /\ forall j d', 1 <= j < i -> Z.odd j = true -> ~ hit N target j d'
    | None => i = maxi /\ forall j d', 1 <= j < maxi -> Z.odd j = true -> ~ hit N target j d'
    end.
Proof.
  intros f pf t fuel target N maxi Ht H1 HN1 HN Hd Hm Hsq Hf.
  set (Q := fun x : option Z * Z => match fst x with
    | Some d => 1 <= snd x < maxi /\ Z.odd (snd x) = true /\ hit N target (snd x) d /\ forall j d', 1 <= j < snd x -> Z.odd j = true -> ~ hit N target j d'
    | None => snd x = maxi /\ forall j d', 1 <= j < maxi -> Z.odd j = true -> ~ hit N target j d'
    end).
  assert (R : run False False Q (squfof f pf t fuel target N maxi)); [|apply run_total in R; destruct R as [[o i] [E H]]; exists o, i; split; [exact E | exact H]].
  unfold squfof, ext_sqrt. rewrite rem_ok by lia. cbn [bind].
  replace (N mod target =? 0) with true by (symmetry; apply Z.eqb_eq, mod0_divide; [lia | exact Hd]). cbn [negb].
  pose proof (Z.sqrt_spec N ltac:(lia)) as [S1 S2]. pose proof (Z.sqrt_nonneg N).
  assert (Hns : Z.sqrt N * Z.sqrt N < N) by (assert (Z.sqrt N * Z.sqrt N <> N) by (intros C; apply Hsq; eauto); lia).
  rewrite mul_ok by (eapply in_range_le; [|exact HN]; nia). cbn [bind]. rewrite sub_ok by (eapply in_range_le; [|exact HN]; nia). cbn [bind].
  replace (N - Z.sqrt N * Z.sqrt N =? 0) with false by (symmetry; apply Z.eqb_neq; lia).
  destruct (Z.le_gt_cases maxi 1) as [Hle|Hgt].
  { rewrite iter_le0 by lia. cbn [bind run]. unfold Q. cbn [fst snd]. split; [reflexivity | intros; lia]. }
  apply run_bind. eapply run_mono; [apply (run_iter_count _ _ False False (sq_inv3 N (Z.sqrt N) target)
    (fun k x => snd x = k + 1 /\ Z.odd (snd x) = true /\ (exists d, fst x = Some d /\ hit N target (snd x) d) /\ forall j d, 1 <= j < snd x -> Z.odd j = true -> ~ hit N target j d)); [lia | | ] | auto | auto |].
  - cbn [sq_inv3]. split; [lia|]. split; [reflexivity|]. split; [apply fwd_0; [lia | reflexivity | exact Hns]|]. intros; lia.
  - intros k s Hk HI. eapply run_mono; [apply (sq_step_exact N (Z.sqrt N) ltac:(lia) eq_refl Hns f pf t fuel target k s Ht HN H1 Hf ltac:(lia) HI) | auto | auto |].
    intros [x|[o i]] H2; cbn beta iota in *; exact H2.
  - intros [[[[i p] q] w]|[o i]] H2; cbn beta iota in *; cbn [run]; unfold Q; cbn [fst snd].
    + split; [reflexivity|]. intros j d Hj. destruct H2 as [_ [_ [_ H2]]]. apply H2. lia.
    + destruct H2 as [k [Hk [Ei [Eo [[d [Ed Hh]] Hno]]]]]. cbn [fst snd] in *. rewrite Ed. split; [lia|]. split; [exact Eo|]. split; [exact Hh | exact Hno].
Qed.
