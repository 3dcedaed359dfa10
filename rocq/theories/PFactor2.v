(** * Proofs about src/factor.rs: the one line method, SQUFOF, Pollard's rho on Montgomery residues. *)
From Coq Require Import ZArith Znumtheory List Lia Bool Sorted.
From Verif Require Import Base Tables Spec Ext NT PBase PTables MInteger PInteger Ops POps MPrimality PSprp PropSprp MFactor PLucas3 PFactor.
Import ListNotations.
Local Open Scope Z_scope.

Definition half_width (t : ity) : option Z := match t with U w => Some (w / 2) | Big => None end.

Lemma valid_even_width : forall w, valid_ity (U w) -> exists h, w = 2 * h /\ w / 2 = h /\ 4 <= h.
Proof. intros w H. cbn [valid_ity] in H. destruct H as [->|[->|[->|[->| ->]]]]; [exists 4|exists 8|exists 16|exists 32|exists 64]; repeat split; lia. Qed.

Lemma gcd_proper_l : forall n x, 1 <= n -> Z.gcd n x <> 1 -> Z.gcd n x <> n -> proper_divisor (Z.gcd n x) n.
Proof. intros n x. rewrite (Z.gcd_comm n x). apply gcd_proper. Qed.

(** ** One line *)
(** every value of [ikn] from which squaring the next root cannot overflow *)
Definition ol_safe (t : ity) (x : Z) : Prop :=
  match t with Big => True | U w => x < (2 ^ (w / 2) - 1) * (2 ^ (w / 2) - 1) end.

Lemma sqrt_next_range : forall t x, valid_ity t -> 0 <= x -> ol_safe t x -> in_range t ((Z.sqrt x + 1) * (Z.sqrt x + 1)).
Proof.
  intros [w|] x Hv Hx Hs; cbn [in_range ol_safe] in *; [|pose proof (Z.sqrt_nonneg x); nia].
  destruct (valid_even_width w Hv) as [h [E1 [E2 Hh]]]. rewrite E2 in Hs. pose proof (Z.sqrt_nonneg x). pose proof (Z.pow_pos_nonneg 2 h ltac:(lia) ltac:(lia)).
  assert (Z.sqrt x < 2 ^ h - 1) by (apply Z.sqrt_lt_square; lia).
  assert (E : 2 ^ w = 2 ^ h * 2 ^ h) by (rewrite <- Z.pow_add_r by lia; f_equal; lia). rewrite E. nia.
Qed.

(** (sqrt(x)+1)^2 - x is right in release builds even when the square wraps *)
Lemma sqrt_next_diff : forall pf t x, valid_ity t -> in_range t x -> pf = Release \/ ol_safe t x ->
  (ss <- mul_ pf t (Z.sqrt x + 1) (Z.sqrt x + 1) ;; sub_ pf t ss x) = Ret ((Z.sqrt x + 1) * (Z.sqrt x + 1) - x).
Proof.
  intros pf t x Hv Hx Hc. pose proof (in_range_nonneg _ _ Hx) as H0. pose proof (Z.sqrt_spec x H0) as [S1 S2]. pose proof (Z.sqrt_nonneg x) as S0.
  set (s := Z.sqrt x) in *. replace (Z.succ s) with (s + 1) in S2 by lia.
  assert (Hd : in_range t ((s + 1) * (s + 1) - x)) by (eapply self_range; [exact Hv | exact Hx|]; fold s; nia).
  destruct (in_rangeb t ((s + 1) * (s + 1))) eqn:Eb.
  - apply in_rangeb_spec in Eb. rewrite mul_ok by exact Eb. cbn [bind]. apply sub_ok. exact Hd.
  - destruct t as [w|]; [|cbn [in_rangeb] in Eb; apply Z.leb_gt in Eb; nia].
    assert (pf = Release) as ->.
    { destruct Hc as [H|H]; [exact H|]. exfalso. pose proof (sqrt_next_range (U w) x Hv H0 H) as C. fold s in C. apply in_rangeb_spec in C. congruence. }
    unfold mul_, wrapz. rewrite Eb. cbn [bind]. unfold sub_, wrapz.
    cbn [in_range] in Hx, Hd. assert (Hw : 2 ^ w <= (s + 1) * (s + 1)).
    { cbn [in_rangeb] in Eb. destruct (Z.leb_spec 0 ((s + 1) * (s + 1))); [|nia]. cbn [andb] in Eb. apply Z.ltb_ge in Eb. exact Eb. }
    destruct (valid_even_width w Hv) as [h [E1 [E2 Hh]]]. pose proof (Z.pow_pos_nonneg 2 h ltac:(lia) ltac:(lia)) as Hp.
    assert (E : 2 ^ w = 2 ^ h * 2 ^ h) by (rewrite <- Z.pow_add_r by lia; f_equal; lia).
    assert (Hs : s < 2 ^ h) by (rewrite E in Hx; nia).
    assert (Es : s + 1 = 2 ^ h) by (rewrite E in Hw; nia).
    assert (Em : ((s + 1) * (s + 1)) mod 2 ^ w = 0) by (rewrite Es, <- E; apply Z.mod_same; lia).
    rewrite Em. destruct (in_rangeb (U w) (0 - x)) eqn:Ex.
    + apply in_rangeb_spec in Ex. cbn [in_range] in Ex. assert (x = 0) by lia. exfalso. assert (s = 0) by nia. assert (16 <= 2 ^ h) by (change 16 with (2 ^ 4); apply Z.pow_le_mono_r; lia). nia.
    + f_equal. replace (0 - x) with (2 ^ w - x + (-1) * 2 ^ w) by ring. rewrite Z.mod_add by lia.
      rewrite Z.mod_small; [rewrite Es, <- E; reflexivity|]. rewrite Es, <- E in Hd. exact Hd.
Qed.

Definition ol_inv (t : ity) (mul_target k : Z) (st : Z * Z) : Prop :=
  fst st = k + 1 /\ snd st = (k + 1) * mul_target /\ in_range t (snd st).

Lemma sqrt_next_cases : forall pf t x, valid_ity t -> in_range t x ->
  (ss <- mul_ pf t (Z.sqrt x + 1) (Z.sqrt x + 1) ;; sub_ pf t ss x) = Ret ((Z.sqrt x + 1) * (Z.sqrt x + 1) - x) \/
  (pf = Debug /\ ~ ol_safe t x /\ mul_ pf t (Z.sqrt x + 1) (Z.sqrt x + 1) = Panic).
Proof.
  intros pf t x Hv Hx. destruct pf; [|left; apply sqrt_next_diff; auto].
  destruct (in_rangeb t ((Z.sqrt x + 1) * (Z.sqrt x + 1))) eqn:E.
  - left. apply in_rangeb_spec in E. rewrite mul_ok by exact E. cbn [bind]. pose proof (in_range_nonneg _ _ Hx) as H0.
    pose proof (Z.sqrt_spec x H0) as [S1 S2]. apply sub_ok. eapply in_range_le; [|exact E]. lia.
  - right. split; [reflexivity|]. split.
    + intros C. pose proof (sqrt_next_range t x Hv (in_range_nonneg _ _ Hx) C) as C2. apply in_rangeb_spec in C2. congruence.
    + unfold mul_, wrapz. rewrite E. destruct t; reflexivity.
Qed.

Theorem one_line_run : forall f pf t target mul_target maxi, valid_ity t -> 1 <= target -> 1 <= mul_target -> in_range t mul_target ->
  (target | mul_target) -> 0 <= maxi ->
  run (pf = Debug /\ ~ ol_safe t (mul_target * (maxi - 1))) False (fun x => 0 <= snd x <= maxi /\ (forall d, fst x = Some d -> proper_divisor d target))
    (one_line f pf t target mul_target maxi).
Proof.
  intros f pf t target mt maxi Ht H1 Hm Hr Hd Hmax. unfold one_line. rewrite rem_ok by lia. cbn [bind].
  replace (mt mod target =? 0) with true by (symmetry; apply Z.eqb_eq, mod0_divide; [lia | exact Hd]). cbn [negb].
  destruct (Z.le_gt_cases maxi 1) as [Hle|Hgt].
  { rewrite iter_le0 by lia. cbn [bind run fst snd]. split; [lia | discriminate]. }
  set (pan := pf = Debug /\ ~ ol_safe t (mt * (maxi - 1))).
  apply run_bind. eapply run_mono; [apply (run_iter_count _ _ pan False (ol_inv t mt) (fun k x => snd x = k + 1 /\ (forall d, fst x = Some d -> proper_divisor d target))); [lia | | ] | auto | auto | ].
  - unfold ol_inv; cbn [fst snd]; split; [lia|]; split; [lia | exact Hr].
  - intros k [i ikn] Hk [Ei [En Hin]]. cbn [fst snd] in *. unfold ol_step. unfold ext_sqrt.
    rewrite add_ok by (apply sqrt1_range; assumption). cbn [bind].
    assert (Hpos : 1 <= ikn) by nia.
    destruct (sqrt_next_cases pf t ikn Ht Hin) as [E|[Ed [Hu E]]].
    2:{ rewrite E. cbn [bind run]. split; [exact Ed|]. intros C. apply Hu. destruct t as [w|]; [|exact I]. cbn [ol_safe] in *. eapply Z.le_lt_trans; [|exact C]. rewrite En. nia. }
    destruct (mul_ pf t (Z.sqrt ikn + 1) (Z.sqrt ikn + 1)) as [ss| |]; cbn [bind] in E |- *; try discriminate. rewrite E. cbn [bind].
    pose proof (Z.sqrt_spec ikn ltac:(lia)) as [S1 S2]. pose proof (Z.sqrt_nonneg ikn) as S0. set (s := Z.sqrt ikn) in *. replace (Z.succ s) with (s + 1) in S2 by lia.
    set (m := (s + 1) * (s + 1) - ikn) in *. assert (Hm0 : 0 < m) by (unfold m; lia).
    assert (Hmr : in_range t m) by (eapply self_range; [exact Ht | exact Hin|]; fold s; unfold m; nia).
    destruct (sqrt_exact_lawful f pf t m Hmr Hm0) as [o [-> Ho]]. cbn [bind].
    assert (F : exists fo, (match o with Some x => d <- sub_ pf t (s + 1) x ;; let g := ext_gcd target d in Ret (if negb (g =? 1) && negb (g =? target) then Some g else None) | None => Ret None end) = Ret fo
                 /\ (forall d, fo = Some d -> proper_divisor d target)).
    { destruct o as [x|]; [|exists None; split; [reflexivity | discriminate]]. cbn [exact_root] in Ho. destruct Ho as [Hx0 Hx]. rewrite Z.pow_2_r in Hx.
      rewrite sub_ok by (eapply in_range_le; [|apply (sqrt1_range t ikn Ht Hin)]; fold s; unfold m in Hx; nia). cbn [bind]. cbv zeta. unfold ext_gcd.
      eexists. split; [reflexivity|]. intros d. destruct (Z.eqb_spec (Z.gcd target (s + 1 - x)) 1) as [C1|C1]; [discriminate|].
      destruct (Z.eqb_spec (Z.gcd target (s + 1 - x)) target) as [C2|C2]; [discriminate|]. cbn [negb andb]. intros C. injection C as <-. apply gcd_proper_l; assumption. }
    destruct F as [fo [EF HF]]. cbv zeta in EF |- *. rewrite EF. cbn [bind]. destruct fo as [g|].
    + cbn [run fst snd]. split; [exact Ei | exact HF].
    + destruct (checked t (ikn + mt)) as [n|] eqn:Ec.
      * apply checked_inv in Ec. destruct Ec as [-> Hn]. cbn [run]. unfold ol_inv. cbn [fst snd]. split; [lia|]. split; [rewrite En; ring | exact Hn].
      * cbn [run fst snd]. split; [exact Ei | discriminate].
  - intros [st|[o i]] HR; cbn beta iota in *; cbn [run fst snd].
    + split; [lia | discriminate].
    + destruct HR as [k [Hk [E H]]]. cbn [fst snd] in *. split; [lia | exact H].
Qed.
Theorem one_line_spec : forall f pf t target mul_target maxi, valid_ity t -> 1 <= target -> 1 <= mul_target -> in_range t mul_target ->
  (target | mul_target) -> 0 <= maxi -> pf = Release \/ ol_safe t (mul_target * (maxi - 1)) ->
  exists o i, one_line f pf t target mul_target maxi = Ret (o, i) /\ 0 <= i <= maxi /\ (forall d, o = Some d -> proper_divisor d target).
Proof.
  intros f pf t target mt maxi Ht H1 Hm Hr Hd Hmax Hc.
  pose proof (one_line_run f pf t target mt maxi Ht H1 Hm Hr Hd Hmax) as R.
  destruct (one_line f pf t target mt maxi) as [[o i]| |]; cbn [run fst snd] in R; [eauto | | contradiction].
  exfalso. destruct R as [-> R]. destruct Hc as [C|C]; [discriminate | contradiction].
Qed.

(** Debug builds panic as soon as the square overflows. *)
Lemma ol_overflow : forall f w target mul_target maxi, valid_ity (U w) -> 1 <= target -> 0 <= mul_target < 2 ^ w -> (target | mul_target) -> 2 <= maxi ->
  (2 ^ (w / 2) - 1) * (2 ^ (w / 2) - 1) <= mul_target -> one_line f Debug (U w) target mul_target maxi = Panic.
Proof.
  intros f w target mt maxi Hv H1 Hr Hd Hm Hbig. unfold one_line. rewrite rem_ok by lia. cbn [bind].
  replace (mt mod target =? 0) with true by (symmetry; apply Z.eqb_eq, mod0_divide; [lia | exact Hd]). cbn [negb].
  replace (maxi - 1) with ((maxi - 2) + 1) by lia. rewrite iter_succ by lia.
  destruct (valid_even_width w Hv) as [h [E1 [E2 Hh]]]. rewrite E2 in Hbig. pose proof (Z.pow_pos_nonneg 2 h ltac:(lia) ltac:(lia)) as Hp.
  assert (E : 2 ^ w = 2 ^ h * 2 ^ h) by (rewrite <- Z.pow_add_r by lia; f_equal; lia).
  assert (Hge : 2 ^ h - 1 <= Z.sqrt mt) by (apply Z.sqrt_le_square; lia).
  unfold ol_step, ext_sqrt. rewrite add_ok by (apply sqrt1_range; [exact Hv | cbn [in_range]; lia]). cbn [bind].
  unfold mul_, wrapz. replace (in_rangeb (U w) _) with false; [reflexivity|]. symmetry. cbn [in_rangeb]. apply andb_false_iff. right. apply Z.ltb_ge. rewrite E. nia.
Qed.

(** ** SQUFOF: reduced triples *)
(** (p, q, q') with p^2 + q*q' = N, 0 < p <= rd, and rd - p < q, q' <= rd + p. *)
Definition reduced (N rd p q qm1 : Z) : Prop :=
  0 < p <= rd /\ p * p + q * qm1 = N /\ rd - p < q <= rd + p /\ rd - p < qm1 <= rd + p.

(** In a reduced triple the last number is determined by the others; its bounds follow. *)
Lemma reduced_other : forall N rd p q qm1, rd * rd < N < (rd + 1) * (rd + 1) -> 0 < p <= rd -> p * p + q * qm1 = N ->
  rd - p < qm1 <= rd + p -> rd - p < q <= rd + p.
Proof.
  intros N rd p q qm1 [N1 N2] Hp E Hq. assert (E1 : qm1 * q = N - p * p) by lia.
  assert (A1 : (rd - p) * qm1 <= (rd - p) * (rd + p)) by (apply Z.mul_le_mono_nonneg_l; lia).
  assert (A2 : (rd + 1 - p) * (rd + 1 + p) <= qm1 * (rd + 1 + p)) by (apply Z.mul_le_mono_nonneg_r; lia).
  split; [assert (qm1 * (rd - p) < qm1 * q) by lia | assert (qm1 * q < qm1 * (rd + 1 + p)) by lia]; assert (0 < qm1) by lia; nia.
Qed.

Lemma sq_rho_spec : forall pf t N rd p q qm1, valid_ity t -> in_range t N -> rd = Z.sqrt N -> rd * rd < N -> reduced N rd p q qm1 ->
  exists p' q', sq_rho pf t rd p q qm1 = Ret (p', q', q) /\ reduced N rd p' q' q /\ p' = ((rd + p) / q) * q - p.
Proof.
  intros pf t N rd p q qm1 Ht HN Erd Hns [Hp [E [Hq Hm]]]. pose proof (in_range_nonneg _ _ HN) as H0.
  pose proof (Z.sqrt_spec N H0) as [_ S2]. rewrite <- Erd in S2. replace (Z.succ rd) with (rd + 1) in S2 by lia.
  assert (Rg : forall x, 0 <= x <= 2 * rd -> in_range t x) by (intros x Hx; eapply self_range; [exact Ht | exact HN | rewrite <- Erd; lia]).
  unfold sq_rho. rewrite add_ok by (apply Rg; lia). cbn [bind]. rewrite div_ok by lia. cbn [bind].
  set (b := (rd + p) / q). pose proof (Z.div_mod (rd + p) q ltac:(lia)) as Ed. pose proof (Z.mod_pos_bound (rd + p) q ltac:(lia)) as Hr. fold b in Ed.
  assert (Hb : 1 <= b) by (apply Z.div_le_lower_bound; lia). set (r := (rd + p) mod q) in *.
  rewrite mul_ok by (apply Rg; nia). cbn [bind]. set (p' := b * q - p).
  assert (Hp' : rd - q < p' <= rd) by (unfold p'; lia).
  assert (Hp0 : 0 < p').
  { destruct (Z.le_gt_cases q rd); [lia|]. unfold p'. assert (b * q >= q) by nia. lia. }
  rewrite sub_ok by (apply Rg; fold p'; lia). cbn [bind]. fold p'.
  set (q' := qm1 + b * (p - p')).
  assert (Eq' : p' * p' + q' * q = N) by (unfold q'; assert (b * q = p + p') by (unfold p'; lia); rewrite <- E; nia).
  assert (Hq' : rd - p' < q <= rd + p') by (split; [lia|]; unfold p'; nia).
  assert (HR : rd - p' < q' <= rd + p') by (eapply (reduced_other N rd p' q' q); [split; assumption | lia | exact Eq' | exact Hq']).
  assert (Hred : reduced N rd p' q' q) by (unfold reduced; split; [lia|]; split; [exact Eq' | split; assumption]).
  exists p', q'. split; [|split; [exact Hred | reflexivity]].
  destruct (Z.ltb_spec p' p) as [L|L].
  - assert (0 <= b * (p - p')) by nia. assert (Hbd : b * (p - p') <= rd + p') by (unfold q' in HR; lia).
    rewrite sub_ok by (apply Rg; lia). cbn [bind]. rewrite mul_ok by (apply Rg; lia). cbn [bind]. rewrite add_ok by (apply Rg; fold q'; lia). reflexivity.
  - assert (0 <= b * (p' - p)) by nia. assert (Hbd : b * (p' - p) <= qm1) by (unfold q' in HR; nia).
    rewrite sub_ok by (apply Rg; lia). cbn [bind]. rewrite mul_ok by (apply Rg; lia). cbn [bind].
    replace (qm1 - b * (p' - p)) with q' by (unfold q'; ring). unfold sub_. replace (qm1 - b * (p' - p)) with q' by (unfold q'; ring).
    assert (Er : in_range t q') by (apply Rg; lia). apply in_rangeb_spec in Er. unfold wrapz. rewrite Er. reflexivity.
Qed.

(** The point where the backward walk stops. *)
Definition turning (N rd u : Z) : Prop :=
  exists v vm1, reduced N rd u v vm1 /\ ((rd + u) / v) * v = 2 * u.

Lemma sq_backward_spec : forall pf t fuel N rd u v vm1, valid_ity t -> in_range t N -> rd = Z.sqrt N -> rd * rd < N -> reduced N rd u v vm1 ->
  run False True (fun x => turning N rd x) (sq_backward pf t fuel rd u v vm1).
Proof.
  intros pf t fuel N rd u v vm1 Ht HN Erd Hns Hred. unfold sq_backward.
  apply (run_loop _ _ _ _ (fun '(u, v, vm1) => reduced N rd u v vm1)); [exact Hred | exact I |].
  intros [[u1 v1] w1] HR. destruct (sq_rho_spec pf t N rd u1 v1 w1 Ht HN Erd Hns HR) as [p' [q' [-> [HR' Ep]]]]. cbn [bind].
  destruct (Z.eqb_spec p' u1) as [E|E]; cbn [run].
  - exists v1, w1. split; [exact HR | lia].
  - exact HR'.
Qed.

(** Two loops whose bodies agree on an invariant agree. *)
Lemma niter_ext_inv : forall S R (I : S -> Prop) (f g : S -> res (step S R)),
  (forall s, I s -> f s = g s /\ (forall s', f s = Ret (Next s') -> I s')) ->
  forall n s, I s -> niter f n s = niter g n s.
Proof.
  intros S R I f g H. induction n as [|n IH]; intros s Hs; [reflexivity|]. cbn [niter]. destruct (H s Hs) as [E K]. rewrite <- E.
  destruct (f s) as [[s'|x]| |] eqn:Ef; cbn [kbind bind]; try reflexivity. apply IH, K. reflexivity.
Qed.
Lemma iter_ext_inv : forall S R (I : S -> Prop) (f g : S -> res (step S R)),
  (forall s, I s -> f s = g s /\ (forall s', f s = Ret (Next s') -> I s')) ->
  forall n s, I s -> iter n f s = iter n g s.
Proof. intros S R I f g H n s Hs. rewrite !iter_niter. eapply niter_ext_inv; eassumption. Qed.
Lemma loop_ext_inv : forall S R (I : S -> Prop) (f g : S -> res (step S R)),
  (forall s, I s -> f s = g s /\ (forall s', f s = Ret (Next s') -> I s')) ->
  forall n s, I s -> loop n f s = loop n g s.
Proof. intros S R I f g H n s Hs. unfold loop. erewrite iter_ext_inv; [reflexivity | exact H | exact Hs]. Qed.

(** Both profiles run the same backward walk. *)
Lemma sq_backward_profile : forall pf1 pf2 t fuel N rd u v vm1, valid_ity t -> in_range t N -> rd = Z.sqrt N -> rd * rd < N -> reduced N rd u v vm1 ->
  sq_backward pf1 t fuel rd u v vm1 = sq_backward pf2 t fuel rd u v vm1.
Proof.
  intros pf1 pf2 t fuel N rd u v vm1 Ht HN Erd Hns Hred. unfold sq_backward.
  apply (loop_ext_inv _ _ (fun '(u, v, vm1) => reduced N rd u v vm1)); [|exact Hred].
  intros [[u1 v1] w1] HR. destruct (sq_rho_spec pf1 t N rd u1 v1 w1 Ht HN Erd Hns HR) as [p' [q' [E1 [HR' Ep]]]].
  destruct (sq_rho_spec pf2 t N rd u1 v1 w1 Ht HN Erd Hns HR) as [p2 [q2 [E2 [HR2 Ep2]]]]. rewrite E1, E2. cbn [bind].
  assert (p2 = p') as -> by lia. assert (q2 = q') as ->.
  { destruct HR' as [Hp [Ee [Hq Hm]]], HR2 as [_ [Ee2 _]]. nia. }
  split; [reflexivity|]. intros s' E. destruct (p' =? u1); [discriminate|]. injection E as <-. exact HR'.
Qed.

(** The walk back starts from a reduced triple with an exact square root in it. *)
Lemma sq_start : forall N rd p q qm1 rq, rd = Z.sqrt N -> 0 <= N -> rd * rd < N -> reduced N rd p q qm1 -> 0 <= rq -> rq * rq = q ->
  let u := ((rd - p) / rq) * rq + p in let v := (N - u * u) / rq in
  0 < rq /\ reduced N rd u v rq /\ 0 <= ((rd - p) / rq) * rq <= rd.
Proof.
  intros N rd p q qm1 rq Erd H0 Hns [Hp [E [Hq Hm]]] Hrq Eq u v. pose proof (Z.sqrt_spec N H0) as [_ S2]. rewrite <- Erd in S2. replace (Z.succ rd) with (rd + 1) in S2 by lia.
  assert (Hr0 : 0 < rq) by nia. split; [exact Hr0|].
  pose proof (Z.div_mod (rd - p) rq ltac:(lia)) as Ed. pose proof (Z.mod_pos_bound (rd - p) rq ltac:(lia)) as Hr.
  assert (Hb : 0 <= (rd - p) / rq) by (apply Z.div_pos; lia). set (b := (rd - p) / rq) in *.
  assert (Hu : rd - rq < u <= rd) by (unfold u; lia). assert (Hu0 : p <= u) by (unfold u; nia).
  assert (Ev : v * rq = N - u * u).
  { unfold v. assert (D : (rq | N - u * u)).
    { exists (rq * qm1 - b * (u + p)). rewrite <- E, <- Eq. unfold u. ring. }
    destruct D as [c D]. rewrite D, Z.div_mul by lia. reflexivity. }
  assert (Hrq2 : rd - u < rq <= rd + u) by (split; [lia|]; nia).
  split; [|unfold u in *; nia]. assert (Hv : rd - u < v <= rd + u) by (eapply (reduced_other N rd u v rq); [lia | lia | lia | exact Hrq2]).
  unfold reduced. split; [lia|]. split; [lia|]. split; assumption.
Qed.

Definition sq_inv (N rd k : Z) (st : Z * Z * Z * Z) : Prop :=
  let '(i, p, q, qm1) := st in i = k + 1 /\ reduced N rd p q qm1.

Lemma sq_step_spec : forall f pf t fuel target N rd k st, valid_ity t -> in_range t N -> rd = Z.sqrt N -> rd * rd < N -> 1 <= target ->
  sq_inv N rd k st ->
  run False True (fun r => match r with
    | Next st' => sq_inv N rd (k + 1) st'
    | Done (o, i) => i = k + 1 /\ exists d, o = Some d /\ proper_divisor d target end) (sq_step f pf t fuel target N rd st).
Proof.
  intros f pf t fuel target N rd k [[[i p0] q0] m0] Ht HN Erd Hns H1 [Ei HR]. pose proof (in_range_nonneg _ _ HN) as H0.
  unfold sq_step. destruct (sq_rho_spec pf t N rd p0 q0 m0 Ht HN Erd Hns HR) as [p [q [-> [HR' _]]]]. cbn [bind].
  assert (Rg : forall x, 0 <= x <= 2 * rd -> in_range t x) by (intros x Hx; eapply self_range; [exact Ht | exact HN | rewrite <- Erd; lia]).
  pose proof HR' as [Hp [E [Hq Hm]]].
  apply run_bind. destruct (Z.odd i).
  - destruct (sqrt_exact_lawful f pf t q (Rg q ltac:(lia)) ltac:(lia)) as [o [-> Ho]]. cbn [bind].
    destruct o as [rq|]; [|cbn [run sq_inv]; split; [lia | exact HR']].
    cbn [exact_root] in Ho. destruct Ho as [Hrq Eq]. rewrite Z.pow_2_r in Eq.
    destruct (sq_start N rd p q q0 rq Erd H0 Hns HR' Hrq Eq) as [Hr0 [HRu Hb]]. cbv zeta in HRu.
    rewrite sub_ok by (apply Rg; lia). cbn [bind]. rewrite div_ok by lia. cbn [bind]. rewrite mul_ok by (apply Rg; lia). cbn [bind].
    pose proof HRu as [Hu [Eu _]]. rewrite add_ok by (apply Rg; lia). cbn [bind]. set (u := (rd - p) / rq * rq + p) in *.
    assert (Huu : u * u <= rd * rd) by nia.
    rewrite mul_ok by (eapply in_range_le; [|exact HN]; nia). cbn [bind]. rewrite sub_ok by (eapply in_range_le; [|exact HN]; nia). cbn [bind].
    rewrite div_ok by lia. cbn [bind]. apply run_bind.
    eapply run_mono; [apply (sq_backward_spec pf t fuel N rd u _ rq Ht HN Erd Hns HRu) | auto | auto |]. intros u' Hu'. cbv zeta. cbn [run]. unfold ext_gcd.
    destruct (Z.ltb_spec 1 (Z.gcd target u')); cbn [andb]; [destruct (Z.ltb_spec (Z.gcd target u') target)|]; cbn [run sq_inv]; try (split; [lia | exact HR']).
    split; [lia|]. eexists. split; [reflexivity|]. split; [lia|]. split; [lia | apply Z.gcd_divide_l].
  - cbn [run sq_inv]. split; [lia | exact HR'].
Qed.

Lemma sq_init : forall t N, valid_ity t -> in_range t N -> 1 <= N -> Z.sqrt N * Z.sqrt N < N -> reduced N (Z.sqrt N) (Z.sqrt N) (N - Z.sqrt N * Z.sqrt N) 1.
Proof.
  intros t N Ht HN H1 Hns. pose proof (Z.sqrt_spec N ltac:(lia)) as [_ S2]. assert (1 <= Z.sqrt N) by (apply Z.sqrt_le_square; lia).
  unfold reduced. split; [lia|]. split; [ring|]. split; lia.
Qed.

Theorem squfof_spec : forall f pf t fuel target N maxi, valid_ity t -> 1 <= target -> 1 <= N -> in_range t N -> (target | N) -> 0 <= maxi ->
  (~ exists r, r * r = N) ->
  run False True (fun x => 0 <= snd x <= maxi /\ (forall d, fst x = Some d -> proper_divisor d target)) (squfof f pf t fuel target N maxi).
Proof.
  intros f pf t fuel target N maxi Ht H1 HN1 HN Hd Hm Hsq. unfold squfof, ext_sqrt. rewrite rem_ok by lia. cbn [bind].
  replace (N mod target =? 0) with true by (symmetry; apply Z.eqb_eq, mod0_divide; [lia | exact Hd]). cbn [negb].
  pose proof (Z.sqrt_spec N ltac:(lia)) as [S1 S2]. pose proof (Z.sqrt_nonneg N).
  assert (Hns : Z.sqrt N * Z.sqrt N < N) by (assert (Z.sqrt N * Z.sqrt N <> N) by (intros C; apply Hsq; eauto); lia).
  rewrite mul_ok by (eapply in_range_le; [|exact HN]; nia). cbn [bind]. rewrite sub_ok by (eapply in_range_le; [|exact HN]; nia). cbn [bind].
  replace (N - Z.sqrt N * Z.sqrt N =? 0) with false by (symmetry; apply Z.eqb_neq; lia).
  destruct (Z.le_gt_cases maxi 1) as [Hle|Hgt].
  { rewrite iter_le0 by lia. cbn [bind run fst snd]. split; [lia | discriminate]. }
  apply run_bind. eapply run_mono; [apply (run_iter_count _ _ False True (sq_inv N (Z.sqrt N)) (fun k x => snd x = k + 1 /\ exists d, fst x = Some d /\ proper_divisor d target)); [lia | | ] | auto | auto |].
  - cbn [sq_inv]. split; [lia|]. eapply sq_init; eassumption.
  - intros k s Hk HI. eapply run_mono; [apply (sq_step_spec f pf t fuel target N (Z.sqrt N) k s Ht HN eq_refl Hns H1 HI) | auto | auto |].
    intros [x|[o i]] H2; cbn beta iota in *; [exact H2 | exact H2].
  - intros [x|[o i]] H2; cbn beta iota in *; cbn [run fst snd].
    + split; [lia | discriminate].
    + destruct H2 as [k [Hk [Ei [d [Eo Hpd]]]]]. cbn [fst snd] in *. split; [lia|]. intros d' E'. rewrite Eo in E'. injection E' as <-. exact Hpd.
Qed.

Theorem squfof_profile : forall f pf1 pf2 t fuel target N maxi, valid_ity t -> 1 <= target -> 1 <= N -> in_range t N ->
  squfof f pf1 t fuel target N maxi = squfof f pf2 t fuel target N maxi.
Proof.
  intros f pf1 pf2 t fuel target N maxi Ht H1 HN1 HN. unfold squfof, ext_sqrt. rewrite rem_ok by lia. cbn [bind].
  destruct (negb _); [reflexivity|]. pose proof (Z.sqrt_spec N ltac:(lia)) as [S1 S2]. pose proof (Z.sqrt_nonneg N).
  rewrite !mul_ok by (eapply in_range_le; [|exact HN]; nia). cbn [bind]. rewrite !sub_ok by (eapply in_range_le; [|exact HN]; nia). cbn [bind].
  destruct (Z.eqb_spec (N - Z.sqrt N * Z.sqrt N) 0) as [E0|E0]; [reflexivity|]. assert (Hns : Z.sqrt N * Z.sqrt N < N) by lia.
  match goal with |- bind ?m _ = bind ?m' _ => cut (m = m'); [intros ->; reflexivity|] end. apply (iter_ext_inv _ _ (fun st => exists k, sq_inv N (Z.sqrt N) k st)).
  2:{ exists 0. cbn [sq_inv]. split; [lia|]. eapply sq_init; eassumption. }
  intros st [k HI]. pose proof (sq_step_spec f pf1 t fuel target N (Z.sqrt N) k st Ht HN eq_refl Hns H1 HI) as Hrun.
  split; [|intros s' E; rewrite E in Hrun; cbn [run] in Hrun; eauto]. clear Hrun.
  set (rd := Z.sqrt N) in *. assert (Erd : rd = Z.sqrt N) by reflexivity. clearbody rd.
  destruct st as [[[i p0] q0] m0]. destruct HI as [Ei HR]. unfold sq_step.
  destruct (sq_rho_spec pf1 t N rd p0 q0 m0 Ht HN Erd Hns HR) as [p [q [E1 [HR' Ep]]]].
  destruct (sq_rho_spec pf2 t N rd p0 q0 m0 Ht HN Erd Hns HR) as [p2 [q2 [E2 [HR2 Ep2]]]]. rewrite E1, E2. cbn [bind].
  assert (p2 = p) as -> by lia. assert (q2 = q) as ->.
  { destruct HR' as [Hp [Ee [Hq Hm]]], HR2 as [_ [Ee2 _]]. nia. }
  match goal with |- bind ?m _ = bind ?m' _ => cut (m = m'); [intros ->; reflexivity|] end. destruct (Z.odd i); [|reflexivity].
  assert (Rg : forall x, 0 <= x <= 2 * rd -> in_range t x) by (intros x Hx; eapply self_range; [exact Ht | exact HN | rewrite <- Erd; lia]).
  pose proof HR' as [Hp [E [Hq Hm]]].
  destruct (sqrt_exact_lawful f pf1 t q (Rg q ltac:(lia)) ltac:(lia)) as [o [-> Ho]].
  destruct (sqrt_exact_lawful f pf2 t q (Rg q ltac:(lia)) ltac:(lia)) as [o' [-> Ho']]. cbn [bind].
  assert (o' = o) as ->.
  { destruct o as [a|], o' as [b|]; cbn [exact_root] in Ho, Ho'; try reflexivity.
    - destruct Ho as [Ha1 Ha2], Ho' as [Hb1 Hb2]. rewrite Z.pow_2_r in *. f_equal. nia.
    - exfalso. destruct Ho as [Ha1 Ha2]. eapply Ho'; eassumption.
    - exfalso. destruct Ho' as [Ha1 Ha2]. eapply Ho; eassumption. }
  destruct o as [rq|]; [|reflexivity]. cbn [exact_root] in Ho. destruct Ho as [Hrq Eq]. rewrite Z.pow_2_r in Eq.
  destruct (sq_start N rd p q q0 rq Erd ltac:(lia) Hns HR' Hrq Eq) as [Hr0 [HRu Hb]]. cbv zeta in HRu.
  rewrite !sub_ok by (apply Rg; lia). cbn [bind]. rewrite div_ok by lia. cbn [bind]. rewrite !mul_ok by (apply Rg; lia). cbn [bind].
  pose proof HRu as [Hu [Eu _]]. rewrite !add_ok by (apply Rg; lia). cbn [bind]. set (u := (rd - p) / rq * rq + p) in *.
  assert (Huu : u * u <= rd * rd) by nia.
  rewrite !mul_ok by (eapply in_range_le; [|exact HN]; nia). cbn [bind]. rewrite !sub_ok by (eapply in_range_le; [|exact HN]; nia). cbn [bind].
  rewrite div_ok by lia. cbn [bind]. rewrite (sq_backward_profile pf1 pf2 t fuel N rd u _ rq Ht HN Erd Hns HRu). reflexivity.
Qed.

(** ** Pollard's rho on Montgomery residues computes the same walk *)
Section RhoMint.
Variables (f : feature) (pf : profile) (t : ity) (n offset : Z).
Hypotheses (Ht : valid_ity t) (Hn : in_range t n) (H1 : 1 <= n) (Ho : Z.odd n = true) (Hoff : 0 <= offset < n).

Definition rho_sim (su : rho_state (T := Z)) (sm : rho_state (T := mint)) : Prop :=
  0 <= r_a su < n /\ 0 <= r_b su < n /\ 0 <= r_z su < n /\
  r_a sm = MR (r_a su) n /\ r_b sm = MR (r_b su) n /\ r_z sm = MR (r_z su) n /\
  r_i sm = r_i su /\ r_j sm = r_j su /\ r_bt sm = r_bt su /\
  (r_bt su = false -> 0 <= r_s su < n /\ r_s sm = MR (r_s su) n).
Definition rho_res (r : step (rho_state (T := Z)) (option Z * Z)) (r' : step (rho_state (T := mint)) (option mint * Z)) : Prop :=
  match r, r' with
  | Next a, Next b => rho_sim a b
  | Done (o, i), Done (o', i') => i' = i /\ o' = option_map ML o
  | _, _ => False
  end.

Lemma rho_step_sim : forall su sm, rho_sim su sm ->
  match rho_step pf (uops f pf t) n offset su, rho_step pf (mops pf t) (ML n) (MR offset n) sm with
  | Ret r, Ret r' => rho_res r r'
  | Panic, Panic => True
  | NoFuel, NoFuel => True
  | _, _ => False
  end.
Proof.
  intros su sm (Ha & Hb & Hz & Ea & Eb & Ez & Ei & Ej & Ebt & Es). unfold rho_step. rewrite Ei, Ej, Ebt, Ea, Eb, Ez.
  destruct (add_ pf usize (r_i su) 1) as [i| |]; cbn [bind]; try exact I.
  cbn [uops mops o_sqm o_addm o_eqb o_ltb o_sub o_mulm o_is_zero o_rem o_gcd o_is_one mint_unop]. unfold ext_sqm, ext_addm, ext_mulm. rewrite Z.eqb_refl. cbn [bind].
  rewrite rem_ok by lia. cbn [bind]. rewrite rem_ok by lia. cbn [bind mint_coreop]. rewrite Z.eqb_refl. cbn [andb bind].
  pose proof (Z.mod_pos_bound ((r_a su * r_a su) mod n + offset) n ltac:(lia)) as Hm. set (a := ((r_a su * r_a su) mod n + offset) mod n) in *.
  cbn [mint_eqb]. rewrite Z.eqb_refl. cbn [bind]. destruct (Z.eqb_spec a (r_b su)) as [C|C]; [cbn [rho_res]; auto|].
  unfold mint_ltb. rewrite Z.eqb_refl. cbn [mint_val bind].
  assert (Hd : exists d, 0 <= d < n /\ (if a <? r_b su then sub_ pf t (r_b su) a else sub_ pf t a (r_b su)) = Ret d
     /\ (if a <? r_b su then mint_binop (sub_ pf t) Z.sub (MR (r_b su) n) (MR a n) else mint_binop (sub_ pf t) Z.sub (MR a n) (MR (r_b su) n)) = Ret (MR d n)).
  { cbn [mint_binop]. rewrite Z.eqb_refl. destruct (Z.ltb_spec a (r_b su)).
    - exists (r_b su - a). split; [lia|]. rewrite sub_ok by (eapply in_range_le; [|exact Hn]; lia). rewrite (Z.mod_small (r_b su - a)) by lia. auto.
    - exists (a - r_b su). split; [lia|]. rewrite sub_ok by (eapply in_range_le; [|exact Hn]; lia). rewrite (Z.mod_small (a - r_b su)) by lia. auto. }
  destruct Hd as [d [Hd [-> ->]]]. cbn [bind mint_coreop]. rewrite Z.eqb_refl. cbn [andb bind]. rewrite rem_ok by lia. cbn [bind mint_val].
  pose proof (Z.mod_pos_bound (r_z su * d) n ltac:(lia)) as Hz'. set (z := (r_z su * d) mod n) in *.
  destruct (z =? 0).
  - destruct (r_bt su) eqn:Eb'; [cbn [rho_res]; auto|]. unfold o_one, o_const. cbn [uops mops o_from]. rewrite from_prim_ok by (apply valid_one, Ht).
    cbn [option_map unwrap bind mint_rem]. rewrite rem_ok by lia. unfold reduced_new. rewrite Ho. cbn [bind].
    destruct (Es eq_refl) as [Hs1 Hs2]. pose proof (Z.mod_pos_bound 1 n ltac:(lia)).
    cbn [rho_res]. unfold rho_sim. cbn [r_a r_b r_z r_i r_j r_s r_bt]. rewrite Hs2. repeat (split; [auto; lia|]). discriminate.
  - set (check := (i =? r_j su) || (Z.land i 127 =? 0) || r_bt su). unfold mint_gcd, ext_gcd. cbn [mint_val bind mint_eqb].
    destruct check eqn:Ec; cbn [bind mint_val].
    + destruct (Z.gcd z n =? 1); cbn [bind].
      * destruct (i =? r_j su); [destruct (shl_ pf usize (r_j su) 1) as [j'| |]; cbn [bind]; try exact I|];
        cbn [rho_res]; unfold rho_sim; cbn [r_a r_b r_z r_i r_j r_s r_bt]; repeat (split; [auto; lia|]); auto.
      * destruct (Z.gcd z n =? n); cbn [bind]; [|cbn [rho_res option_map]; auto].
        destruct (i =? r_j su); [destruct (shl_ pf usize (r_j su) 1) as [j'| |]; cbn [bind]; try exact I|];
        cbn [rho_res]; unfold rho_sim; cbn [r_a r_b r_z r_i r_j r_s r_bt]; repeat (split; [auto; lia|]); auto.
    + destruct (i =? r_j su); [destruct (shl_ pf usize (r_j su) 1) as [j'| |]; cbn [bind]; try exact I|];
      cbn [rho_res]; unfold rho_sim; cbn [r_a r_b r_z r_i r_j r_s r_bt]; repeat (split; [auto; lia|]); auto.
Qed.

Lemma rho_iter_sim : forall k su sm, rho_sim su sm ->
  match niter (rho_step pf (uops f pf t) n offset) k su, niter (rho_step pf (mops pf t) (ML n) (MR offset n)) k sm with
  | Ret r, Ret r' => rho_res r r'
  | Panic, Panic => True
  | NoFuel, NoFuel => True
  | _, _ => False
  end.
Proof.
  induction k as [|k IH]; intros su sm Hs; cbn [niter]; [exact Hs|]. pose proof (rho_step_sim su sm Hs) as H.
  destruct (rho_step pf (uops f pf t) n offset su) as [[s1|[o i]]| |], (rho_step pf (mops pf t) (ML n) (MR offset n) sm) as [[s2|[o' i']]| |]; cbn [kbind bind rho_res] in *; try contradiction; try exact I; [apply IH; exact H | exact H].
Qed.

Theorem pollard_rho_mint : forall start maxi, 0 <= start < n ->
  pollard_rho pf (mops pf t) (ML n) (MR start n) (MR offset n) maxi =
  ('(o, i) <- pollard_rho pf (uops f pf t) n start offset maxi ;; Ret (option_map ML o, i)).
Proof.
  intros start maxi Hs. unfold pollard_rho, o_one, o_const. cbn [uops mops o_from o_rem]. rewrite from_prim_ok by (apply valid_one, Ht).
  cbn [option_map unwrap bind mint_rem]. rewrite rem_ok by lia. unfold reduced_new. rewrite Ho. cbn [bind]. rewrite !iter_niter.
  pose proof (Z.mod_pos_bound 1 n ltac:(lia)) as Hz.
  pose proof (rho_iter_sim (Z.to_nat maxi) {| r_a := start; r_b := start; r_z := 1 mod n; r_i := 0; r_j := 1; r_s := start; r_bt := false |}
    {| r_a := MR start n; r_b := MR start n; r_z := MR (1 mod n) n; r_i := 0; r_j := 1; r_s := MR start n; r_bt := false |}) as H.
  assert (H' := H ltac:(unfold rho_sim; cbn [r_a r_b r_z r_i r_j r_s r_bt]; repeat (split; [auto; lia|]); auto)). clear H.
  destruct (niter (rho_step pf (uops f pf t) n offset) _ _) as [[s1|[o i]]| |], (niter (rho_step pf (mops pf t) (ML n) (MR offset n)) _ _) as [[s2|[o' i']]| |]; cbn [rho_res] in H'; try contradiction; cbn [bind]; try reflexivity.
  - destruct H' as (_ & _ & _ & _ & _ & _ & E & _). rewrite E. reflexivity.
  - destruct H' as [-> ->]. reflexivity.
Qed.
End RhoMint.
