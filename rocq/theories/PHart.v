(** * How far the one line method has to go: an analogue of Lehman's theorem. *)
From Coq Require Import ZArith Znumtheory List Lia Bool.
From Verif Require Import Base Spec Ext NT PBase MInteger PInteger Ops POps MPrimality PSprp PropSprp MFactor PLucas3 PFactor PFactor2.
Import ListNotations.
Local Open Scope Z_scope.

(** ** Best approximations *)
(** neighbours of B/a among the fractions with denominators up to Q *)
Lemma farey : forall a B Q, 0 < a -> 1 <= Q ->
  exists p q p' q', 1 <= q <= Q /\ 1 <= q' <= Q /\ Q + 1 <= q + q' /\ p' * q - p * q' = 1 /\ p * a <= q * B /\ q' * B < p' * a.
Proof.
  intros a B Q Ha HQ. pattern Q. apply Zlt_lower_bound_ind with (z := 1); [|exact HQ]. clear Q HQ. intros Q IH HQ.
  destruct (Z.eq_dec Q 1) as [->|N].
  { exists (B / a), 1, (B / a + 1), 1. pose proof (Z.div_mod B a ltac:(lia)). pose proof (Z.mod_pos_bound B a Ha). repeat split; nia. }
  destruct (IH (Q - 1) ltac:(lia)) as [p [q [p' [q' [Hq [Hq' [Hs [Hd [Hl Hr]]]]]]]]].
  destruct (Z.le_gt_cases (Q + 1) (q + q')) as [Hc|Hc].
  { exists p, q, p', q'. repeat split; try lia; assumption. }
  assert (Hsum : q + q' = Q) by lia. destruct (Z.le_gt_cases ((p + p') * a) (Q * B)) as [Hm|Hm].
  - exists (p + p'), Q, p', q'. repeat split; try lia; try assumption; rewrite <- Hsum; nia.
  - exists p, q, (p + p'), Q. repeat split; try lia; try assumption; rewrite <- Hsum; nia.
Qed.
(** Dirichlet *)
Lemma dirichlet : forall a B Q, 0 < a -> 1 <= Q -> exists v u, 1 <= v <= Q /\ (Q + 1) * Z.abs (v * B - u * a) <= a.
Proof.
  intros a B Q Ha HQ. destruct (farey a B Q Ha HQ) as [p [q [p' [q' [Hq [Hq' [Hs [Hd [Hl Hr]]]]]]]]].
  assert (E : q' * (q * B - p * a) + q * (p' * a - q' * B) = a) by (transitivity (a * (p' * q - p * q')); [ring | rewrite Hd; ring]).
  destruct (Z.le_gt_cases ((Q + 1) * (q * B - p * a)) a) as [C|C].
  { exists q, p. rewrite Z.abs_eq by lia. split; [lia | exact C]. }
  exists q', p'. rewrite Z.abs_neq by lia. split; [lia|]. apply Z.nlt_ge. intros C2. set (e := q * B - p * a) in *. set (e' := p' * a - q' * B) in *. replace (- (q' * B - p' * a)) with e' in C2 by (unfold e'; ring).
  assert ((Q + 1) * a = q' * ((Q + 1) * e) + q * ((Q + 1) * e')) as F by (rewrite <- E at 1; ring).
  assert (q' * (a + 1) <= q' * ((Q + 1) * e)) by (apply Z.mul_le_mono_nonneg_l; lia). assert (q * (a + 1) <= q * ((Q + 1) * e')) by (apply Z.mul_le_mono_nonneg_l; lia).
  assert ((Q + 1) * (a + 1) <= (q + q') * (a + 1)) by (apply Z.mul_le_mono_nonneg_r; lia). lia.
Qed.

(** the difference that has to be small for [v] and [u] *)
Definition close (a B v u : Z) : Prop := 2 * Z.abs (v * B - u * a) < a /\ (v * B - u * a) * (v * B - u * a) < 2 * (u * a + v * B).
Lemma nearest : forall a x, 0 < a -> Z.odd a = true -> exists u, 2 * Z.abs (x - u * a) < a /\ (forall u', 2 * Z.abs (x - u' * a) < a -> u' = u).
Proof.
  intros a x Ha Ho. apply Z.odd_spec in Ho. destruct Ho as [h Ho]. pose proof (Z.div_mod (x + h) a ltac:(lia)) as D. pose proof (Z.mod_pos_bound (x + h) a Ha) as Bm.
  exists ((x + h) / a). set (u := (x + h) / a) in *. split; [replace (u * a) with (a * u) by ring; lia|]. intros u' H. replace (u' * a) with (a * u') in H by ring. nia.
Qed.
Lemma close_dec : forall a B v, 0 < a -> Z.odd a = true -> (exists u, close a B v u) \/ (forall u, ~ close a B v u).
Proof.
  intros a B v Ha Ho. destruct (nearest a (v * B) Ha Ho) as [u [Hu Un]].
  destruct (Z.lt_ge_cases ((v * B - u * a) * (v * B - u * a)) (2 * (u * a + v * B))) as [C|C]; [left; exists u; split; assumption|].
  right. intros u' [H1 H2]. apply Un in H1. subst. lia.
Qed.
(** if nothing up to [V] is close then [V + 1] is below a / sqrt(3B) *)
Lemma far_bound : forall a B V, 1 < a < B -> Z.odd a = true -> 1 <= V -> (forall v u, 1 <= v <= V -> ~ close a B v u) -> 3 * B * ((V + 1) * (V + 1)) <= a * a.
Proof.
  intros a B V Ha Ho HV H. destruct (dirichlet a B V ltac:(lia) HV) as [v [u [Hv Hy]]]. specialize (H v u Hv). unfold close in H. set (y := v * B - u * a) in *.
  assert (Hy2 : 2 * Z.abs y < a). { apply Z.odd_spec in Ho. destruct Ho as [h Ho]. nia. }
  assert (Hbig : 2 * (u * a + v * B) <= y * y) by (apply Z.nlt_ge; intros C; apply H; split; assumption).
  assert (Hx : u * a + v * B = 2 * (v * B) - y) by (unfold y; ring). rewrite Hx in Hbig.
  assert (Hvb : B <= v * B) by nia. assert (3 * B <= y * y) by lia.
  assert (Ey : y * y = Z.abs y * Z.abs y) by (destruct (Z.abs_eq_or_opp y) as [E|E]; rewrite E; ring). rewrite Ey in *.
  assert (((V + 1) * Z.abs y) * ((V + 1) * Z.abs y) <= a * a) by (apply Z.mul_le_mono_nonneg; nia).
  assert ((V + 1) * (V + 1) * (3 * B) <= (V + 1) * (V + 1) * (Z.abs y * Z.abs y)) by (apply Z.mul_le_mono_nonneg_l; [apply Z.mul_nonneg_nonneg; lia | assumption]). lia.
Qed.
Lemma close_exists : forall a B, 1 < a < B -> Z.odd a = true -> exists v u, 1 <= v /\ close a B v u /\ (v = 1 \/ 3 * B * (v * v) <= a * a).
Proof.
  intros a B Ha Ho.
  assert (G : forall V, 0 <= V -> (exists v u, 1 <= v <= V /\ close a B v u /\ (v = 1 \/ 3 * B * (v * v) <= a * a)) \/ (forall v u, 1 <= v <= V -> ~ close a B v u)).
  { apply natlike_ind; [right; intros; lia|]. intros V HV [[v [u [Hv H]]]|H]; [left; exists v, u; split; [lia | exact H]|].
    destruct (close_dec a B (Z.succ V) ltac:(lia) Ho) as [[u Hu]|Hu].
    - left. exists (Z.succ V), u. split; [lia|]. split; [exact Hu|]. destruct (Z.eq_dec V 0) as [->|N]; [left; reflexivity | right]. apply far_bound; [assumption | assumption | lia | exact H].
    - right. intros v u' Hv. destruct (Z.eq_dec v (Z.succ V)) as [->|N]; [apply Hu | apply H; lia]. }
  destruct (G a ltac:(lia)) as [[v [u [Hv H]]]|H]; [exists v, u; split; [lia | exact H]|].
  exfalso. pose proof (far_bound a B a Ha Ho ltac:(lia) H). nia.
Qed.

(** ** From a close pair to a factor *)
(** pass [i] of the one line method on [n] with multiple [K] has the factor [d] *)
Definition hit (n K i d : Z) : Prop :=
  exists t, 0 <= t /\ (Z.sqrt (i * K) + 1) * (Z.sqrt (i * K) + 1) - i * K = t * t /\ d = Z.gcd n (Z.sqrt (i * K) + 1 - t) /\ d <> 1 /\ d <> n.

Lemma close_hit : forall a b c v u, 1 < a < b -> Z.odd a = true -> Z.odd b = true -> 1 <= c < a -> rel_prime a (c * b) -> 1 <= v ->
  close a (c * b) v u -> (v = 1 \/ 3 * (c * b) * (v * v) <= a * a) ->
  exists d, 1 <= u * v /\ hit (a * b) (4 * c * (a * b)) (u * v) d /\ u * v <= Z.max (a / 2) (c * b / a + 1).
Proof.
  intros a b c v u Ha Oa Ob Hc Hrel Hv [Hy1 Hy2] Hv2. set (B := c * b) in *. assert (HB : a < B) by (unfold B; nia).
  set (y := v * B - u * a) in *. set (x := u * a + v * B) in *.
  assert (Hvb : B <= v * B) by nia. assert (Hua : 0 < u * a) by (unfold y in *; lia). assert (Hu : 1 <= u) by nia.
  assert (Hva : v < a) by (destruct Hv2 as [->|H]; [lia | nia]).
  assert (Hcv : c * v < a). { destruct Hv2 as [->|H]; [lia|]. unfold B in H. destruct (Z.lt_ge_cases (c * v) a) as [|C]; [assumption|]. exfalso. assert (a * a <= (c * v) * (c * v)) by (apply Z.mul_le_mono_nonneg; lia). assert (c * (c * (v * v)) < c * (3 * b * (v * v))) by (apply Zmult_lt_compat_l; [lia|]; apply Zmult_lt_compat_r; [apply Z.mul_pos_pos; lia | lia]). lia. }
  assert (Hy0 : y <> 0). { intros E. assert (D : (a | v)). { apply Gauss with B; [exists u; unfold y in E; lia | exact Hrel]. } apply Z.divide_pos_le in D; lia. }
  assert (Ei : (u * v) * (4 * c * (a * b)) = x * x - y * y) by (unfold x, y, B; ring).
  assert (Es : Z.sqrt (u * v * (4 * c * (a * b))) + 1 = x). { rewrite Ei. replace (Z.sqrt (x * x - y * y)) with (x - 1); [ring|]. symmetry. apply Z.sqrt_unique. unfold x in *. nia. }
  exists (Z.gcd (a * b) (x - Z.abs y)). split; [nia|]. split.
  - exists (Z.abs y). rewrite Es, Ei. split; [lia|]. split; [destruct (Z.abs_eq_or_opp y) as [E|E]; rewrite E; ring|]. split; [reflexivity|].
    assert (O2 : forall m, Z.odd m = true -> rel_prime m 2). { intros m Om. apply rel_prime_sym. apply prime_rel_prime; [exact prime_2|]. intros [k E]. rewrite E, Z.odd_mul, andb_false_r in Om. discriminate. }
    destruct (Z.lt_ge_cases 0 y) as [Hp|Hp].
    + replace (x - Z.abs y) with (2 * u * a) by (rewrite Z.abs_eq by lia; unfold x, y; ring). split.
      * intros E. assert (D : (a | Z.gcd (a * b) (2 * u * a))) by (apply Z.gcd_greatest; [exists b; ring | exists (2 * u); ring]). rewrite E in D. apply Z.divide_pos_le in D; lia.
      * intros E. assert (D : (a * b | 2 * u * a)) by (rewrite <- E; apply Z.gcd_divide_r). destruct D as [k D]. assert (D2 : (b | 2 * u)) by (exists k; nia).
        apply Gauss in D2; [|apply O2; exact Ob]. apply Z.divide_pos_le in D2; [|lia]. unfold y, B in Hp. nia.
    + replace (x - Z.abs y) with (2 * v * c * b) by (rewrite Z.abs_neq by lia; unfold x, y, B; ring). split.
      * intros E. assert (D : (b | Z.gcd (a * b) (2 * v * c * b))) by (apply Z.gcd_greatest; [exists a; ring | exists (2 * v * c); ring]). rewrite E in D. apply Z.divide_pos_le in D; lia.
      * intros E. assert (D : (a * b | 2 * v * c * b)) by (rewrite <- E; apply Z.gcd_divide_r). destruct D as [k D]. assert (D2 : (a | 2 * (c * v))) by (exists k; nia).
        apply Gauss in D2; [|apply O2; exact Oa]. apply Z.divide_pos_le in D2; nia.
  - assert (Hbd : 2 * (u * a) <= 2 * (v * B) + a) by (unfold y in *; lia). destruct Hv2 as [-> | H].
    + apply Z.le_trans with (B / a + 1); [|lia]. pose proof (Z.div_mod B a ltac:(lia)). pose proof (Z.mod_pos_bound B a ltac:(lia)). nia.
    + apply Z.le_trans with (a / 2); [|lia]. apply Z.div_le_lower_bound; [lia|].
      destruct (Z.eq_dec v 1) as [->|N1].
      * assert (3 * B <= a * a) by lia. assert (2 * u * a <= a * a) by nia. nia.
      * assert (H3 : 3 * (v * v) < a) by (apply Zmult_lt_reg_r with B; [lia|]; assert (a * a < a * B) by (apply Zmult_lt_compat_l; lia); lia). assert (2 * v <= v * v) by (apply Z.mul_le_mono_nonneg_r; lia).
        assert (v * (2 * (u * a)) <= v * (2 * (v * B) + a)) by (apply Z.mul_le_mono_nonneg_l; lia). assert (2 * v * a <= v * v * a) by (apply Z.mul_le_mono_nonneg_r; lia).
        assert (3 * (v * v) * a <= a * a) by (apply Z.mul_le_mono_nonneg_r; lia). apply Zmult_le_reg_r with (3 * a); lia.
Qed.

(** ** The run stops at the first hit *)
Definition no_hit (n K k : Z) : Prop := forall j d, 1 <= j <= k -> ~ hit n K j d.
Lemma hit_unique : forall n K i d m x, hit n K i d -> (Z.sqrt (i * K) + 1) * (Z.sqrt (i * K) + 1) - i * K = m -> 0 <= x -> x * x = m -> d = Z.gcd n (Z.sqrt (i * K) + 1 - x).
Proof. intros n K i d m x [t [Ht [Et [Ed _]]]] Em Hx Ex. replace x with t; [exact Ed|]. rewrite Em in Et. assert (t * t = x * x) by lia. nia. Qed.

Theorem one_line_first : forall f pf t n K maxi, valid_ity t -> 1 <= n -> 1 <= K -> in_range t K -> (n | K) -> 0 <= maxi ->
  run (pf = Debug /\ exists j, 1 <= j < maxi /\ ~ ol_safe t (j * K) /\ no_hit n K (j - 1)) False
    (fun x => match fst x with
              | Some d => 1 <= snd x < maxi /\ hit n K (snd x) d /\ no_hit n K (snd x - 1)
              | None => forall j d, 1 <= j < maxi -> in_range t (j * K) -> ~ hit n K j d end)
    (one_line f pf t n K maxi).
Proof.
  intros f pf t n K maxi Ht H1 Hm Hr Hd Hmax. unfold one_line. rewrite rem_ok by lia. cbn [bind].
  replace (K mod n =? 0) with true by (symmetry; apply Z.eqb_eq, mod0_divide; [lia | exact Hd]). cbn [negb].
  destruct (Z.le_gt_cases maxi 1) as [Hle|Hgt].
  { rewrite iter_le0 by lia. cbn [bind run fst snd]. intros; lia. }
  set (pan := pf = Debug /\ _). apply run_bind.
  eapply run_mono; [apply (run_iter_count _ _ pan False (fun k st => ol_inv t K k st /\ no_hit n K k)
    (fun k x => match fst x with Some d => snd x = k + 1 /\ hit n K (k + 1) d /\ no_hit n K k | None => no_hit n K (k + 1) /\ ~ in_range t ((k + 2) * K) end)); [lia | | ] | auto | auto | ].
  - split; [unfold ol_inv; cbn [fst snd]; split; [lia|]; split; [lia | exact Hr]|]. intros j d Hj. lia.
  - intros k [i ikn] Hk [[Ei [En Hin]] Hno]. cbn [fst snd] in *. unfold ol_step. unfold ext_sqrt.
    rewrite add_ok by (apply sqrt1_range; assumption). cbn [bind].
    assert (Hpos : 1 <= ikn) by nia.
    destruct (sqrt_next_cases pf t ikn Ht Hin) as [E|[Ed [Hu E]]].
    2:{ rewrite E. cbn [bind run]. split; [exact Ed|]. exists (k + 1). rewrite <- En. split; [lia|]. split; [exact Hu|]. replace (k + 1 - 1) with k by lia. exact Hno. }
    destruct (mul_ pf t (Z.sqrt ikn + 1) (Z.sqrt ikn + 1)) as [ss| |]; cbn [bind] in E |- *; try discriminate. rewrite E. cbn [bind].
    pose proof (Z.sqrt_spec ikn ltac:(lia)) as [S1 S2]. pose proof (Z.sqrt_nonneg ikn) as S0.
    assert (HU : forall d m x, hit n K (k + 1) d -> (Z.sqrt ikn + 1) * (Z.sqrt ikn + 1) - ikn = m -> 0 <= x -> x * x = m -> d = Z.gcd n (Z.sqrt ikn + 1 - x)) by (rewrite En; intros; eapply hit_unique; eassumption).
    assert (HH : forall x, 0 <= x -> (Z.sqrt ikn + 1) * (Z.sqrt ikn + 1) - ikn = x * x -> Z.gcd n (Z.sqrt ikn + 1 - x) <> 1 -> Z.gcd n (Z.sqrt ikn + 1 - x) <> n -> hit n K (k + 1) (Z.gcd n (Z.sqrt ikn + 1 - x)))
      by (rewrite En; intros x Hx0 Hx1 Hx2 Hx3; exists x; repeat match goal with |- _ /\ _ => split end; try assumption; reflexivity).
    assert (HN : forall d, hit n K (k + 1) d -> exists x, 0 <= x /\ (Z.sqrt ikn + 1) * (Z.sqrt ikn + 1) - ikn = x * x /\ d <> 1 /\ d <> n) by (rewrite En; intros d [x [Hx0 [Hx1 [_ Hx2]]]]; exists x; tauto).
    set (s := Z.sqrt ikn) in *. replace (Z.succ s) with (s + 1) in S2 by lia.
    set (m := (s + 1) * (s + 1) - ikn) in *. assert (Hm0 : 0 < m) by (unfold m; lia).
    assert (Hmr : in_range t m) by (eapply self_range; [exact Ht | exact Hin|]; fold s; unfold m; nia).
    destruct (sqrt_exact_lawful f pf t m Hmr Hm0) as [o [-> Ho]]. cbn [bind].
    assert (F : exists fo, (match o with Some x => d <- sub_ pf t (s + 1) x ;; let g := ext_gcd n d in Ret (if negb (g =? 1) && negb (g =? n) then Some g else None) | None => Ret None end) = Ret fo
                 /\ match fo with Some d => hit n K (k + 1) d | None => forall d, ~ hit n K (k + 1) d end).
    { destruct o as [x|]; cbn [exact_root] in Ho.
      - destruct Ho as [Hx0 Hx]. rewrite Z.pow_2_r in Hx.
        rewrite sub_ok by (eapply in_range_le; [|apply (sqrt1_range t ikn Ht Hin)]; fold s; unfold m in Hx; nia). cbn [bind]. cbv zeta. unfold ext_gcd.
        eexists. split; [reflexivity|]. destruct (Z.eqb_spec (Z.gcd n (s + 1 - x)) 1) as [C1|C1]; cbn [negb andb].
        { intros d Hh. pose proof (HU d m x Hh eq_refl Hx0 Hx) as Ed. destruct (HN d Hh) as [x' [_ [_ [C _]]]]. congruence. }
        destruct (Z.eqb_spec (Z.gcd n (s + 1 - x)) n) as [C2|C2]; cbn [negb andb].
        { intros d Hh. pose proof (HU d m x Hh eq_refl Hx0 Hx) as Ed. destruct (HN d Hh) as [x' [_ [_ [_ C]]]]. congruence. }
        apply HH; try assumption. symmetry. exact Hx.
      - exists None. split; [reflexivity|]. intros d Hh. destruct (HN d Hh) as [x [Hx0 [Hx1 _]]]. apply (Ho x Hx0). rewrite Z.pow_2_r. symmetry. exact Hx1. }
    destruct F as [fo [EF HF]]. cbv zeta in EF |- *. rewrite EF. cbn [bind]. destruct fo as [g|].
    + cbn [run fst snd]. split; [exact Ei|]. split; [exact HF | exact Hno].
    + assert (Hno' : no_hit n K (k + 1)) by (intros j d Hj; destruct (Z.eq_dec j (k + 1)) as [->|N]; [apply HF | apply Hno; lia]).
      destruct (checked t (ikn + K)) as [n'|] eqn:Ec.
      * apply checked_inv in Ec. destruct Ec as [-> Hn]. cbn [run]. split; [|exact Hno']. unfold ol_inv. cbn [fst snd]. split; [lia|]. split; [rewrite En; ring | exact Hn].
      * cbn [run fst snd]. split; [exact Hno'|]. intros C. replace ((k + 2) * K) with (ikn + K) in C by (rewrite En; ring). apply checked_none in Ec. contradiction.
  - intros [st|[o i]] HR; cbn beta iota in *; cbn [run fst snd].
    + destruct HR as [_ HR]. intros j d Hj _. apply HR. lia.
    + destruct HR as [k [Hk H]]. cbn [fst snd] in *. destruct o as [d|].
      * destruct H as [-> [Hh Hno]]. split; [lia|]. split; [exact Hh|]. replace (k + 1 - 1) with k by lia. exact Hno.
      * destruct H as [Hno Hor]. intros j d Hj Hjr. apply Hno. split; [lia|]. apply Z.nlt_ge. intros C. apply Hor. eapply in_range_le; [|exact Hjr]. nia.
Qed.
