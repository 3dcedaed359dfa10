(** * Exact roots and bit operations (src/integer.rs, src/traits.rs). *)
From Coq Require Import ZArith Znumtheory Zpow_facts List Lia Bool.
From Verif Require Import Base Spec Ext NT PBase Tables MInteger.
Import ListNotations.
Local Open Scope Z_scope.

(** ** Integer roots *)
Lemma iroot_bits_spec : forall k n, 1 <= k -> forall i r, 0 <= r -> r ^ k <= n < (r + 2 ^ Z.of_nat i) ^ k ->
  let q := iroot_bits k n i r in 0 <= q /\ q ^ k <= n < (q + 1) ^ k.
Proof.
  intros k n Hk. induction i as [|i IH]; intros r Hr H; cbn [iroot_bits].
  - change (Z.of_nat 0) with 0 in H. rewrite Z.pow_0_r in H. cbv zeta. auto.
  - assert (H2 : 0 < 2 ^ Z.of_nat i) by (apply Z.pow_pos_nonneg; lia).
    rewrite Nat2Z.inj_succ, Z.pow_succ_r in H by lia.
    destruct ((r + 2 ^ Z.of_nat i) ^ k <=? n) eqn:E.
    + apply Z.leb_le in E. apply IH; [lia|]. split; [exact E|].
      replace (r + 2 ^ Z.of_nat i + 2 ^ Z.of_nat i) with (r + 2 * 2 ^ Z.of_nat i) by ring. lia.
    + apply Z.leb_gt in E. apply IH; [exact Hr|]. lia.
Qed.
Lemma iroot_spec : forall k n, 1 <= k -> 0 <= n -> 0 <= iroot k n /\ iroot k n ^ k <= n < (iroot k n + 1) ^ k.
Proof.
  intros k n Hk Hn. unfold iroot. apply iroot_bits_spec; [exact Hk | lia |].
  rewrite Z.pow_0_l by lia. split; [exact Hn|]. rewrite Z.add_0_l.
  assert (Hl : 0 <= Z.log2 n) by apply Z.log2_nonneg.
  assert (Hd : 0 <= Z.log2 n / k) by (apply Z.div_pos; lia).
  rewrite Z2Nat.id by lia. rewrite <- Z.pow_mul_r by lia.
  destruct (Z.eq_dec n 0) as [->|Hn0]; [apply Z.pow_pos_nonneg; lia|].
  apply Z.lt_le_trans with (2 ^ Z.succ (Z.log2 n)); [apply Z.log2_spec; lia|].
  apply Z.pow_le_mono_r; [lia|]. pose proof (Z_div_mod_eq_full (Z.log2 n) k). pose proof (Z.mod_pos_bound (Z.log2 n) k ltac:(lia)). nia.
Qed.
Lemma pow_lt_inv : forall a b k, 1 <= k -> 0 <= b -> a ^ k < b ^ k -> 0 <= a -> a < b.
Proof.
  intros a b k Hk Hb H Ha. destruct (Z.lt_ge_cases a b) as [L|L]; [exact L|]. exfalso.
  assert (b ^ k <= a ^ k) by (apply Z.pow_le_mono_l; lia). lia.
Qed.
Lemma iroot_unique : forall k n r, 1 <= k -> 0 <= r -> r ^ k <= n < (r + 1) ^ k -> iroot k n = r.
Proof.
  intros k n r Hk Hr H. assert (0 <= n) by (pose proof (Z.pow_nonneg r k Hr); lia).
  destruct (iroot_spec k n Hk H0) as [A B].
  assert (iroot k n < r + 1) by (apply (pow_lt_inv _ _ k); lia).
  assert (r < iroot k n + 1) by (apply (pow_lt_inv _ _ k); lia). lia.
Qed.
Lemma iroot_exact : forall k r, 1 <= k -> 0 <= r -> iroot k (r ^ k) = r.
Proof.
  intros k r Hk Hr. apply iroot_unique; [exact Hk | exact Hr |]. split; [lia|].
  apply Z.pow_lt_mono_l; lia.
Qed.

Lemma pow_opp_odd : forall a k, Z.odd k = true -> 0 <= k -> (- a) ^ k = - a ^ k.
Proof. intros a k Ho Hk. apply Z.pow_opp_odd. apply Z.odd_spec. exact Ho. Qed.

Lemma nth_root_exact_nonneg : forall x k, 1 <= k -> 0 <= x ->
  exists o, nth_root_exact x k = Ret o /\
    match o with Some r => 0 <= r /\ r ^ k = x | None => forall r, 0 <= r -> r ^ k <> x end.
Proof.
  intros x k Hk Hx. unfold nth_root_exact, ext_nth_root.
  replace (k <=? 0) with false by (symmetry; apply Z.leb_gt; lia).
  replace (0 <=? x) with true by (symmetry; apply Z.leb_le; lia). cbn [bind].
  eexists. split; [reflexivity|]. destruct (iroot k x ^ k =? x) eqn:E.
  - apply Z.eqb_eq in E. split; [apply iroot_spec; lia | exact E].
  - apply Z.eqb_neq in E. intros r Hr C. apply E. subst x. rewrite iroot_exact by lia. reflexivity.
Qed.
Lemma nth_root_exact_odd : forall x k, 1 <= k -> Z.odd k = true ->
  exists o, nth_root_exact x k = Ret o /\
    match o with Some r => r ^ k = x | None => forall r, r ^ k <> x end.
Proof.
  intros x k Hk Ho. destruct (Z.lt_ge_cases x 0) as [Hx|Hx].
  - unfold nth_root_exact, ext_nth_root.
    replace (k <=? 0) with false by (symmetry; apply Z.leb_gt; lia).
    replace (0 <=? x) with false by (symmetry; apply Z.leb_gt; lia). rewrite Ho. cbn [bind].
    eexists. split; [reflexivity|]. destruct ((- iroot k (- x)) ^ k =? x) eqn:E.
    + apply Z.eqb_eq in E. exact E.
    + apply Z.eqb_neq in E. intros r C. apply E.
      assert (Hr : 0 <= - r).
      { destruct (Z.lt_ge_cases r 0); [lia|]. pose proof (Z.pow_nonneg r k ltac:(lia)). lia. }
      assert (Hx' : - x = (- r) ^ k) by (rewrite pow_opp_odd by (auto; lia); lia).
      rewrite Hx', iroot_exact by lia. replace (- - r) with r by lia. exact C.
  - destruct (nth_root_exact_nonneg x k Hk Hx) as [o [E H]]. exists o. split; [exact E|].
    destruct o as [r|]; [tauto|]. intros r C. destruct (Z.lt_ge_cases r 0) as [L|L]; [|exact (H r L C)].
    assert (r ^ k = - (- r) ^ k) by (rewrite <- pow_opp_odd by (auto; lia); f_equal; lia).
    pose proof (Z.pow_pos_nonneg (- r) k ltac:(lia) ltac:(lia)). lia.
Qed.

(** ** Trailing zeros *)
Lemma ptz_spec : forall p, 0 <= ptz p /\ exists m, Zpos p = 2 ^ ptz p * m /\ Z.odd m = true.
Proof.
  induction p as [p IH|p IH|]; cbn [ptz].
  - split; [lia|]. exists (Zpos p~1). split; [rewrite Z.pow_0_r; lia | reflexivity].
  - destruct IH as [H0 [m [E Hm]]]. split; [lia|]. exists m. split; [|exact Hm].
    rewrite Z.pow_add_r, Z.pow_1_r by lia. rewrite Pos2Z.inj_xO, E. ring.
  - split; [lia|]. exists 1. split; reflexivity.
Qed.
Lemma ztz_spec : forall n, 0 < n -> 0 <= ztz n /\ exists m, n = 2 ^ ztz n * m /\ Z.odd m = true /\ 0 < m.
Proof.
  intros [|p|p] H; try lia. cbn [ztz]. destruct (ptz_spec p) as [A [m [E Hm]]]. split; [exact A|]. exists m.
  split; [exact E|]. split; [exact Hm|]. pose proof (Z.pow_pos_nonneg 2 (ptz p) ltac:(lia) A). nia.
Qed.
Lemma val2_unique : forall a b m n, 0 <= a -> 0 <= b -> Z.odd m = true -> Z.odd n = true ->
  2 ^ a * m = 2 ^ b * n -> a = b /\ m = n.
Proof.
  assert (W : forall a b m n, 0 <= a < b -> Z.odd m = true -> 2 ^ a * m = 2 ^ b * n -> False).
  { intros a b m n H Hm E. replace b with (a + (1 + (b - a - 1))) in E by ring.
    rewrite !Z.pow_add_r, Z.pow_1_r in E by lia. rewrite <- !Z.mul_assoc in E.
    apply Z.mul_cancel_l in E; [|apply Z.pow_nonzero; lia].
    rewrite E, Z.odd_mul in Hm. discriminate. }
  intros a b m n Ha Hb Hm Hn E. destruct (Z.lt_trichotomy a b) as [L|[L|L]].
  - exfalso. apply (W a b m n); auto; lia.
  - subst b. split; [reflexivity|]. apply Z.mul_cancel_l in E; [exact E | apply Z.pow_nonzero; lia].
  - exfalso. apply (W b a n m); auto; lia.
Qed.
Lemma ztz_eq : forall a m, 0 <= a -> 0 < m -> Z.odd m = true -> ztz (2 ^ a * m) = a.
Proof.
  intros a m Ha Hm Ho. assert (Hp : 0 < 2 ^ a * m) by (pose proof (Z.pow_pos_nonneg 2 a ltac:(lia) Ha); nia).
  destruct (ztz_spec _ Hp) as [A [m' [E [Ho' Hm']]]].
  eapply (val2_unique (ztz (2 ^ a * m)) a m' m); auto.
Qed.
Lemma ztz_pow : forall r k, 0 < r -> 1 <= k -> ztz (r ^ k) = k * ztz r.
Proof.
  intros r k Hr Hk. destruct (ztz_spec r Hr) as [A [m [E [Ho Hm]]]].
  rewrite E at 1. rewrite Z.pow_mul_l, <- Z.pow_mul_r by lia. rewrite ztz_eq; [ring | nia | |].
  - apply Z.pow_pos_nonneg; lia.
  - clear - Ho Hk. assert (H : forall e, 0 <= e -> Z.odd (m ^ e) = true).
    { apply natlike_ind; [reflexivity|]. intros e He IH. rewrite Z.pow_succ_r by lia. rewrite Z.odd_mul, Ho, IH. reflexivity. }
    apply H. lia.
Qed.
Lemma shiftr_ztz : forall r, 0 < r -> exists m, Z.odd m = true /\ 0 < m /\ r = 2 ^ ztz r * m /\ Z.shiftr r (ztz r) = m.
Proof.
  intros r Hr. destruct (ztz_spec r Hr) as [A [m [E [Ho Hm]]]]. exists m. split; [exact Ho|]. split; [exact Hm|].
  split; [exact E|]. rewrite Z.shiftr_div_pow2 by exact A. rewrite E at 1.
  rewrite Z.mul_comm. apply Z.div_mul. apply Z.pow_nonzero; lia.
Qed.

Lemma odd_sq_mod8 : forall m, Z.odd m = true -> (m * m) mod 8 = 1.
Proof.
  intros m H. apply Z.odd_spec in H. destruct H as [k ->].
  replace ((2 * k + 1) * (2 * k + 1)) with (1 + 4 * (k * (k + 1))) by ring.
  assert (exists j, k * (k + 1) = 2 * j) as [j ->].
  { destruct (Z.Even_or_Odd k) as [[j ->]|[j ->]]; [exists (j * (2 * j + 1)) | exists ((2 * j + 1) * (j + 1))]; ring. }
  replace (1 + 4 * (2 * j)) with (1 + j * 8) by ring. rewrite Z_mod_plus_full. reflexivity.
Qed.
Lemma land7 : forall y, Z.land y 7 = y mod 8.
Proof. intros y. change 7 with (Z.ones 3). rewrite Z.land_ones by lia. reflexivity. Qed.
Lemma land1 : forall y, Z.land y 1 = y mod 2.
Proof. intros y. change 1 with (Z.ones 1) at 1. rewrite Z.land_ones by lia. reflexivity. Qed.

(** A positive square passes both filters of sqrt_exact. *)
Lemma square_filters : forall r, 0 < r ->
  Z.land (ztz (r ^ 2)) 1 = 0 /\ Z.land (Z.shiftr (r ^ 2) (ztz (r ^ 2))) 7 = 1.
Proof.
  intros r Hr. split.
  - rewrite ztz_pow, land1 by lia. rewrite Z.mul_comm. apply Z_mod_mult.
  - assert (H2 : 0 < r ^ 2) by (apply Z.pow_pos_nonneg; lia).
    destruct (shiftr_ztz (r ^ 2) H2) as [m [Hm [Hm0 [E ->]]]].
    destruct (ztz_spec r Hr) as [A [n [En [Hn Hn0]]]].
    rewrite ztz_pow in E by lia.
    assert (E' : 2 ^ (2 * ztz r) * (n * n) = 2 ^ (2 * ztz r) * m).
    { transitivity (r ^ 2); [|exact E]. transitivity ((2 ^ ztz r * n) ^ 2); [|f_equal; symmetry; exact En].
      rewrite Z.pow_mul_l, <- Z.pow_mul_r by lia. rewrite (Z.mul_comm (ztz r)). f_equal. ring. }
    apply Z.mul_cancel_l in E'; [|apply Z.pow_nonzero; lia]. rewrite <- E', land7. apply odd_sq_mod8, Hn.
Qed.

(** ** Residue tables *)
Definition bit_there (pf : profile) (word i : Z) : bool :=
  match shr_ pf (U 64) word i with Ret y => negb (Z.land y 1 =? 0) | _ => false end.
Definition small_ok (mask63 : bool) (pf : profile) (pw : Z -> Z) (mr : Z * Z) : bool :=
  (0 <? fst mr) &&
  forallb (fun i => bit_there pf (snd mr) (let j := pw i mod fst mr in if mask63 then Z.land j 63 else j))
          (range_from (Z.to_nat (fst mr)) 0 1).
Definition big_ok (pf : profile) (pw : Z -> Z) (mr : Z * list Z) : bool :=
  (0 <? fst mr) &&
  forallb (fun i => let j := pw i mod fst mr in
             match index (snd mr) (j / 64) with Ret word => bit_there pf word (j mod 64) | _ => false end)
          (range_from (Z.to_nat (fst mr)) 0 1).

Lemma residue_small_spec : forall mask63 pf k r ms rs, 0 <= k ->
  forallb (small_ok mask63 pf (fun i => i ^ k)) (combine ms rs) = true ->
  residue_ok_small mask63 pf (r ^ k) ms rs = Ret true.
Proof.
  intros mask63 pf k r. induction ms as [|m ms IH]; intros rs Hk H; [reflexivity|].
  destruct rs as [|w rs]; [reflexivity|]. cbn [combine forallb residue_ok_small] in *.
  apply andb_true_iff in H. destruct H as [H H']. specialize (IH rs Hk H').
  unfold small_ok in H. cbn [fst snd] in H. apply andb_true_iff in H. destruct H as [Hm H]. apply Z.ltb_lt in Hm.
  rewrite forallb_forall in H. specialize (H (r mod m)).
  assert (Hin : In (r mod m) (range_from (Z.to_nat m) 0 1)).
  { apply range_from_in. exists (r mod m). pose proof (Z.mod_pos_bound r m Hm). lia. }
  specialize (H Hin). cbv zeta in H. rewrite <- Zpower_mod in H by lia.
  unfold bit_there in H. cbv zeta.
  destruct (shr_ pf (U 64) w (if mask63 then Z.land (r ^ k mod m) 63 else r ^ k mod m)) as [y| |]; try discriminate.
  cbn [bind]. destruct (Z.land y 1 =? 0); [discriminate | exact IH].
Qed.
Lemma residue_big_spec : forall pf k r ms rs, 0 <= k ->
  forallb (big_ok pf (fun i => i ^ k)) (combine ms rs) = true ->
  residue_ok_big pf (r ^ k) ms rs = Ret true.
Proof.
  intros pf k r. induction ms as [|m ms IH]; intros rs Hk H; [reflexivity|].
  destruct rs as [|w rs]; [reflexivity|]. cbn [combine forallb residue_ok_big] in *.
  apply andb_true_iff in H. destruct H as [H H']. specialize (IH rs Hk H').
  unfold big_ok in H. cbn [fst snd] in H. apply andb_true_iff in H. destruct H as [Hm H]. apply Z.ltb_lt in Hm.
  rewrite forallb_forall in H. specialize (H (r mod m)).
  assert (Hin : In (r mod m) (range_from (Z.to_nat m) 0 1)).
  { apply range_from_in. exists (r mod m). pose proof (Z.mod_pos_bound r m Hm). lia. }
  specialize (H Hin). cbv zeta in H. rewrite <- Zpower_mod in H by lia. cbv zeta.
  destruct (index w (r ^ k mod m / 64)) as [word| |]; try discriminate. cbn [bind].
  unfold bit_there in H. destruct (shr_ pf (U 64) word (r ^ k mod m mod 64)) as [y| |]; try discriminate.
  cbn [bind]. destruct (Z.land y 1 =? 0); [discriminate | exact IH].
Qed.

Lemma quad_filter_square : forall f pf r, quad_filter f pf (r ^ 2) = Ret true.
Proof.
  intros [|] pf r; cbn [quad_filter].
  - apply residue_big_spec; [lia|]. destruct pf; vm_compute; reflexivity.
  - apply residue_small_spec; [lia|]. destruct pf; vm_compute; reflexivity.
Qed.
Lemma cubic_filter_cube : forall f pf r, cubic_filter f pf (r ^ 3) = Ret true.
Proof.
  intros [|] pf r; cbn [cubic_filter].
  - apply residue_big_spec; [lia|]. destruct pf; vm_compute; reflexivity.
  - apply residue_small_spec; [lia|]. destruct pf; vm_compute; reflexivity.
Qed.
(** The filters never panic: indices and shift amounts stay in range for every x. *)
Definition small_total (mask63 : bool) (mr : Z * Z) : bool :=
  (0 <? fst mr) && (if mask63 then fst mr <=? 2 ^ 64 else fst mr <=? 64).
Lemma residue_small_total : forall mask63 pf x ms rs,
  forallb (small_total mask63) (combine ms rs) = true -> exists b, residue_ok_small mask63 pf x ms rs = Ret b.
Proof.
  intros mask63 pf x. induction ms as [|m ms IH]; intros rs H; [eexists; reflexivity|].
  destruct rs as [|w rs]; [eexists; reflexivity|]. cbn [combine forallb residue_ok_small] in *.
  apply andb_true_iff in H. destruct H as [H H']. destruct (IH rs H') as [b E].
  unfold small_total in H. cbn [fst] in H. apply andb_true_iff in H. destruct H as [Hm H]. apply Z.ltb_lt in Hm.
  pose proof (Z.mod_pos_bound x m Hm) as Hb. cbv zeta.
  assert (Hi : 0 <= (if mask63 then Z.land (x mod m) 63 else x mod m) < 64).
  { destruct mask63; [|apply Z.leb_le in H; lia].
    change 63 with (Z.ones 6). rewrite Z.land_ones by lia. apply Z.mod_pos_bound. lia. }
  unfold shr_. destruct (0 <=? _) eqn:E1; [|apply Z.leb_gt in E1; lia].
  destruct (_ <? 64) eqn:E2; [|apply Z.ltb_ge in E2; lia]. cbn [andb bind].
  destruct (Z.land _ 1 =? 0); [eexists; reflexivity | exists b; exact E].
Qed.
Definition big_total (mr : Z * list Z) : bool := (0 <? fst mr) && (fst mr <=? 64 * Z.of_nat (length (snd mr))).
Lemma residue_big_total : forall pf x ms rs,
  forallb big_total (combine ms rs) = true -> exists b, residue_ok_big pf x ms rs = Ret b.
Proof.
  intros pf x. induction ms as [|m ms IH]; intros rs H; [eexists; reflexivity|].
  destruct rs as [|w rs]; [eexists; reflexivity|]. cbn [combine forallb residue_ok_big] in *.
  apply andb_true_iff in H. destruct H as [H H']. destruct (IH rs H') as [b E].
  unfold big_total in H. cbn [fst snd] in H. apply andb_true_iff in H. destruct H as [Hm H].
  apply Z.ltb_lt in Hm. apply Z.leb_le in H.
  pose proof (Z.mod_pos_bound x m Hm) as Hb. cbv zeta.
  rewrite (index_ok _ w _ 0) by (split; [apply Z.div_pos; lia | apply Z.div_lt_upper_bound; lia]). cbn [bind].
  pose proof (Z.mod_pos_bound (x mod m) 64 ltac:(lia)) as Hc.
  unfold shr_. destruct (0 <=? _) eqn:E1; [|apply Z.leb_gt in E1; lia].
  destruct (_ <? 64) eqn:E2; [|apply Z.ltb_ge in E2; lia]. cbn [andb bind].
  destruct (Z.land _ 1 =? 0); [eexists; reflexivity | exists b; exact E].
Qed.
Lemma quad_filter_total : forall f pf x, exists b, quad_filter f pf x = Ret b.
Proof. intros [|] pf x; [apply residue_big_total | apply residue_small_total]; vm_compute; reflexivity. Qed.
Lemma cubic_filter_total : forall f pf x, exists b, cubic_filter f pf x = Ret b.
Proof. intros [|] pf x; [apply residue_big_total | apply residue_small_total]; vm_compute; reflexivity. Qed.

(** ** sqrt_exact, cbrt_exact *)
Definition exact_root (k x : Z) (o : option Z) : Prop :=
  match o with Some r => 0 <= r /\ r ^ k = x | None => forall r, 0 <= r -> r ^ k <> x end.

Lemma sqrt_exact_prim_spec : forall pf w x, 0 < x < 2 ^ w -> exists o, sqrt_exact_prim pf w x = Ret o /\ exact_root 2 x o.
Proof.
  intros pf w x [Hx Hw]. unfold sqrt_exact_prim.
  replace (x <? 0) with false by (symmetry; apply Z.ltb_ge; lia).
  replace (x =? 0) with false by (symmetry; apply Z.eqb_neq; lia). cbv zeta.
  assert (Hsh : 0 <= ztz x < w).
  { destruct (ztz_spec x Hx) as [A [m [E [_ Hm]]]]. split; [exact A|].
    apply (Z.pow_lt_mono_r_iff 2); [lia | | ].
    - destruct (Z.lt_ge_cases w 0) as [L|L]; [|exact L]. rewrite Z.pow_neg_r in Hw by exact L. lia.
    - assert (0 < 2 ^ ztz x) by (apply Z.pow_pos_nonneg; lia). nia. }
  destruct (Z.land (ztz x) 1 =? 1) eqn:E1.
  { exists None. split; [reflexivity|]. intros r Hr C. subst x. destruct (Z.eq_dec r 0) as [->|Hr0]; [cbn in Hx; lia|].
    destruct (square_filters r ltac:(lia)) as [A _]. rewrite A in E1. discriminate. }
  rewrite shr_ok by (rngs; lia). cbn [bind].
  destruct (Z.land (Z.shiftr x (ztz x)) 7 =? 1) eqn:E2; cbn [negb].
  - destruct (nth_root_exact_nonneg x 2 ltac:(lia) ltac:(lia)) as [o [E H]]. exists o. split; [exact E | exact H].
  - exists None. split; [reflexivity|]. intros r Hr C. subst x. destruct (Z.eq_dec r 0) as [->|Hr0]; [cbn in Hx; lia|].
    destruct (square_filters r ltac:(lia)) as [_ A]. rewrite A in E2. discriminate.
Qed.
Lemma sqrt_exact_big_spec : forall f pf x, 0 <= x -> exists o, sqrt_exact_big f pf x = Ret o /\ exact_root 2 x o.
Proof.
  intros f pf x Hx. unfold sqrt_exact_big. destruct (Z.eqb_spec x 0) as [->|Hx0].
  { exists (Some 0). split; [reflexivity|]. split; [lia | reflexivity]. }
  destruct (Z.ltb_spec x (2 ^ 64)) as [Hl|Hl]; [apply sqrt_exact_prim_spec; lia|]. cbv zeta.
  assert (G : forall r, 0 <= r -> r ^ 2 = x -> 0 < r).
  { intros r Hr C. destruct (Z.eq_dec r 0) as [->|]; [cbn in C; lia | lia]. }
  destruct (Z.land (ztz x) 1 =? 1) eqn:E1.
  { exists None. split; [reflexivity|]. intros r Hr C. specialize (G r Hr C). subst x.
    destruct (square_filters r G) as [A _]. rewrite A in E1. discriminate. }
  destruct (Z.land (Z.shiftr x (ztz x)) 7 =? 1) eqn:E2; cbn [negb].
  - destruct (quad_filter_total f pf x) as [ok Eq]. rewrite Eq. cbn [bind]. destruct ok.
    + destruct (nth_root_exact_nonneg x 2 ltac:(lia) ltac:(lia)) as [o [E H]]. exists o. auto.
    + exists None. split; [reflexivity|]. intros r Hr C. subst x. rewrite quad_filter_square in Eq. discriminate.
  - exists None. split; [reflexivity|]. intros r Hr C. specialize (G r Hr C). subst x.
    destruct (square_filters r G) as [_ A]. rewrite A in E2. discriminate.
Qed.
Lemma cbrt_exact_big_spec : forall f pf x, 0 <= x -> exists o, cbrt_exact_big f pf x = Ret o /\ exact_root 3 x o.
Proof.
  intros f pf x Hx. unfold cbrt_exact_big. destruct (Z.eqb_spec x 0) as [->|Hx0].
  { exists (Some 0). split; [reflexivity|]. split; [lia | reflexivity]. }
  destruct (Z.ltb_spec x (2 ^ 64)) as [Hl|Hl]; [apply nth_root_exact_nonneg; lia|]. cbv zeta.
  destruct (ztz x mod 3 =? 0) eqn:E1; cbn [negb].
  - destruct (cubic_filter_total f pf x) as [ok Eq]. rewrite Eq. cbn [bind]. destruct ok.
    + destruct (nth_root_exact_nonneg x 3 ltac:(lia) ltac:(lia)) as [o [E H]]. exists o. auto.
    + exists None. split; [reflexivity|]. intros r Hr C. subst x. rewrite cubic_filter_cube in Eq. discriminate.
  - exists None. split; [reflexivity|]. intros r Hr C. subst x.
    assert (0 < r). { destruct (Z.eq_dec r 0) as [->|]; [cbn in Hx0; lia | lia]. }
    rewrite ztz_pow in E1 by lia. rewrite Z.mul_comm, Z_mod_mult in E1. discriminate.
Qed.

(** ** Bits *)
Lemma land_pow2 : forall n i, 0 <= i -> Z.land n (2 ^ i) = if Z.testbit n i then 2 ^ i else 0.
Proof.
  intros n i Hi. apply Z.bits_inj'. intros k Hk. rewrite Z.land_spec, Z.pow2_bits_eqb by exact Hi.
  destruct (Z.eqb_spec i k) as [->|Hne].
  - destruct (Z.testbit n k); [rewrite Z.pow2_bits_true by exact Hk | rewrite Z.bits_0]; reflexivity.
  - rewrite andb_false_r. destruct (Z.testbit n i); [rewrite Z.pow2_bits_false by lia | rewrite Z.bits_0]; reflexivity.
Qed.
