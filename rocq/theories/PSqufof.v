(** * SQUFOF: the backward walk always ends.

    The walk runs through reduced triples (p, q, w) with p^2 + q w = N. When it starts from a square
    q = r^2 found after an odd number of forward steps, the forward steps give X, Y with
    X^2 - N Y^2 = r^2; a descent on the coordinates of X + Y sqrt N shows that the walk visits the
    mirror image of its first triple after an odd number of steps, so half way it stands on a triple
    whose p does not change. *)
From Coq Require Import ZArith Znumtheory List Lia Bool Arith Wf_nat.
From Verif Require Import Base Spec Ext NT PBase MInteger PInteger Ops POps MPrimality PSprp MFactor PLucas3 PFactor PFactor2.
Import ListNotations.
Local Open Scope Z_scope.

Definition tri : Type := Z * Z * Z.
Definition rhoz (rd : Z) (s : tri) : tri :=
  let '(p, q, w) := s in
  let b := (rd + p) / q in let p' := b * q - p in (p', w + b * (p - p'), q).
Definition mirror (s : tri) : tri := let '(p, q, w) := s in (p, w, q).
Definition red (N rd : Z) (s : tri) : Prop := let '(p, q, w) := s in reduced N rd p q w.

Lemma red_mirror : forall N rd s, red N rd s -> red N rd (mirror s).
Proof. intros N rd [[p q] w] [A [B [C D]]]. unfold mirror, red, reduced. split; [exact A|]. split; [rewrite <- B; ring|]. split; assumption. Qed.
Lemma mirror_mirror : forall s, mirror (mirror s) = s.
Proof. intros [[p q] w]. reflexivity. Qed.

Section Walk.
Context (N rd : Z) (H0 : 0 <= N) (Erd : rd = Z.sqrt N) (Hns : rd * rd < N).

Lemma rho_eq : forall pf t p q w, valid_ity t -> in_range t N -> reduced N rd p q w ->
  sq_rho pf t rd p q w = Ret (rhoz rd (p, q, w)) /\ red N rd (rhoz rd (p, q, w)).
Proof.
  intros pf t p q w Ht HN HR. destruct (sq_rho_spec pf t N rd p q w Ht HN Erd Hns HR) as [p' [q' [E [HR' Ep]]]].
  assert (Eq : q' = w + (rd + p) / q * (p - p')).
  { destruct HR as [Hp [E1 [Hq _]]], HR' as [_ [E2 _]]. assert (Hq0 : q <> 0) by lia. apply (Z.mul_reg_r _ _ q Hq0).
    set (b := (rd + p) / q) in *. assert (b * q = p + p') by lia. transitivity (N - p' * p'); [lia|]. rewrite <- E1.
    transitivity (p * p + q * w - p' * p'); [reflexivity|]. transitivity (w * q + (p + p') * (p - p')); [ring|]. rewrite <- H. ring. }
  unfold rhoz. cbv zeta. rewrite <- Ep, <- Eq. split; [exact E | exact HR'].
Qed.
Lemma red_rho : forall s, red N rd s -> red N rd (rhoz rd s).
Proof. intros [[p q] w] HR. apply (rho_eq Release Big); [exact I | exact H0 | exact HR]. Qed.

(** walking from the mirror image goes back *)
Lemma rho_mirror_rho : forall s, red N rd s -> rhoz rd (mirror (rhoz rd s)) = mirror s.
Proof.
  intros [[p q] w] [Hp [E [Hq Hw]]]. unfold rhoz, mirror. cbv zeta. set (b := (rd + p) / q).
  pose proof (Z.div_mod (rd + p) q ltac:(lia)) as Ed. pose proof (Z.mod_pos_bound (rd + p) q ltac:(lia)) as Hm. fold b in Ed.
  assert (Eb : (rd + (b * q - p)) / q = b).
  { symmetry. apply (Z.div_unique _ _ _ (rd - p)); [left; lia | ring]. }
  rewrite Eb. replace (b * q - (b * q - p)) with p by ring. f_equal. f_equal. ring.
Qed.
Lemma rho_inj : forall s s', red N rd s -> red N rd s' -> rhoz rd s = rhoz rd s' -> s = s'.
Proof.
  intros s s' H H' E. pose proof (rho_mirror_rho s H) as A. pose proof (rho_mirror_rho s' H') as B. rewrite E, B in A.
  rewrite <- (mirror_mirror s), <- (mirror_mirror s'), A. reflexivity.
Qed.

Definition walk (k : nat) (s : tri) : tri := Nat.iter k (rhoz rd) s.
Lemma walk_S : forall k s, walk (S k) s = rhoz rd (walk k s).
Proof. reflexivity. Qed.
Lemma walk_add : forall a b s, walk (a + b) s = walk a (walk b s).
Proof. induction a as [|a IH]; intros b s; [reflexivity|]. cbn [Nat.add]. rewrite !walk_S, IH. reflexivity. Qed.
Lemma walk_shift : forall k s, walk k (rhoz rd s) = walk (S k) s.
Proof. intros k s. replace (S k) with (k + 1)%nat by lia. rewrite walk_add. reflexivity. Qed.
Lemma red_walk : forall k s, red N rd s -> red N rd (walk k s).
Proof. induction k as [|k IH]; intros s H; [exact H|]. rewrite walk_S. apply red_rho, IH, H. Qed.

Lemma mirror_walk : forall b a s, red N rd s -> walk (a + b) s = mirror s -> walk a s = mirror (walk b s).
Proof.
  induction b as [|b IH]; intros a s HR E; [rewrite Nat.add_0_r in E; exact E|].
  specialize (IH (S a) s HR ltac:(replace (S a + b)%nat with (a + S b)%nat by lia; exact E)).
  apply rho_inj; [apply red_walk, HR | apply red_mirror, red_walk, HR |].
  rewrite <- walk_S, IH, walk_S, rho_mirror_rho by (apply red_walk, HR). reflexivity.
Qed.

Definition stops (s : tri) : Prop := fst (fst (rhoz rd s)) = fst (fst s).

Lemma mirror_stops : forall j s, red N rd s -> walk (S (j + j)) s = mirror s -> stops (walk j s).
Proof.
  intros j s HR E. pose proof (mirror_walk j (S j) s HR ltac:(exact E)) as A. unfold stops. rewrite <- walk_S, A.
  destruct (walk j s) as [[p q] w]. reflexivity.
Qed.

(** ** The descent *)
Definition sgn (k : nat) : Z := if Nat.even k then 1 else -1.
Lemma sgn_S : forall k, sgn (S k) = - sgn k.
Proof. intros k. unfold sgn. rewrite Nat.even_succ, <- Nat.negb_even. destruct (Nat.even k); reflexivity. Qed.

Definition qf (s : tri) (m n m2 n2 : Z) : Z :=
  let '(u, v, w) := s in w * m * m2 + u * (m * n2 + n * m2) - v * n * n2.

Lemma qf_step : forall u v w m n m2 n2, let b := (rd + u) / v in
  qf (rhoz rd (u, v, w)) (n - b * m) m (n2 - b * m2) m2 = - qf (u, v, w) m n m2 n2.
Proof. intros. unfold qf, rhoz. cbv zeta. fold b. ring. Qed.

Lemma descent_ge : forall u v w m n, reduced N rd u v w -> 1 <= m -> 1 <= n ->
  qf (u, v, w) m n m n <= rd -> (rd + u) / v * m <= n.
Proof.
  intros u v w m n [Hu [E [Hv Hw]]] Hm Hn Hg. destruct (Z.le_gt_cases ((rd + u) / v * m) n) as [H|H]; [exact H|]. exfalso.
  set (b := (rd + u) / v) in *. pose proof (Z.div_mod (rd + u) v ltac:(lia)) as Ed. pose proof (Z.mod_pos_bound (rd + u) v ltac:(lia)) as Hr. fold b in Ed.
  set (x := v * n - u * m).
  assert (Eg : v * qf (u, v, w) m n m n = N * (m * m) - x * x) by (unfold qf, x; rewrite <- E; ring).
  assert (Hbv : b * v - u <= rd) by lia.
  assert (A1 : x <= m * rd - v).
  { unfold x. assert (v * n <= v * (b * m - 1)) by (apply Z.mul_le_mono_nonneg_l; lia).
    assert (m * (b * v - u) <= m * rd) by (apply Z.mul_le_mono_nonneg_l; lia). lia. }
  assert (A2 : - x <= m * rd - v).
  { unfold x. assert (v * 1 <= v * n) by (apply Z.mul_le_mono_nonneg_l; lia).
    assert (u * m <= rd * m) by (apply Z.mul_le_mono_nonneg_r; lia). lia. }
  assert (A3 : x * x <= (m * rd - v) * (m * rd - v)) by (nia).
  assert (A4 : rd * rd * (m * m) < N * (m * m)) by (apply Z.mul_lt_mono_pos_r; nia).
  assert (A5 : v * (2 * m * rd - v) < v * rd).
  { apply Z.le_lt_trans with (rd * rd * (m * m) - (m * rd - v) * (m * rd - v)); [lia|].
    apply Z.lt_le_trans with (v * qf (u, v, w) m n m n); [lia|]. apply Z.mul_le_mono_nonneg_l; lia. }
  assert (A6 : 2 * m * rd - v < rd) by (apply (Z.mul_lt_mono_pos_l v); lia).
  destruct (Z.eq_dec m 1) as [->|Hm1].
  - assert (2 <= b) by lia. assert (2 * v <= b * v) by (apply Z.mul_le_mono_nonneg_r; lia). lia.
  - assert (2 * rd <= m * rd) by (apply Z.mul_le_mono_nonneg_r; lia). lia.
Qed.

Lemma descent : forall z s m n m2 n2, 0 <= m -> 1 <= n -> m + n <= Z.of_nat z -> red N rd s ->
  (forall d, (d | m) -> (d | n) -> (d | 1)) ->
  qf s m n m n <= rd -> - qf s m n m n <= rd ->
  exists k n2', let '(u', v', w') := walk k s in
    - v' = sgn k * qf s m n m n /\
    u' * (- sgn k * (m * n2 - n * m2)) - v' * n2' = sgn k * qf s m n m2 n2.
Proof.
  induction z as [|z IH]; intros s m n m2 n2 Hm Hn Hz HR Hc Hg Hg'; [lia|].
  destruct (Z.eq_dec m 0) as [->|Hm0].
  - assert (n = 1) as ->.
    { assert (D : (n | 1)) by (apply Hc; [apply Z.divide_0_r | apply Z.divide_refl]). apply Z.divide_1_r in D. lia. }
    exists 0%nat, n2. destruct s as [[u v] w]. cbn [walk Nat.iter]. change (sgn 0) with 1. unfold qf. split; ring.
  - destruct s as [[u v] w]. pose proof (descent_ge u v w m n HR ltac:(lia) Hn Hg) as Hge.
    assert (Hb : 1 <= (rd + u) / v) by (destruct HR as [Hu [_ [Hv _]]]; apply Z.div_le_lower_bound; lia).
    set (b := (rd + u) / v) in *.
    pose proof (qf_step u v w m n m n) as Q1. cbv zeta in Q1. fold b in Q1.
    pose proof (qf_step u v w m n m2 n2) as Q2. cbv zeta in Q2. fold b in Q2.
    destruct (IH (rhoz rd (u, v, w)) (n - b * m) m (n2 - b * m2) m2) as [k [n2' K]].
    + lia.
    + lia.
    + assert (1 * m <= b * m) by (apply Z.mul_le_mono_nonneg_r; lia). lia.
    + apply red_rho. exact HR.
    + intros d D1 D2. apply Hc; [exact D2|]. replace n with (n - b * m + b * m) by ring. apply Z.divide_add_r; [exact D1 | apply Z.divide_mul_r, D2].
    + lia.
    + lia.
    + exists (S k), n2'. rewrite walk_shift in K. destruct (walk (S k) (u, v, w)) as [[u' v'] w']. rewrite sgn_S. rewrite Q1, Q2 in K.
      destruct K as [K1 K2]. split; [rewrite K1; ring|].
      transitivity (sgn k * - qf (u, v, w) m n m2 n2); [rewrite <- K2; ring | ring].
Qed.

(** ** Forward steps *)
Definition fwd (k : nat) (s : tri) : Prop :=
  let '(p, q, w) := s in
  exists X Y X' Y', 1 <= X /\ 1 <= Y /\ 1 <= X' /\ 0 <= Y' /\
    X * X - N * (Y * Y) = - sgn k * q /\ X' * X' - N * (Y' * Y') = sgn k * w /\
    X * X' - N * (Y * Y') = sgn k * p /\ X' * Y - X * Y' = sgn k.

Lemma fwd_0 : fwd 0 (rd, N - rd * rd, 1).
Proof.
  assert (1 <= rd) by (rewrite Erd; apply Z.sqrt_le_square; nia).
  exists rd, 1, 1, 0. change (sgn 0) with 1. repeat split; try lia.
Qed.
Lemma fwd_S : forall k s, red N rd s -> fwd k s -> fwd (S k) (rhoz rd s).
Proof.
  intros k [[p q] w] HR (X & Y & X' & Y' & HX & HY & HX' & HY' & E1 & E2 & E3 & E4). unfold rhoz. cbv zeta.
  assert (Hb : 1 <= (rd + p) / q) by (destruct HR as [Hu [_ [Hv _]]]; apply Z.div_le_lower_bound; lia). set (b := (rd + p) / q) in *.
  exists (b * X + X'), (b * Y + Y'), X, Y. rewrite sgn_S.
  assert (1 * X <= b * X) by (apply Z.mul_le_mono_nonneg_r; lia). assert (1 * Y <= b * Y) by (apply Z.mul_le_mono_nonneg_r; lia).
  split; [lia|]. split; [lia|]. split; [lia|]. split; [lia|]. split; [|split; [|split]].
  - transitivity (b * b * (X * X - N * (Y * Y)) + 2 * b * (X * X' - N * (Y * Y')) + (X' * X' - N * (Y' * Y'))); [ring|]. rewrite E1, E2, E3. ring.
  - rewrite E1. ring.
  - transitivity (b * (X * X - N * (Y * Y)) + (X * X' - N * (Y * Y'))); [ring|]. rewrite E1, E3. ring.
  - transitivity (- (X' * Y - X * Y')); [ring|]. rewrite E4. ring.
Qed.

(** ** The mirror image is reached *)
Lemma mirror_reached : forall k p w0 r, sgn k = -1 -> red N rd (p, r * r, w0) -> fwd k (p, r * r, w0) -> 0 < r ->
  forall b0 u v, u = b0 * r + p -> reduced N rd u v r -> exists j, walk (S (j + j)) (u, v, r) = mirror (u, v, r).
Proof.
  intros k p w0 r Hk HR0 (X & Y & X' & Y' & HX & HY & HX' & HY' & E1 & E2 & E3 & E4) Hr b0 u v Eu HR. rewrite Hk in *.
  destruct HR0 as [Hp0 [Ep0 [Hq0 _]]]. pose proof HR as [Hu [Ev [Hv Hw]]].
  assert (Hrd : r <= rd).
  { destruct (Z.le_gt_cases r rd) as [H|H]; [exact H|]. assert ((rd + 1) * (rd + 1) <= r * r) by (apply Z.square_le_mono_nonneg; lia).
    assert (0 <= rd * rd) by (apply Z.square_nonneg). lia. }
  set (c := w0 + b0 * b0).
  assert (Ec : v + 2 * b0 * u = r * c).
  { apply (Z.mul_reg_r _ _ r ltac:(lia)). transitivity (v * r + 2 * b0 * u * r); [ring|].
    assert (Evr : v * r = p * p + r * r * w0 - u * u) by lia. rewrite Evr. unfold c. rewrite Eu. ring. }
  assert (EpY : X - p * Y = r * r * Y').
  { assert (p = N * (Y * Y') - X * X') by lia. transitivity (X - (N * (Y * Y') - X * X') * Y); [rewrite <- H; ring|].
    transitivity (X - (N * (Y * Y)) * Y' + X * (X' * Y)); [ring|]. replace (N * (Y * Y)) with (X * X - r * r) by lia.
    transitivity (X + r * r * Y' + X * (X' * Y - X * Y')); [ring|]. rewrite E4. ring. }
  set (m := r * Y' - b0 * Y). set (m2 := 2 * u * Y' - Y * c).
  assert (EX : X = r * m + u * Y) by (unfold m; rewrite Eu; lia).
  assert (Em2 : r * m2 = 2 * u * m - v * Y).
  { unfold m2, m. transitivity (2 * u * Y' * r - Y * (r * c)); [ring|]. rewrite <- Ec. ring. }
  assert (Hm : 0 < m).
  { assert (u * Y < X).
    { apply Z.square_lt_simpl_nonneg; [lia|]. assert (u * u <= rd * rd) by (apply Z.square_le_mono_nonneg; lia).
      assert (0 < Y * Y) by (apply Z.mul_pos_pos; lia). assert (u * u * (Y * Y) < N * (Y * Y)) by (apply Z.mul_lt_mono_pos_r; lia).
      assert (0 < r * r) by (apply Z.mul_pos_pos; lia). replace (u * Y * (u * Y)) with (u * u * (Y * Y)) by ring. lia. }
    apply (Z.mul_pos_cancel_l r m); lia. }
  assert (Eg : r * (m * m) + Y * (r * m2) = r).
  { apply (Z.mul_reg_r _ _ r ltac:(lia)). rewrite Em2. transitivity ((r * m + u * Y) * (r * m + u * Y) - (u * u + v * r) * (Y * Y)); [ring|].
    rewrite Ev, <- EX. lia. }
  assert (E1' : m * m + Y * m2 = 1) by (apply (Z.mul_reg_r _ _ r ltac:(lia)); lia).
  assert (Q1 : qf (u, v, r) m Y m Y = r).
  { unfold qf. transitivity (r * (m * m) + Y * (2 * u * m - v * Y)); [ring|]. rewrite <- Em2. exact Eg. }
  assert (Q2 : qf (u, v, r) m Y m2 (- m) = u).
  { unfold qf. transitivity (m * (r * m2) + u * (- (m * m) + Y * m2) + v * Y * m); [ring|]. rewrite Em2.
    transitivity (u * (m * m + Y * m2)); [ring|]. rewrite E1'. ring. }
  assert (Hc : forall d, (d | m) -> (d | Y) -> (d | 1)).
  { intros d D1 D2. assert (D3 : (d | X)) by (rewrite EX; apply Z.divide_add_r; [apply Z.divide_mul_r, D1 | apply Z.divide_mul_r, D2]).
    replace 1 with (X * Y' - X' * Y) by lia. apply Z.divide_sub_r; [apply Z.divide_mul_l, D3 | apply Z.divide_mul_r, D2]. }
  destruct (descent (Z.to_nat (m + Y)) (u, v, r) m Y m2 (- m)) as [k' [n2' K]]; try lia; try assumption.
  rewrite Q1, Q2 in K. destruct (walk k' (u, v, r)) as [[u' v'] w'] eqn:Ew. destruct K as [K1 K2].
  pose proof (red_walk k' (u, v, r) HR) as HR'. rewrite Ew in HR'. destruct HR' as [Hu' [Ev' [Hv' Hw']]].
  unfold sgn in K1, K2. destruct (Nat.even k') eqn:Ek; [lia|].
  assert (v' = r) as -> by lia.
  assert (Edu : u - u' = r * n2').
  { replace (m * - m - Y * m2) with (- (m * m + Y * m2)) in K2 by ring. rewrite E1' in K2. lia. }
  assert (n2' = 0).
  { clear - Edu Hu Hu' Hw Hv' Hr Hrd. nia. } assert (u' = u) as -> by lia. assert (w' = v) as -> by (apply (Z.mul_reg_l _ _ r); lia).
  assert (Hodd : Nat.odd k' = true) by (rewrite <- Nat.negb_even, Ek; reflexivity). apply Nat.odd_spec in Hodd. destruct Hodd as [j Ej].
  exists j. replace (S (j + j)) with k' by lia. rewrite Ew. reflexivity.
Qed.

(** ** and soon enough *)
Lemma inj_map_NoDup : forall A B (f : A -> B) l, (forall a b, In a l -> In b l -> f a = f b -> a = b) -> NoDup l -> NoDup (map f l).
Proof.
  intros A B f l Hi Hn. revert Hi. induction Hn as [|x l Hx Hn IH]; intros Hi; cbn [map]; constructor.
  - intros C. apply in_map_iff in C. destruct C as [y [E Hy]]. apply Hx. rewrite <- (Hi y x (or_intror Hy) (or_introl eq_refl) E). exact Hy.
  - apply IH. intros a b Ha Hb. apply Hi; right; assumption.
Qed.
Definition zrange (n : Z) : list Z := map Z.of_nat (seq 1 (Z.to_nat n)).
Lemma in_zrange : forall n x, 1 <= x <= n -> In x (zrange n).
Proof. intros n x H. unfold zrange. apply in_map_iff. exists (Z.to_nat x). split; [lia|]. apply in_seq. lia. Qed.

Lemma red_eq : forall u v w w', reduced N rd u v w -> reduced N rd u v w' -> w = w'.
Proof. intros u v w w' [_ [A [B _]]] [Hu [A' _]]. apply (Z.mul_reg_l _ _ v); lia. Qed.

Lemma stops_soon : forall s j, red N rd s -> stops (walk j s) ->
  exists i, Z.of_nat i < 2 * rd * rd /\ stops (walk i s).
Proof.
  intros s j0 HR Hj0.
  destruct (dec_inh_nat_subset_has_unique_least_element (fun i => stops (walk i s))) as [j [[Hj Hmin] _]].
  { intros i. unfold stops. destruct (Z.eq_dec (fst (fst (rhoz rd (walk i s)))) (fst (fst (walk i s)))); auto. }
  { exists j0. exact Hj0. }
  exists j. split; [|exact Hj].
  set (f := fun i => let '(u, v, w) := walk i s in (u, v)).
  assert (Hincl : incl (map f (seq 0 (S j))) (list_prod (zrange rd) (zrange (2 * rd)))).
  { intros x Hx. apply in_map_iff in Hx. destruct Hx as [i [<- _]]. unfold f. pose proof (red_walk i s HR) as Hri.
    destruct (walk i s) as [[u v] w]. destruct Hri as [A [B [C' D]]]. apply in_prod; apply in_zrange; lia. }
  assert (Hrep : forall a b, (a < b <= j)%nat -> f a <> f b).
  { intros a b Hab E. assert (Es : walk a s = walk b s).
    { unfold f in E. pose proof (red_walk a s HR) as Ra. pose proof (red_walk b s HR) as Rb.
      destruct (walk a s) as [[u v] w], (walk b s) as [[u' v'] w']. injection E as <- <-. f_equal. exact (red_eq u v w w' Ra Rb). }
    assert (Hs : stops (walk (j - b + a) s)).
    { rewrite walk_add, Es, <- walk_add. replace (j - b + b)%nat with j by lia. exact Hj. }
    apply Hmin in Hs. lia. }
  assert (Hnd : NoDup (map f (seq 0 (S j)))).
  { apply inj_map_NoDup; [|apply seq_NoDup]. intros a b Ha Hb E. apply in_seq in Ha, Hb.
    destruct (lt_eq_lt_dec a b) as [[L|L]|L]; [|exact L|]; exfalso; [apply (Hrep a b) | apply (Hrep b a)]; (lia || congruence). }
  pose proof (NoDup_incl_length Hnd Hincl) as L. rewrite prod_length in L. unfold zrange in L. rewrite !map_length, !seq_length in L.
  assert (0 <= rd) by (rewrite Erd; apply Z.sqrt_nonneg). nia.
Qed.

(** ** The loop of the code *)
Lemma sq_backward_total : forall pf t fuel u v r, valid_ity t -> in_range t N -> reduced N rd u v r ->
  (exists j, stops (walk j (u, v, r))) -> 2 * N <= fuel ->
  run False False (fun _ => True) (sq_backward pf t fuel rd u v r).
Proof.
  intros pf t fuel u v r Ht HN HR [j0 Hj0] Hf. destruct (stops_soon (u, v, r) j0 HR Hj0) as [j [Hlt Hj]].
  unfold sq_backward, loop. apply run_bind.
  eapply run_mono; [apply (run_iter_count _ _ False False (fun k st => st = walk (Z.to_nat k) (u, v, r) /\ forall i, Z.of_nat i < k -> ~ stops (walk i (u, v, r))) (fun _ _ => True)) | auto | auto |].
  - lia.
  - split; [reflexivity | intros i Hi; lia].
  - intros k st Hk [-> Hno]. pose proof (red_walk (Z.to_nat k) (u, v, r) HR) as Rk.
    destruct (walk (Z.to_nat k) (u, v, r)) as [[p q] w] eqn:Ew.
    destruct (rho_eq pf t p q w Ht HN Rk) as [-> _]. cbn [bind]. destruct (rhoz rd (p, q, w)) as [[p' q'] w'] eqn:Er. cbn [bind].
    destruct (Z.eqb_spec p' p) as [E|E]; cbn [run]; [exact I|]. split.
    + replace (Z.to_nat (k + 1)) with (S (Z.to_nat k)) by lia. rewrite walk_S, Ew, Er. reflexivity.
    + intros i Hi Hs. destruct (Z.eq_dec (Z.of_nat i) k) as [Ei|Ei]; [|apply (Hno i); [lia | exact Hs]].
      replace i with (Z.to_nat k) in Hs by lia. rewrite Ew in Hs. unfold stops in Hs. rewrite Er in Hs. cbn [fst] in Hs. contradiction.
  - intros [st|x] H; cbn [run]; [|exact I]. destruct H as [_ H]. apply (H j); [lia | exact Hj].
Qed.
End Walk.

(** ** squfof returns *)
Definition sq_inv2 (N rd k : Z) (st : Z * Z * Z * Z) : Prop :=
  let '(i, p, q, qm1) := st in i = k + 1 /\ reduced N rd p q qm1 /\ fwd N (Z.to_nat k) (p, q, qm1).

Lemma sgn_odd : forall k, 0 <= k -> Z.odd k = true -> sgn (Z.to_nat k) = -1.
Proof.
  intros k Hk Ho. unfold sgn. destruct (Nat.even (Z.to_nat k)) eqn:E; [|reflexivity]. exfalso. apply Nat.even_spec in E. destruct E as [j Ej].
  apply Zodd_bool_iff in Ho. apply Zodd_ex in Ho. destruct Ho as [j' Ho]. lia.
Qed.

Lemma sq_step_total : forall f pf t fuel target N rd k st, valid_ity t -> in_range t N -> rd = Z.sqrt N -> rd * rd < N -> 1 <= target ->
  2 * N <= fuel -> 0 <= k -> sq_inv2 N rd k st ->
  run False False (fun r => match r with
    | Next st' => sq_inv2 N rd (k + 1) st'
    | Done (o, i) => i = k + 1 /\ exists d, o = Some d /\ proper_divisor d target end) (sq_step f pf t fuel target N rd st).
Proof.
  intros f pf t fuel target N rd k [[[i p0] q0] m0] Ht HN Erd Hns H1 Hf Hk [Ei [HR HF]]. pose proof (in_range_nonneg _ _ HN) as H0.
  unfold sq_step. destruct (rho_eq N rd Erd Hns pf t p0 q0 m0 Ht HN HR) as [-> HR'].
  pose proof (fwd_S N rd (Z.to_nat k) (p0, q0, m0) HR HF) as HF'. replace (S (Z.to_nat k)) with (Z.to_nat (k + 1)) in HF' by lia.
  destruct (rhoz rd (p0, q0, m0)) as [[p q] m] eqn:Er. assert (m = q0) as -> by (unfold rhoz in Er; injection Er as _ _ <-; reflexivity). cbn [bind].
  assert (Rg : forall x, 0 <= x <= 2 * rd -> in_range t x) by (intros x Hx; eapply self_range; [exact Ht | exact HN | rewrite <- Erd; lia]).
  pose proof HR' as [Hp [E [Hq Hm]]].
  assert (Hnext : sq_inv2 N rd (k + 1) (i + 1, p, q, q0)) by (split; [lia | split; [exact HR' | exact HF']]).
  apply run_bind. destruct (Z.odd i) eqn:Eo.
  - destruct (sqrt_exact_lawful f pf t q (Rg q ltac:(lia)) ltac:(lia)) as [o [-> Ho]]. cbn [bind].
    destruct o as [rq|]; [|cbn [run]; exact Hnext].
    cbn [exact_root] in Ho. destruct Ho as [Hrq Eq]. rewrite Z.pow_2_r in Eq.
    destruct (sq_start N rd p q q0 rq Erd H0 Hns HR' Hrq Eq) as [Hr0 [HRu Hb]]. cbv zeta in HRu.
    rewrite sub_ok by (apply Rg; lia). cbn [bind]. rewrite div_ok by lia. cbn [bind]. rewrite mul_ok by (apply Rg; lia). cbn [bind].
    pose proof HRu as [Hu [Eu _]]. rewrite add_ok by (apply Rg; lia). cbn [bind]. set (u := (rd - p) / rq * rq + p) in *.
    assert (Huu : u * u <= rd * rd) by nia.
    rewrite mul_ok by (eapply in_range_le; [|exact HN]; nia). cbn [bind]. rewrite sub_ok by (eapply in_range_le; [|exact HN]; nia). cbn [bind].
    rewrite div_ok by lia. cbn [bind]. apply run_bind.
    assert (Hst : exists j, stops rd (walk rd j (u, (N - u * u) / rq, rq))).
    { rewrite <- Eq in HR', HF'.
      destruct (mirror_reached N rd H0 Erd Hns (Z.to_nat (k + 1)) p q0 rq (sgn_odd (k + 1) ltac:(lia) ltac:(rewrite <- Ei; exact Eo)) HR' HF' Hr0 _ u _ eq_refl HRu) as [j Hj].
      exists j. apply (mirror_stops N rd H0 Erd Hns); [exact HRu | exact Hj]. }
    eapply run_mono; [apply (sq_backward_total N rd H0 Erd Hns pf t fuel u _ rq Ht HN HRu Hst Hf) | auto | auto |]. intros u' _. cbv zeta. cbn [run]. unfold ext_gcd.
    destruct (Z.ltb_spec 1 (Z.gcd target u')); cbn [andb]; [destruct (Z.ltb_spec (Z.gcd target u') target)|]; cbn [run]; try exact Hnext.
    split; [lia|]. eexists. split; [reflexivity|]. split; [lia|]. split; [lia | apply Z.gcd_divide_l].
  - cbn [run]. exact Hnext.
Qed.

Theorem squfof_total : forall f pf t fuel target N maxi, valid_ity t -> 1 <= target -> 1 <= N -> in_range t N -> (target | N) -> 0 <= maxi ->
  (~ exists r, r * r = N) -> 2 * N <= fuel ->
  run False False (fun x => 0 <= snd x <= maxi /\ (forall d, fst x = Some d -> proper_divisor d target)) (squfof f pf t fuel target N maxi).
Proof.
  intros f pf t fuel target N maxi Ht H1 HN1 HN Hd Hm Hsq Hf. unfold squfof, ext_sqrt. rewrite rem_ok by lia. cbn [bind].
  replace (N mod target =? 0) with true by (symmetry; apply Z.eqb_eq, mod0_divide; [lia | exact Hd]). cbn [negb].
  pose proof (Z.sqrt_spec N ltac:(lia)) as [S1 S2]. pose proof (Z.sqrt_nonneg N).
  assert (Hns : Z.sqrt N * Z.sqrt N < N) by (assert (Z.sqrt N * Z.sqrt N <> N) by (intros C; apply Hsq; eauto); lia).
  rewrite mul_ok by (eapply in_range_le; [|exact HN]; nia). cbn [bind]. rewrite sub_ok by (eapply in_range_le; [|exact HN]; nia). cbn [bind].
  replace (N - Z.sqrt N * Z.sqrt N =? 0) with false by (symmetry; apply Z.eqb_neq; lia).
  destruct (Z.le_gt_cases maxi 1) as [Hle|Hgt].
  { rewrite iter_le0 by lia. cbn [bind run fst snd]. split; [lia | discriminate]. }
  apply run_bind. eapply run_mono; [apply (run_iter_count _ _ False False (sq_inv2 N (Z.sqrt N)) (fun k x => snd x = k + 1 /\ exists d, fst x = Some d /\ proper_divisor d target)); [lia | | ] | auto | auto |].
  - cbn [sq_inv2]. split; [lia|]. split; [eapply sq_init; eassumption | apply fwd_0; [lia | reflexivity | exact Hns]].
  - intros k s Hk HI. eapply run_mono; [apply (sq_step_total f pf t fuel target N (Z.sqrt N) k s Ht HN eq_refl Hns H1 Hf ltac:(lia) HI) | auto | auto |].
    intros [x|[o i]] H2; cbn beta iota in *; [exact H2 | exact H2].
  - intros [x|[o i]] H2; cbn beta iota in *; cbn [run fst snd].
    + split; [lia | discriminate].
    + destruct H2 as [k [Hk [Ei [d [Eo Hpd]]]]]. cbn [fst snd] in *. split; [lia|]. intros d' E'. rewrite Eo in E'. injection E' as <-. exact Hpd.
Qed.
