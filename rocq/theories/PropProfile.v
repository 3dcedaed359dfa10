(** * C82: what examples/profile_factorization.rs writes to its file. (Also two theorems of C72 and C73 used for it.) *)
From Coq Require Import ZArith Znumtheory List Lia Bool.
From Verif Require Import Base Spec Ext NT PBase PTables MInteger Ops POps MTraits MSieve MIsPrime MFactor PFactor2 PNext MRand PRand MProfile PropFactor PropSqufof PropRand NTBertrand PropBertrand.
Import ListNotations.
Local Open Scope Z_scope.

Lemma fit_mul : forall n k kn, 1 <= n -> 1 <= k -> checked u128 (n * k) = Some kn -> 1 <= kn /\ in_range u128 kn /\ (n | kn) /\ kn = n * k.
Proof. intros n k kn H1 Hk E. apply checked_inv in E. destruct E as [-> H]. split; [nia|]. split; [exact H|]. split; [exists k; lia | reflexivity]. Qed.
Lemma draw_some : forall w (d : draws), (1 <= length d)%nat -> exists x d', draw w d = Ret (x mod 2 ^ w, d') /\ d = x :: d'.
Proof. intros w [|x d] H; cbn [length] in H; [lia|]. exists x, d. split; reflexivity. Qed.
Lemma square_dec : forall N, 0 <= N -> (exists r, 0 <= r /\ r * r = N) \/ ~ exists r, r * r = N.
Proof.
  intros N H. pose proof (Z.sqrt_spec N H) as S. pose proof (Z.sqrt_nonneg N). destruct (Z.eq_dec (Z.sqrt N * Z.sqrt N) N) as [E|E]; [left; eauto|].
  right. apply (between_squares N (Z.sqrt N)); [lia|]. unfold Z.succ in S. lia.
Qed.
Lemma multipliers_pos : forall k, In k SQUFOF_MULTIPLIERS -> 1 <= k.
Proof. intros k H. assert (A : forallb (fun k => 1 <=? k) SQUFOF_MULTIPLIERS = true) by (vm_compute; reflexivity). rewrite forallb_forall in A. apply Z.leb_le, A, H. Qed.
Lemma pair_min_fst : forall a b, fst (pair_min a b) = Z.min (fst a) (fst b).
Proof. intros [a s] [b t]. unfold pair_min. cbn [fst snd]. destruct (Z.ltb_spec a b), (Z.eqb_spec a b), (s <=? t); cbn [orb andb fst]; lia. Qed.
Lemma pair_min_snd : forall a b, snd (pair_min a b) = snd a \/ snd (pair_min a b) = snd b.
Proof. intros a b. unfold pair_min. destruct ((fst a <? fst b) || _); auto. Qed.

Ltac put E := match type of E with _ = ?v => match goal with |- context [bind ?x _] => replace x with v by (symmetry; exact E) end end.

Section Returns.
Context (f : feature) (pf : profile) (fuel : Z) (n : Z).
Hypothesis Hn : 1 <= n < 2 ^ 128.
Hypothesis Hfuel : 2 ^ 129 <= fuel.
Hypothesis Hpf : pf = Release \/ n < 2 ^ 94.

Lemma squfof_returns : forall k kn m, 1 <= k -> checked u128 (n * k) = Some kn -> 0 <= m -> exists o i, squfof f pf u128 fuel n kn m = Ret (o, i) /\ 0 <= i <= m.
Proof.
  intros k kn m Hk E Hm. destruct (fit_mul n k kn ltac:(lia) Hk E) as [A [B [C _]]].
  destruct (square_dec kn ltac:(lia)) as [[r [R0 Er]]|S].
  - exists (Some r), 0. split; [apply C27_square; (lia || assumption || (cbn; lia))|lia].
  - destruct (C27_squfof f pf u128 fuel n kn m ltac:(cbn; lia) ltac:(lia) A B C Hm S ltac:(cbn [u128 in_range] in B; lia)) as [o [i [E1 [H _]]]]. eauto.
Qed.
Lemma line_returns : forall k kn m, 1 <= k <= 480 -> checked u128 (n * k) = Some kn -> 0 <= m <= 2 ^ 24 -> exists o i, one_line f pf u128 n kn m = Ret (o, i) /\ 0 <= i <= m.
Proof.
  intros k kn m Hk E Hm. destruct (fit_mul n k kn ltac:(lia) ltac:(lia) E) as [A [B [C D]]].
  destruct (C26_one_line f pf u128 n kn m ltac:(cbn; lia) ltac:(lia) A B C ltac:(lia)) as [o [i [E1 [H _]]]]; [|eauto].
  destruct Hpf as [-> |L]; [left; reflexivity | right]. cbn [u128]. change (128 / 2) with 64.
  assert (n * k <= 2 ^ 94 * 480) by (apply Z.mul_le_mono_nonneg; lia). assert (n * k * (m - 1) <= 2 ^ 94 * 480 * 2 ^ 24) by (apply Z.le_trans with (n * k * 2 ^ 24); [apply Z.mul_le_mono_nonneg_l; nia | apply Z.mul_le_mono_nonneg_r; lia]). subst kn.
  assert (2 ^ 94 * 480 * 2 ^ 24 < (2 ^ 64 - 1) * (2 ^ 64 - 1)) by reflexivity. lia.
Qed.
Lemma rho_returns : forall x y m, 0 <= m <= 2 ^ 24 -> exists o i, pollard_rho pf (uops f pf u128) n (x mod 2 ^ 128) (y mod 2 ^ 128) m = Ret (o, i) /\ 0 <= i <= m.
Proof.
  intros x y m Hm. destruct (C25_pollard_rho f pf u128 n (x mod 2 ^ 128) (y mod 2 ^ 128) m ltac:(cbn; lia) ltac:(cbn; lia) ltac:(lia)) as [o [i [E [H _]]]]; [|lia|eauto].
  cbn [u128 in_range]. apply Z.mod_pos_bound. lia.
Qed.

(** best: [c] more times are enough for what is to come *)
Definition best_ok (best : Z * Z) : Prop := 0 <= fst best <= 2 ^ 24.
Lemma keep_best_returns : forall best r ts c, best_ok best -> 0 <= snd r <= fst best -> (S c <= length ts)%nat ->
  exists best' ts', keep_best best r ts = Ret (best', ts') /\ best_ok best' /\ (c <= length ts')%nat.
Proof.
  intros best [o i] ts c B H L. unfold keep_best. cbn [fst snd] in *. destruct o as [d|].
  - destruct (draw_some 128 ts ltac:(lia)) as [x [ts' [-> ->]]]. cbn [bind length] in *. eexists _, _. split; [reflexivity|]. split; [|lia]. unfold best_ok in *. rewrite pair_min_fst. cbn [fst]. lia.
  - eexists _, _. split; [reflexivity|]. split; [exact B | lia].
Qed.
Lemma best_mul_returns : forall (method : Z -> Z -> Z -> res (option Z * Z)) l,
  (forall k kn m, In k l -> checked u128 (n * k) = Some kn -> 0 <= m <= 2 ^ 24 -> exists o i, method n kn m = Ret (o, i) /\ 0 <= i <= m) ->
  forall c best ts, best_ok best -> (length l + c <= length ts)%nat ->
  exists best' ts', foldM (best_mul method n) l (best, ts) = Ret (best', ts') /\ best_ok best' /\ (c <= length ts')%nat.
Proof.
  intros method. induction l as [|k l IH]; intros Hm c best ts B L; cbn [foldM length] in *; [eauto 6|].
  assert (K : exists best' ts', best_mul method n (best, ts) k = Ret (best', ts') /\ best_ok best' /\ (length l + c <= length ts')%nat).
  { unfold best_mul. destruct (checked u128 (n * k)) as [kn|] eqn:E; [|eexists _, _; split; [reflexivity|]; split; [exact B | lia]].
    destruct (Hm k kn (fst best) (or_introl eq_refl) E B) as [o [i [-> Hi]]]. cbn [bind]. apply keep_best_returns; [exact B | exact Hi | lia]. }
  destruct K as [best' [ts' [-> [B' L']]]]. cbn [bind]. apply IH; [|exact B' | exact L']. intros k' kn m Hk. apply Hm. right. exact Hk.
Qed.
Lemma best_rho_returns : forall l c c' best ts dr, best_ok best -> (length l + c <= length ts)%nat -> (2 * length l + c' <= length dr)%nat ->
  exists best' ts' dr', foldM (best_rho f pf n) l (best, ts, dr) = Ret (best', ts', dr') /\ best_ok best' /\ (c <= length ts')%nat /\ (c' <= length dr')%nat.
Proof.
  induction l as [|k l IH]; intros c c' best ts dr B L L'; cbn [foldM length] in *; [eauto 8|].
  unfold best_rho at 1. destruct (draw_some 128 dr ltac:(lia)) as [x [d1 [-> ->]]]. cbn [bind length] in *. destruct (draw_some 128 d1 ltac:(lia)) as [y [d2 [-> ->]]]. cbn [bind length] in *.
  destruct (rho_returns x y (fst best) B) as [o [i [-> Hi]]]. cbn [bind]. destruct (keep_best_returns best (o, i) ts (length l + c) B Hi ltac:(lia)) as [best' [ts' [-> [B' T']]]]. cbn [bind]. apply IH; (assumption || lia).
Qed.
Lemma profile_n_min_returns : forall dr ts, (8 <= length dr)%nat -> (45 <= length ts)%nat -> exists r, profile_n_min f pf fuel n dr ts = Ret r.
Proof.
  intros dr ts Hd Ht. unfold profile_n_min. cbv zeta. assert (B0 : best_ok (16777216, 2 ^ 128 - 1)) by (unfold best_ok; cbn [fst]; lia).
  destruct (best_rho_returns (range_step 0 4 1) 41 0 _ ts dr B0 ltac:(cbn [length range_step range_from Z.to_nat]; vm_compute length at 1; lia) ltac:(vm_compute length at 1; lia)) as [b1 [ts1 [dr1 [E1 [B1 [T1 _]]]]]]. put E1. cbn [bind].
  destruct (best_mul_returns (squfof f pf u128 fuel) SQUFOF_MULTIPLIERS) with (c := 3%nat) (best := (16777216, 2 ^ 128 - 1)) (ts := ts1) as [b2 [ts2 [E2 [B2 T2]]]]; [|exact B0 | vm_compute length at 1; lia|].
  { intros k kn m Hk E Hm. apply (squfof_returns k); [apply multipliers_pos, Hk | exact E | lia]. }
  put E2. cbn [bind]. destruct (best_mul_returns (one_line f pf u128) [1; 360; 480]) with (c := 0%nat) (best := (16777216, 2 ^ 128 - 1)) (ts := ts2) as [b3 [ts3 [E3 [B3 T3]]]]; [|exact B0 | cbn [length]; lia|].
  { intros k kn m Hk E Hm. apply (line_returns k); [cbn [In] in Hk; lia | exact E | exact Hm]. }
  put E3. cbn [bind]. eauto.
Qed.
End Returns.

(** ** C82: profile_n_min returns, in release builds for every number and in debug builds below 2^94 (there the squares of one_line, C26,
    are in range), whatever is drawn and whatever the clock says. *)
Theorem C82_returns : forall f pf fuel n dr ts, 1 <= n < 2 ^ 128 -> pf = Release \/ n < 2 ^ 94 -> 2 ^ 129 <= fuel -> (8 <= length dr)%nat -> (45 <= length ts)%nat ->
  exists r, profile_n_min f pf fuel n dr ts = Ret r.
Proof. intros. apply profile_n_min_returns; assumption. Qed.
(** From (2^64 - 1)^2 on debug builds panic instead: in the first pass of one_line with the multiplier 1. *)
Theorem C82_debug_refuted : forall f fuel n dr ts, (2 ^ 64 - 1) * (2 ^ 64 - 1) <= n < 2 ^ 128 -> 2 ^ 129 <= fuel -> (8 <= length dr)%nat -> (45 <= length ts)%nat ->
  profile_n_min f Debug fuel n dr ts = Panic.
Proof.
  intros f fuel n dr ts Hn Hf Hd Ht. unfold profile_n_min. cbv zeta. assert (B0 : best_ok (16777216, 2 ^ 128 - 1)) by (unfold best_ok; cbn [fst]; lia). assert (N1 : 1 <= n < 2 ^ 128) by lia.
  destruct (best_rho_returns f Debug n N1 (range_step 0 4 1) 41 0 _ ts dr B0 ltac:(vm_compute length at 1; lia) ltac:(vm_compute length at 1; lia)) as [b1 [ts1 [dr1 [E1 [B1 [T1 _]]]]]]. put E1. cbn [bind].
  destruct (best_mul_returns n (squfof f Debug u128 fuel) SQUFOF_MULTIPLIERS) with (c := 3%nat) (best := (16777216, 2 ^ 128 - 1)) (ts := ts1) as [b2 [ts2 [E2 [B2 T2]]]]; [|exact B0 | vm_compute length at 1; lia|].
  { intros k kn m Hk E Hm. apply (squfof_returns f Debug fuel n N1 Hf k); [apply multipliers_pos, Hk | exact E | lia]. }
  put E2. cbn [bind foldM best_mul]. rewrite Z.mul_1_r. replace (checked u128 n) with (Some n) by (unfold checked, from_prim; replace (in_rangeb u128 n) with true; [reflexivity | symmetry; apply in_rangeb_spec; cbn [u128 in_range]; lia]).
  rewrite (C26_overflow_refuted f 128 n n) by (first [apply Z.divide_refl | cbn [valid_ity fst]; change (128 / 2) with 64; lia]). reflexivity.
Qed.

(** ** The six values: the iterations are at most 2^24, a time is the clock's or usize::MAX, and the last one is that of squfof. *)
Definition clocked (ts : list Z) (t : Z) : Prop := t = 2 ^ 64 - 1 \/ exists x, In x ts /\ t = (x mod 2 ^ 128) mod 2 ^ 64.
Definition best_inv (ts0 : draws) (best : Z * Z) (ts : draws) : Prop := 0 <= fst best <= 2 ^ 24 /\ clocked ts0 (snd best mod 2 ^ 64) /\ incl ts ts0.
Lemma keep_best_inv : forall ts0 best r ts, best_inv ts0 best ts -> 0 <= snd r <= fst best -> run True True (fun x => best_inv ts0 (fst x) (snd x)) (keep_best best r ts).
Proof.
  intros ts0 best [o i] ts [A [B C]] H. unfold keep_best. cbn [fst snd] in *. destruct o as [d|]; [|split; [exact A | split; [exact B | exact C]]].
  destruct ts as [|x ts]; cbn [draw bind run]; [exact I|]. unfold best_inv. cbn [fst snd]. rewrite pair_min_fst. cbn [fst]. split; [lia|]. split.
  - destruct (pair_min_snd best (i, x mod 2 ^ 128)) as [-> | ->]; [exact B|]. cbn [snd]. right. exists x. split; [apply C; left; reflexivity | reflexivity].
  - intros y Hy. apply C. right. exact Hy.
Qed.
Theorem C82_row : forall f pf fuel n dr ts s dr' ts', 1 <= n < 2 ^ 128 -> profile_n_min f pf fuel n dr ts = Ret (s, dr', ts') ->
  exists a ta b tb c, s = [(PollardRho, a); (TimePollardRho, ta); (Squfof, b); (TimeSqufof, tb); (OneLine, c); (TimeOneLine, tb)] /\
    0 <= a <= 2 ^ 24 /\ 0 <= b <= 2 ^ 24 /\ 0 <= c <= 2 ^ 24 /\ clocked ts ta /\ clocked ts tb /\ incl dr' dr /\ incl ts' ts.
Proof.
  intros f pf fuel n dr ts s dr' ts' Hn E. unfold profile_n_min in E. cbv zeta in E.
  assert (B0 : forall t, incl t ts -> best_inv ts (16777216, 2 ^ 128 - 1) t) by (intros t Ht; split; [cbn [fst]; lia|]; split; [left; reflexivity | exact Ht]).
  apply bind_ret in E. destruct E as [[[b1 ts1] dr1] [E1 E]]. apply bind_ret in E. destruct E as [[b2 ts2] [E2 E]]. apply bind_ret in E. destruct E as [[b3 ts3] [E3 E]]. injection E as <- <- <-.
  assert (R1 : best_inv ts b1 ts1 /\ incl dr1 dr).
  { refine (run_ret_inv _ True True (fun x => best_inv ts (fst (fst x)) (snd (fst x)) /\ incl (snd x) dr) _ _ _ E1). apply (run_foldM _ _ True True (fun _ x => best_inv ts (fst (fst x)) (snd (fst x)) /\ incl (snd x) dr)).
    - cbn [fst snd]. split; [apply B0, incl_refl | apply incl_refl].
    - intros dn k0 [[best t] d] _ [B I1]. cbn [fst snd] in *. unfold best_rho. destruct d as [|x [|y d]]; cbn [draw bind run]; try exact I.
      destruct (rho_returns f pf n Hn x y (fst best) (proj1 B)) as [o [i [-> Hi]]]. cbn [bind]. pose proof (keep_best_inv ts best (o, i) t B Hi) as K.
      destruct (keep_best best (o, i) t) as [[b' t']| |]; cbn [bind run fst snd] in *; try exact I. split; [exact K|]. intros z Hz. apply I1. right. right. exact Hz. }
  assert (G : forall (method : Z -> Z -> Z -> res (option Z * Z)) l t t' b, incl t ts ->
    (forall k kn m, In k l -> checked u128 (n * k) = Some kn -> 0 <= m <= 2 ^ 24 -> run True True (fun r => 0 <= snd r <= m) (method n kn m)) ->
    foldM (best_mul method n) l ((16777216, 2 ^ 128 - 1), t) = Ret (b, t') -> best_inv ts b t').
  { intros method l t t' b Ht Hm E. refine (run_ret_inv _ True True (fun x => best_inv ts (fst x) (snd x)) _ _ _ E). apply (run_foldM _ _ True True (fun _ x => best_inv ts (fst x) (snd x))); [cbn [fst snd]; apply B0, Ht|].
    intros dn k [best t1] Hk B. cbn [fst snd] in B. unfold best_mul. destruct (checked u128 (n * k)) as [kn|] eqn:Ek; [|exact B].
    specialize (Hm k kn (fst best) Hk Ek (proj1 B)). destruct (method n kn (fst best)) as [r| |]; cbn [bind run] in *; try exact I. apply keep_best_inv; assumption. }
  destruct R1 as [R1 I1]. assert (R2 : best_inv ts b2 ts2).
  { apply (G _ _ _ _ _ (proj2 (proj2 R1))) with (2 := E2). intros k kn m Hk Ek Hm. destruct (fit_mul n k kn ltac:(lia) (multipliers_pos k Hk) Ek) as [A [B [C _]]].
    destruct (square_dec kn ltac:(lia)) as [[r [R0 Er]]|Sq].
    - rewrite (C27_square f pf u128 fuel n kn m r) by (first [assumption | lia | (cbn; lia)]). cbn [run snd]. lia.
    - destruct (C27_squfof_any_fuel f pf u128 fuel n kn m ltac:(cbn; lia) ltac:(lia) A B C ltac:(lia) Sq) as [_ [H _]]. apply run_post. intros [o i] Eo. exact (proj1 (H o i Eo)). }
  assert (R3 : best_inv ts b3 ts3).
  { apply (G _ _ _ _ _ (proj2 (proj2 R2))) with (2 := E3). intros k kn m Hk Ek Hm. destruct (fit_mul n k kn ltac:(lia) ltac:(cbn [In] in Hk; lia) Ek) as [A [B [C _]]].
    pose proof (one_line_run f pf u128 n kn m ltac:(cbn; lia) ltac:(lia) A B C ltac:(lia)) as R. eapply run_mono; [exact R | auto | intros [] | intros r Hr; exact (proj1 Hr)]. }
  exists (fst b1), (snd b1 mod 2 ^ 64), (fst b2), (snd b2 mod 2 ^ 64), (fst b3). split; [reflexivity|]. destruct R1 as [A1 [A2 A3]], R2 as [C1 [C2 C3]], R3 as [D1 [D2 D3]]. tauto.
Qed.
(** What a run changes in the best pair (iterations, time): a failure nothing, a success with i iterations and the reading x makes it the
    smaller of the two pairs in lexicographic order. *)
Theorem C82_keep_best : forall a s ts,
  (forall i, keep_best (a, s) (None, i) ts = Ret ((a, s), ts)) /\
  (forall d i x, let t := x mod 2 ^ 128 in
    (a < i \/ (a = i /\ s <= t) -> keep_best (a, s) (Some d, i) (x :: ts) = Ret ((a, s), ts)) /\
    (i < a \/ (i = a /\ t <= s) -> keep_best (a, s) (Some d, i) (x :: ts) = Ret ((i, t), ts))).
Proof.
  intros a s ts. split; [reflexivity|]. intros d i x t. unfold keep_best. cbn [fst snd draw bind]. fold t. unfold pair_min. cbn [fst snd]. split; intros H.
  - replace ((a <? i) || ((a =? i) && (s <=? t))) with true; [reflexivity|]. symmetry. apply orb_true_iff. destruct H as [H|[-> H]]; [left; apply Z.ltb_lt; lia | right]. rewrite Z.eqb_refl. apply Z.leb_le. exact H.
  - destruct (Z.ltb_spec a i) as [L|L]; [exfalso; lia|]. destruct H as [H|[-> H]].
    + replace (a =? i) with false by (symmetry; apply Z.eqb_neq; lia). reflexivity.
    + rewrite Z.eqb_refl. cbn [orb andb]. destruct (Z.leb_spec s t) as [Q|Q]; [|reflexivity]. replace s with t by lia. reflexivity.
Qed.
Example C82_keep_case : keep_best (3, 5) (Some 7, 4) [9] = Ret ((3, 5), []) /\ keep_best (3, 5) (Some 7, 3) [4] = Ret ((3, 4), []).
Proof. split; reflexivity. Qed.
(** The column time_one_line is meant for one_line: here its only success took 5, but the reading 4 of squfof is written. *)
Theorem C82_time_one_line_refuted : forall f pf, profile_n_min f pf 1000 551 [2; 1; 3; 1; 5; 1; 9; 1] [1; 2; 3; 4; 5] =
  Ret ([(PollardRho, 4); (TimePollardRho, 2); (Squfof, 1); (TimeSqufof, 4); (OneLine, 1); (TimeOneLine, 4)], [], []).
Proof. destruct f, pf; vm_compute; reflexivity. Qed.
Example C82_case : 551 = 19 * 29 /\ profile_n BigTable Debug 1000 551 [2; 1; 3; 1] = Ret ([(PollardRhoNo 1, 8); (PollardRhoNo 2, 10); (SqufofK 1155, 3); (SqufofK 105, 3); (SqufofK 15015, 1);
  (SqufofK 1365, 1); (SqufofK 19635, 3); (SqufofK 165, 1); (SqufofK 1785, 1); (SqufofK 15, 1); (SqufofK 21945, 3); (SqufofK 2145, 3); (OneLineK 1, 1); (OneLineK 360, 4); (OneLineK 480, 2)], []).
Proof. split; [reflexivity | vm_compute; reflexivity]. Qed.

(** ** The value written for squfof is the least number of passes among the multipliers k with n * k below 2^128, although the later ones are
    given fewer passes (2^24 stands for no success). *)
Theorem C82_squfof_best : forall f pf fuel n dr ts s dr' ts', 1 <= n < 2 ^ 128 -> 2 ^ 129 <= fuel -> (forall k r, In k SQUFOF_MULTIPLIERS -> r * r <> n * k) ->
  profile_n_min f pf fuel n dr ts = Ret (s, dr', ts') ->
  exists v, In (Squfof, v) s /\
    (v = 2 ^ 24 \/ exists k d, In k SQUFOF_MULTIPLIERS /\ n * k < 2 ^ 128 /\ squfof f pf u128 fuel n (n * k) (2 ^ 24) = Ret (Some d, v)) /\
    (forall k d i, In k SQUFOF_MULTIPLIERS -> n * k < 2 ^ 128 -> squfof f pf u128 fuel n (n * k) (2 ^ 24) = Ret (Some d, i) -> v <= i).
Proof.
  intros f pf fuel n dr ts s dr' ts' Hn Hf Hsq E. unfold profile_n_min in E. cbv zeta in E.
  apply bind_ret in E. destruct E as [[[b1 ts1] dr1] [E1 E]]. apply bind_ret in E. destruct E as [[b2 ts2] [E2 E]]. apply bind_ret in E. destruct E as [[b3 ts3] [E3 E]]. injection E as <- <- <-.
  exists (fst b2). split; [cbn [In]; auto|].
  set (Inv := fun (l : list Z) (x : (Z * Z) * draws) => 0 <= fst (fst x) <= 2 ^ 24 /\ incl l SQUFOF_MULTIPLIERS /\
    (fst (fst x) = 2 ^ 24 \/ exists k d, In k l /\ n * k < 2 ^ 128 /\ squfof f pf u128 fuel n (n * k) (2 ^ 24) = Ret (Some d, fst (fst x))) /\
    (forall k d i, In k l -> n * k < 2 ^ 128 -> squfof f pf u128 fuel n (n * k) (2 ^ 24) = Ret (Some d, i) -> fst (fst x) <= i)).
  assert (R : Inv SQUFOF_MULTIPLIERS (b2, ts2)).
  { refine (run_ret_inv _ True True (Inv SQUFOF_MULTIPLIERS) _ _ _ E2). apply (run_foldM _ _ True True Inv).
    - unfold Inv. cbn [fst]. split; [lia|]. split; [intros y []|]. split; [left; reflexivity | intros k d i []].
    - intros l k [best t] Hk [A [I0 [B C]]]. cbn [fst] in A, B, C. unfold best_mul. destruct (checked u128 (n * k)) as [kn|] eqn:Ek.
      + destruct (fit_mul n k kn ltac:(lia) (multipliers_pos k Hk) Ek) as [K1 [K2 [K3 K4]]]. assert (S1 : ~ exists r, r * r = kn) by (intros [r Er]; apply (Hsq k r Hk); lia).
        assert (F1 : 2 * kn <= fuel) by (cbn [u128 in_range] in K2; lia). assert (V : valid_ity u128) by (cbn; lia).
        destruct (C27_squfof f pf u128 fuel n kn (fst best) V ltac:(lia) K1 K2 K3 ltac:(lia) S1 F1) as [o [i [Eo [Hi _]]]]. rewrite Eo. cbn [bind]. unfold keep_best. cbn [fst snd].
        assert (In1 : incl (l ++ [k]) SQUFOF_MULTIPLIERS) by (intros y Hy; apply in_app_or in Hy; destruct Hy as [Hy|[<-|[]]]; [apply I0, Hy | exact Hk]).
        destruct o as [d|].
        * pose proof (C77_more_passes f pf u128 fuel n kn (fst best) (2 ^ 24) V ltac:(lia) K1 K2 K3 ltac:(lia) S1 F1 d i Eo) as E24. destruct t as [|x t]; cbn [draw bind run]; [exact I|].
          unfold Inv. cbn [fst]. rewrite pair_min_fst. cbn [fst]. rewrite Z.min_r by lia. split; [lia|]. split; [exact In1|]. split.
          -- right. exists k, d. rewrite <- K4. split; [apply in_or_app; right; left; reflexivity|]. split; [cbn [u128 in_range] in K2; lia | exact E24].
          -- intros k' d' i' Hk' Hfit E'. apply in_app_or in Hk'. destruct Hk' as [Hk'|[<-|[]]]; [specialize (C k' d' i' Hk' Hfit E'); lia|]. rewrite <- K4, E24 in E'. injection E' as _ <-. lia.
        * cbn [run]. unfold Inv. cbn [fst]. split; [exact A|]. split; [exact In1|]. split.
          -- destruct B as [B|[k' [d' [B1 B2]]]]; [left; exact B | right]. exists k', d'. split; [apply in_or_app; left; exact B1 | exact B2].
          -- intros k' d' i' Hk' Hfit E'. apply in_app_or in Hk'. destruct Hk' as [Hk'|[<-|[]]]; [exact (C k' d' i' Hk' Hfit E')|]. rewrite <- K4 in E'.
             destruct (Z.le_gt_cases (fst best) i') as [L|L]; [exact L|]. exfalso.
             apply (C77_squfof f pf u128 fuel n kn (2 ^ 24) V ltac:(lia) K1 K2 K3 ltac:(lia) S1 F1) in E'. destruct E' as [P1 P2].
             assert (X : squfof f pf u128 fuel n kn (fst best) = Ret (Some d', i')) by (apply (C77_squfof f pf u128 fuel n kn (fst best) V ltac:(lia) K1 K2 K3 ltac:(lia) S1 F1); split; [lia | exact P2]). rewrite Eo in X. discriminate X.
      + apply checked_none in Ek. cbn [run]. unfold Inv. cbn [fst]. split; [exact A|]. split; [intros y Hy; apply in_app_or in Hy; destruct Hy as [Hy|[<-|[]]]; [apply I0, Hy | exact Hk]|]. split.
        * destruct B as [B|[k' [d' [B1 B2]]]]; [left; exact B | right]. exists k', d'. split; [apply in_or_app; left; exact B1 | exact B2].
        * intros k' d' i' Hk' Hfit E'. apply in_app_or in Hk'. destruct Hk' as [Hk'|[<-|[]]]; [exact (C k' d' i' Hk' Hfit E')|]. exfalso. apply Ek. pose proof (multipliers_pos k Hk). cbn [u128 in_range]. nia. }
  destruct R as [_ [_ [B C]]]. cbn [fst] in B, C. split; [exact B | exact C].
Qed.
Example C82_best_case : (forall k r, In k SQUFOF_MULTIPLIERS -> r * r <> 551 * k) /\ squfof BigTable Debug u128 1000 551 (551 * 1155) (2 ^ 24) = Ret (Some 19, 3) /\ squfof BigTable Debug u128 1000 551 (551 * 105) 3 = Ret (None, 3).
Proof.
  split.
  - intros k r Hk C. assert (D : (29 | r)) by (assert (D : (29 | r * r)) by (exists (19 * k); lia); destruct (prime_mult 29 (proj1 (fast_primeb_spec 29) eq_refl) _ _ D); assumption). destruct D as [c ->].
    assert (D : (29 | k)) by (apply (Gauss 29 19 k); [exists (c * c); lia | apply Zgcd_1_rel_prime; reflexivity]).
    assert (A : forallb (fun k => negb (k mod 29 =? 0)) SQUFOF_MULTIPLIERS = true) by (vm_compute; reflexivity). rewrite forallb_forall in A. specialize (A k Hk). apply Zdivide_mod in D. rewrite D in A. discriminate A.
  - split; vm_compute; reflexivity.
Qed.

(** ** The same for one_line, in both profiles: it counts its passes, so fewer passes only cut off the later successes. *)
Lemma ol_counts : forall f pf t target K n st, 0 <= n ->
  run True True (fun r => match r with Next s => fst s = fst st + n | Done x => exists k, 0 <= k < n /\ snd x = fst st + k end) (iter n (ol_step f pf t target K) st).
Proof.
  intros f pf t target K n st Hn. apply (run_iter_count _ _ True True (fun k s => fst s = fst st + k) (fun k x => snd x = fst st + k)); [exact Hn | lia|].
  intros k [i ikn] _ Hi. cbn [fst] in Hi. unfold ol_step.
  repeat match goal with
  | |- run True True _ (bind ?x _) => destruct x as [?| |]; cbn [bind run]; try exact I
  | |- run True True _ (match ?x with Some _ => _ | None => _ end) => destruct x as [?|]; cbn [run fst snd]
  end; lia.
Qed.
(** C73, for any type: fewer passes only cut off the later successes. *)
Theorem C73_more_passes : forall f pf t target K v w, 0 <= v <= w ->
  (forall d i, one_line f pf t target K v = Ret (Some d, i) -> 1 <= i < v /\ one_line f pf t target K w = Ret (Some d, i)) /\
  (forall d i, i < v -> one_line f pf t target K w = Ret (Some d, i) -> one_line f pf t target K v = Ret (Some d, i)).
Proof.
  intros f pf t target K v w Hv. unfold one_line. destruct (rem_ K target) as [m| |]; cbn [bind]; try (split; intros; discriminate). destruct (negb (m =? 0)); [split; intros; discriminate|].
  destruct (Z.le_gt_cases v 1) as [L|L].
  { rewrite iter_le0 by lia. cbn [bind]. split; [intros; discriminate|]. intros d i Hi E. exfalso. apply bind_ret in E. destruct E as [r [E H]]. destruct r as [s|x]; [discriminate H|]. injection H as ->.
    destruct (Z.le_gt_cases w 1) as [L'|L']; [rewrite iter_le0 in E by lia; discriminate E|].
    pose proof (ol_counts f pf t target K (w - 1) (1, K) ltac:(lia)) as C. rewrite E in C. cbn [run fst snd] in C. destruct C as [k [Hk Ek]]. lia. }
  rewrite !iter_niter. replace (Z.to_nat (w - 1)) with (Z.to_nat (v - 1) + Z.to_nat (w - v))%nat by lia. rewrite niter_add.
  pose proof (ol_counts f pf t target K (v - 1) (1, K) ltac:(lia)) as C. rewrite iter_niter in C.
  destruct (niter (ol_step f pf t target K) (Z.to_nat (v - 1)) (1, K)) as [[s|x]| |]; cbn [bind kbind run fst snd] in *; try (split; intros; discriminate).
  - split; [intros; discriminate|]. intros d i Hi E. exfalso. apply bind_ret in E. destruct E as [r [E H]]. destruct r as [s'|x]; [discriminate H|]. injection H as ->.
    pose proof (ol_counts f pf t target K (w - v) s ltac:(lia)) as C'. rewrite iter_niter, E in C'. cbn [run fst snd] in C'. destruct C' as [k [Hk Ek]]. lia.
  - destruct C as [k [Hk Ek]]. split.
    + intros d i E. injection E as ->. cbn [snd] in Ek. split; [lia | reflexivity].
    + intros d i _ E. exact E.
Qed.
Theorem C82_one_line_best : forall f pf fuel n dr ts s dr' ts', 1 <= n < 2 ^ 128 -> profile_n_min f pf fuel n dr ts = Ret (s, dr', ts') ->
  exists v, In (OneLine, v) s /\
    (v = 2 ^ 24 \/ exists k d, In k [1; 360; 480] /\ n * k < 2 ^ 128 /\ one_line f pf u128 n (n * k) (2 ^ 24) = Ret (Some d, v)) /\
    (forall k d i, In k [1; 360; 480] -> n * k < 2 ^ 128 -> one_line f pf u128 n (n * k) (2 ^ 24) = Ret (Some d, i) -> v <= i).
Proof.
  intros f pf fuel n dr ts s dr' ts' Hn E. unfold profile_n_min in E. cbv zeta in E.
  apply bind_ret in E. destruct E as [[[b1 ts1] dr1] [E1 E]]. apply bind_ret in E. destruct E as [[b2 ts2] [E2 E]]. apply bind_ret in E. destruct E as [[b3 ts3] [E3 E]]. injection E as <- <- <-.
  exists (fst b3). split; [cbn [In]; auto 7|].
  set (Inv := fun (l : list Z) (x : (Z * Z) * draws) => 0 <= fst (fst x) <= 2 ^ 24 /\
    (fst (fst x) = 2 ^ 24 \/ exists k d, In k l /\ n * k < 2 ^ 128 /\ one_line f pf u128 n (n * k) (2 ^ 24) = Ret (Some d, fst (fst x))) /\
    (forall k d i, In k l -> n * k < 2 ^ 128 -> one_line f pf u128 n (n * k) (2 ^ 24) = Ret (Some d, i) -> fst (fst x) <= i)).
  assert (R : Inv [1; 360; 480] (b3, ts3)).
  { refine (run_ret_inv _ True True (Inv _) _ _ _ E3). apply (run_foldM _ _ True True Inv).
    - unfold Inv. cbn [fst]. split; [lia|]. split; [left; reflexivity | intros k d i []].
    - intros l k [best t] Hk [A [B C]]. cbn [fst] in A, B, C. unfold best_mul.
      assert (B' : forall y : list Z, fst best = 2 ^ 24 \/ exists k d, In k (l ++ y) /\ n * k < 2 ^ 128 /\ one_line f pf u128 n (n * k) (2 ^ 24) = Ret (Some d, fst best)).
      { intros y. destruct B as [B|[k' [d' [B1 B2]]]]; [left; exact B | right]. exists k', d'. split; [apply in_or_app; left; exact B1 | exact B2]. }
      destruct (checked u128 (n * k)) as [kn|] eqn:Ek.
      + apply checked_inv in Ek. destruct Ek as [-> Hr]. cbn [u128 in_range] in Hr. destruct (C73_more_passes f pf u128 n (n * k) (fst best) (2 ^ 24) A) as [F1 F2].
        destruct (one_line f pf u128 n (n * k) (fst best)) as [[o i]| |] eqn:Eo; cbn [bind run]; try exact I. unfold keep_best. cbn [fst snd]. destruct o as [d|].
        * destruct (F1 d i eq_refl) as [Hi E24]. destruct t as [|x t]; cbn [draw bind run]; [exact I|]. unfold Inv. cbn [fst]. rewrite pair_min_fst. cbn [fst]. rewrite Z.min_r by lia. split; [lia|]. split.
          -- right. exists k, d. split; [apply in_or_app; right; left; reflexivity|]. split; [lia | exact E24].
          -- intros k' d' i' Hk' Hfit E'. apply in_app_or in Hk'. destruct Hk' as [Hk'|[<-|[]]]; [specialize (C k' d' i' Hk' Hfit E'); lia|]. rewrite E24 in E'. injection E' as _ <-. lia.
        * cbn [run]. unfold Inv. cbn [fst]. split; [exact A|]. split; [apply B'|].
          intros k' d' i' Hk' Hfit E'. apply in_app_or in Hk'. destruct Hk' as [Hk'|[<-|[]]]; [exact (C k' d' i' Hk' Hfit E')|].
          destruct (Z.le_gt_cases (fst best) i') as [L|L]; [exact L|]. specialize (F2 d' i' L E'). discriminate F2.
      + apply checked_none in Ek. cbn [run]. unfold Inv. cbn [fst]. split; [exact A|]. split; [apply B'|].
        intros k' d' i' Hk' Hfit E'. apply in_app_or in Hk'. destruct Hk' as [Hk'|[<-|[]]]; [exact (C k' d' i' Hk' Hfit E')|]. exfalso. apply Ek. cbn [In] in Hk. cbn [u128 in_range]. lia. }
  destruct R as [_ [B C]]. cbn [fst] in B, C. split; [exact B | exact C].
Qed.
Example C82_line_case : one_line BigTable Debug u128 551 (551 * 360) (2 ^ 24) = Ret (Some 29, 4) /\ one_line BigTable Debug u128 551 (551 * 360) 4 = Ret (None, 4).
Proof. split; vm_compute; reflexivity. Qed.

(** ** And for pollard_rho: the least number of iterations among the four runs with the drawn start values and offsets. *)
Lemma rho_counts : forall f pf t n c k0 st, 0 <= k0 -> 0 <= r_i st -> r_i st + k0 < 2 ^ 64 ->
  run True True (fun r => match r with Next s => r_i s = r_i st + k0 | Done x => exists k, 0 <= k < k0 /\ snd x = r_i st + k + 1 end) (iter k0 (rho_step pf (uops f pf t) n c) st).
Proof.
  intros f pf t n c k0 st Hk H0 Hr. apply (run_iter_count _ _ True True (fun k s => r_i s = r_i st + k) (fun k x => snd x = r_i st + k + 1)); [exact Hk | lia|].
  intros k s Hks Hi. unfold rho_step. rewrite add_ok by (cbn [usize in_range]; lia). cbn [bind].
  repeat match goal with
  | |- run True True _ (bind ?x _) => destruct x as [?| |]; cbn [bind run]; try exact I
  | |- run True True _ (if ?x then _ else _) => destruct x; cbn [run fst snd r_i]
  | |- run True True _ (match ?x with Some _ => _ | None => _ end) => destruct x as [?|]; cbn [run fst snd r_i]
  end; cbn [run fst snd r_i]; lia.
Qed.
(** C72, for any type: fewer iterations only cut off the later successes. *)
Theorem C72_more_iterations : forall f pf t n start c v w, 0 <= v <= w -> w < 2 ^ 64 ->
  (forall d i, pollard_rho pf (uops f pf t) n start c v = Ret (Some d, i) -> 1 <= i <= v /\ pollard_rho pf (uops f pf t) n start c w = Ret (Some d, i)) /\
  (forall d i, i <= v -> pollard_rho pf (uops f pf t) n start c w = Ret (Some d, i) -> pollard_rho pf (uops f pf t) n start c v = Ret (Some d, i)).
Proof.
  intros f pf t n start c v w Hv Hw. unfold pollard_rho.
  destruct (o_one (uops f pf t)) as [one| |]; cbn [bind]; try (split; intros; discriminate). destruct (o_rem (uops f pf t) one n) as [z| |]; cbn [bind]; try (split; intros; discriminate).
  set (st0 := {| r_a := start; r_b := start; r_z := z; r_i := 0; r_j := 1; r_s := start; r_bt := false |}).
  rewrite !iter_niter. replace (Z.to_nat w) with (Z.to_nat v + Z.to_nat (w - v))%nat by lia. rewrite niter_add.
  pose proof (rho_counts f pf t n c v st0 ltac:(lia) ltac:(cbn [st0 r_i]; lia) ltac:(cbn [st0 r_i]; lia)) as C. rewrite iter_niter in C. change (r_i st0) with 0 in C.
  destruct (niter (rho_step pf (uops f pf t) n c) (Z.to_nat v) st0) as [[s|x]| |]; cbn [bind kbind run fst snd] in *; try (split; intros; discriminate).
  - split; [intros; discriminate|]. intros d i Hi E. exfalso. apply bind_ret in E. destruct E as [r [E H]]. destruct r as [s'|x]; [discriminate H|]. injection H as ->.
    pose proof (rho_counts f pf t n c (w - v) s ltac:(lia) ltac:(lia) ltac:(lia)) as C'. rewrite iter_niter, E in C'. cbn [run fst snd] in C'. destruct C' as [k [Hk Ek]]. lia.
  - destruct C as [k [Hk Ek]]. split.
    + intros d i E. injection E as ->. cbn [snd] in Ek. split; [lia | reflexivity].
    + intros d i _ E. exact E.
Qed.
Definition rho_least (f : feature) (pf : profile) (n : Z) (l : list (Z * Z)) (v : Z) : Prop :=
  (v = 2 ^ 24 \/ exists x y d, In (x, y) l /\ pollard_rho pf (uops f pf u128) n (x mod 2 ^ 128) (y mod 2 ^ 128) (2 ^ 24) = Ret (Some d, v)) /\
  (forall x y d i, In (x, y) l -> pollard_rho pf (uops f pf u128) n (x mod 2 ^ 128) (y mod 2 ^ 128) (2 ^ 24) = Ret (Some d, i) -> v <= i).
Lemma best_rho_least : forall f pf n l best ts dr k best' ts' dr', 0 <= fst best <= 2 ^ 24 -> rho_least f pf n l (fst best) -> best_rho f pf n (best, ts, dr) k = Ret (best', ts', dr') ->
  exists x y, dr = x :: y :: dr' /\ 0 <= fst best' <= 2 ^ 24 /\ rho_least f pf n (l ++ [(x, y)]) (fst best').
Proof.
  intros f pf n l best ts dr k best' ts' dr' A [B C] E. unfold best_rho in E. destruct dr as [|x [|y d]]; cbn [draw bind] in E; try discriminate E.
  destruct (C72_more_iterations f pf u128 n (x mod 2 ^ 128) (y mod 2 ^ 128) (fst best) (2 ^ 24) A ltac:(lia)) as [F1 F2].
  destruct (pollard_rho pf (uops f pf u128) n (x mod 2 ^ 128) (y mod 2 ^ 128) (fst best)) as [[o i]| |]; cbn [bind] in E; try discriminate E. unfold keep_best in E. cbn [fst snd] in E.
  exists x, y. destruct o as [d1|].
  - destruct (F1 d1 i eq_refl) as [Hi E24]. destruct ts as [|t0 ts]; cbn [draw bind] in E; [discriminate E|]. injection E as <- <- <-. split; [reflexivity|]. rewrite pair_min_fst. cbn [fst]. rewrite Z.min_r by lia. split; [lia|]. split.
    + right. exists x, y, d1. split; [apply in_or_app; right; left; reflexivity | exact E24].
    + intros x' y' d' i' H E'. apply in_app_or in H. destruct H as [H|[H|[]]]; [specialize (C x' y' d' i' H E'); lia|]. injection H as <- <-. rewrite E24 in E'. injection E' as _ <-. lia.
  - cbn [bind] in E. injection E as <- <- <-. split; [reflexivity|]. split; [exact A|]. split.
    + destruct B as [B|[x' [y' [d' [B1 B2]]]]]; [left; exact B | right]. exists x', y', d'. split; [apply in_or_app; left; exact B1 | exact B2].
    + intros x' y' d' i' H E'. apply in_app_or in H. destruct H as [H|[H|[]]]; [exact (C x' y' d' i' H E')|]. injection H as <- <-.
      destruct (Z.le_gt_cases (fst best) i') as [L|L]; [exact L|]. specialize (F2 d' i' ltac:(lia) E'). discriminate F2.
Qed.
Theorem C82_rho_best : forall f pf fuel n dr ts s dr' ts', profile_n_min f pf fuel n dr ts = Ret (s, dr', ts') ->
  exists x1 y1 x2 y2 x3 y3 x4 y4 v, dr = x1 :: y1 :: x2 :: y2 :: x3 :: y3 :: x4 :: y4 :: dr' /\ In (PollardRho, v) s /\
    let run_of x y := pollard_rho pf (uops f pf u128) n (x mod 2 ^ 128) (y mod 2 ^ 128) (2 ^ 24) in
    (v = 2 ^ 24 \/ exists x y d, In (x, y) [(x1, y1); (x2, y2); (x3, y3); (x4, y4)] /\ run_of x y = Ret (Some d, v)) /\
    (forall x y d i, In (x, y) [(x1, y1); (x2, y2); (x3, y3); (x4, y4)] -> run_of x y = Ret (Some d, i) -> v <= i).
Proof.
  intros f pf fuel n dr ts s dr' ts' E. unfold profile_n_min in E. cbv zeta in E.
  apply bind_ret in E. destruct E as [[[b1 ts1] dr1] [E1 E]]. apply bind_ret in E. destruct E as [[b2 ts2] [E2 E]]. apply bind_ret in E. destruct E as [[b3 ts3] [E3 E]]. injection E as <- <- <-.
  change (range_step 0 4 1) with [0; 1; 2; 3] in E1. cbn [foldM] in E1. set (b0 := (16777216, 2 ^ 128 - 1)) in E1.
  apply bind_ret in E1. destruct E1 as [[[c1 t1] d1] [S1 E1]]. apply bind_ret in E1. destruct E1 as [[[c2 t2] d2] [S2 E1]]. apply bind_ret in E1. destruct E1 as [[[c3 t3] d3] [S3 E1]]. apply bind_ret in E1. destruct E1 as [[[c4 t4] d4] [S4 E1]]. injection E1 as -> -> ->.
  assert (L0 : rho_least f pf n [] (fst b0)) by (split; [left; reflexivity | intros x y d i []]).
  destruct (best_rho_least f pf n [] b0 ts dr 0 c1 t1 d1 ltac:(cbn [b0 fst]; lia) L0 S1) as [x1 [y1 [-> [A1 L1]]]]. destruct (best_rho_least f pf n _ c1 t1 d1 1 c2 t2 d2 A1 L1 S2) as [x2 [y2 [-> [A2 L2]]]].
  destruct (best_rho_least f pf n _ c2 t2 d2 2 c3 t3 d3 A2 L2 S3) as [x3 [y3 [-> [A3 L3]]]]. destruct (best_rho_least f pf n _ c3 t3 d3 3 b1 ts1 dr1 A3 L3 S4) as [x4 [y4 [-> [A4 L4]]]].
  exists x1, y1, x2, y2, x3, y3, x4, y4, (fst b1). split; [reflexivity|]. split; [left; reflexivity|]. cbv zeta. exact L4.
Qed.
Example C82_rho_case : pollard_rho Debug (uops BigTable Debug u128) 551 2 1 (2 ^ 24) = Ret (Some 19, 8) /\ pollard_rho Debug (uops BigTable Debug u128) 551 5 1 (2 ^ 24) = Ret (Some 19, 4) /\
  pollard_rho Debug (uops BigTable Debug u128) 551 2 1 7 = Ret (None, 7).
Proof. split; [|split]; vm_compute; reflexivity. Qed.

(** ** The semiprimes: the pair of primes for [tb] bits. The draws that serve as random witnesses are not 0 (C13). *)
Definition accepted (f : feature) (pf : profile) (lf : nat) (p : Z) : Prop := exists d d', prime_probably f pf u128 lf p None d = Ret (true, d').
Lemma gen_more : forall f pf lf fuel exact b dr p dr', 1 <= b <= 128 -> Z.of_nat lf <= 2 ^ 31 -> gen_prime_u128 f pf lf fuel exact b None dr = Ret (p, dr') -> incl dr' dr /\ accepted f pf lf p.
Proof.
  intros f pf lf fuel exact b dr p dr' Hb Hlf E. pose proof (gen_prime_u128_spec f pf lf fuel Hlf b exact None dr Hb eq_refl) as R. rewrite E in R. cbn [run wide_post] in R.
  destruct R as [I1 [x [_ R]]]. cbv zeta in R. destruct R as [_ [_ [R _]]]. split; [exact I1|]. destruct R as [R|R]; exact R.
Qed.
Lemma pair_bits : forall f pf lf fuel tb dr p1 p2 dr', 20 <= tb < 120 -> Z.of_nat lf <= 2 ^ 31 -> (forall y, In y dr -> y mod 2 ^ 64 <> 0) ->
  semiprime_pair f pf lf fuel tb dr = Ret (p1, p2, dr') ->
  exists k dr1, gen_prime_u128 f pf lf fuel false (tb / 2) None dr = Ret (p1, dr1) /\ 1 <= k <= tb / 2 + 1 /\ 2 ^ (k - 1) <= p1 < 2 ^ k /\ 2 ^ (tb - k - 1) <= p2 < 2 ^ (tb - k + 1) /\
    accepted f pf lf p1 /\ accepted f pf lf p2 /\ incl dr' dr.
Proof.
  intros f pf lf fuel tb dr p1 p2 dr' Htb Hlf Hdr E. unfold semiprime_pair in E. apply bind_ret in E. destruct E as [[q1 dr1] [E1 E]].
  assert (Hh : 10 <= tb / 2 /\ 2 * (tb / 2) <= tb) by (split; [apply Z.div_le_lower_bound; lia | apply Z.mul_div_le; lia]).
  assert (Hb : 1 <= tb / 2 <= 128) by lia.
  pose proof (C74_gen_prime_u128 f pf lf fuel (tb / 2) false None dr q1 dr1 Hb Hlf eq_refl Hdr E1) as B1. cbv iota in B1. destruct (gen_more _ _ _ _ _ _ _ _ _ Hb Hlf E1) as [I1 A1].
  replace (q1 =? 0) with false in E by (symmetry; apply Z.eqb_neq; lia). cbv zeta in E.
  assert (Hk : 0 <= Z.log2 q1 <= tb / 2) by (split; [apply Z.log2_nonneg|]; assert (Z.log2 q1 < tb / 2 + 1) by (apply Z.log2_lt_pow2; lia); lia).
  rewrite sub_ok in E by (cbn [usize in_range]; lia). cbn [bind] in E. apply bind_ret in E. destruct E as [[q2 dr2] [E2 E]]. injection E as -> -> ->.
  assert (Hb2 : 1 <= tb - (Z.log2 p1 + 1) <= 128) by lia. assert (Hdr1 : forall y, In y dr1 -> y mod 2 ^ 64 <> 0) by (intros y Hy; apply Hdr, I1, Hy).
  pose proof (C74_gen_prime_u128 f pf lf fuel _ true None dr1 p2 dr' Hb2 Hlf eq_refl Hdr1 E2) as B2. cbv iota in B2. destruct (gen_more _ _ _ _ _ _ _ _ _ Hb2 Hlf E2) as [I2 A2].
  exists (Z.log2 p1 + 1), dr1. pose proof (Z.log2_spec p1 ltac:(lia)) as [L1 L2]. unfold Z.succ in L2. replace (Z.log2 p1 + 1 - 1) with (Z.log2 p1) by lia.
  split; [exact E1|]. split; [lia|]. split; [lia|]. split; [exact B2|]. split; [exact A1|]. split; [exact A2|]. eapply incl_tran; eassumption.
Qed.
Theorem C82_pair : forall f pf lf fuel tb dr p1 p2 dr', 20 <= tb < 120 -> Z.of_nat lf <= 2 ^ 31 -> (forall y, In y dr -> y mod 2 ^ 64 <> 0) ->
  semiprime_pair f pf lf fuel tb dr = Ret (p1, p2, dr') ->
  accepted f pf lf p1 /\ accepted f pf lf p2 /\ 1 <= p1 < 2 ^ (tb / 2 + 1) /\ 1 <= p2 /\ 2 ^ (tb - 2) <= p1 * p2 < 2 ^ (tb + 1).
Proof.
  intros f pf lf fuel tb dr p1 p2 dr' Htb Hlf Hdr E. destruct (pair_bits f pf lf fuel tb dr p1 p2 dr' Htb Hlf Hdr E) as [k [dr1 [_ [Hk [H1 [H2 [A1 [A2 _]]]]]]]].
  assert (Hh : 2 * (tb / 2) <= tb) by (apply Z.mul_div_le; lia). assert (10 <= tb / 2) by (apply Z.div_le_lower_bound; lia).
  assert (P1 : 0 < 2 ^ (k - 1)) by (apply Z.pow_pos_nonneg; lia). assert (P2 : 0 < 2 ^ (tb - k - 1)) by (apply Z.pow_pos_nonneg; lia).
  split; [exact A1|]. split; [exact A2|]. split; [split; [lia|]; apply Z.lt_le_trans with (2 ^ k); [lia | apply Z.pow_le_mono_r; lia]|]. split; [lia|].
  assert (Q1 : 2 ^ (tb - 2) = 2 ^ (k - 1) * 2 ^ (tb - k - 1)) by (rewrite <- Z.pow_add_r by lia; f_equal; lia). assert (Q2 : 2 ^ (tb + 1) = 2 ^ k * 2 ^ (tb - k + 1)) by (rewrite <- Z.pow_add_r by lia; f_equal; lia).
  rewrite Q1, Q2. split; [apply Z.mul_le_mono_nonneg; lia | apply Z.mul_lt_mono_nonneg; lia].
Qed.
(** "Semiprime ({}bits)" is printed with tb; both neighbours occur: 19 bits for tb = 20, and 28 bits for tb = 27. *)
Theorem C82_bits_refuted : forall f pf, semiprime_pair f pf 50 300 20 [2 ^ 127 + 1; 2 ^ 126 + 1] = Ret (521, 769, []) /\ 521 * 769 < 2 ^ 19 /\
  semiprime_pair f pf 50 300 27 [2 ^ 128 - 1; 2 ^ 128 - 1] = Ret (8191, 16411, []) /\ 2 ^ 27 < 8191 * 16411.
Proof. intros f pf. split; [destruct f, pf; vm_compute; reflexivity|]. split; [reflexivity|]. split; [destruct f, pf; vm_compute; reflexivity | reflexivity]. Qed.
(** Equal primes are skipped. They occur for odd tb as well, *)
Example C82_equal_case : semiprime_pair BigTable Debug 50 300 21 [2 ^ 128 - 1; 2 ^ 128 - 1] = Ret (1031, 1031, []).
Proof. vm_compute. reflexivity. Qed.
(** but never for tb = 27, because 2^13 - 1 is prime. *)
Theorem C82_distinct : forall f pf lf fuel dr p1 p2 dr', Z.of_nat lf <= 2 ^ 31 -> (forall y, In y dr -> y mod 2 ^ 64 <> 0) ->
  semiprime_pair f pf lf fuel 27 dr = Ret (p1, p2, dr') -> p1 < p2.
Proof.
  intros f pf lf fuel dr p1 p2 dr' Hlf Hdr E. destruct (pair_bits f pf lf fuel 27 dr p1 p2 dr' ltac:(lia) Hlf Hdr E) as [k [dr1 [E1 [Hk [H1 [H2 _]]]]]]. change (27 / 2) with 13 in *.
  destruct (C38_gen_prime_u128 f pf lf fuel 13 None dr p1 dr1 ltac:(lia) Hlf eq_refl E1) as [x [_ H]]. cbv zeta in H. destruct H as [T1 [T2 [_ T3]]].
  assert (P : prime 8191) by (apply fast_primeb_spec; vm_compute; reflexivity). assert (L : p1 <= 8191) by (destruct (Z.le_gt_cases p1 8191) as [L|L]; [exact L|]; exfalso; apply (T3 Hdr 8191 P); lia).
  assert (k <= 13). { destruct (Z.le_gt_cases k 13) as [Q|Q]; [exact Q|]. exfalso. assert (2 ^ 13 <= 2 ^ (k - 1)) by (apply Z.pow_le_mono_r; lia). lia. }
  assert (2 ^ 13 <= 2 ^ (27 - k - 1)) by (apply Z.pow_le_mono_r; lia). lia.
Qed.

(** ** The file: no run that gets through the loops fails at stats[0], every line is a product of two different accepted numbers, and every line
    has the six columns of the header. *)
Definition header : list column := [PollardRho; TimePollardRho; Squfof; TimeSqufof; OneLine; TimeOneLine].
Definition line_ok (f : feature) (pf : profile) (lf : nat) (ns : Z * row) : Prop :=
  (exists p1 p2 tb, fst ns = p1 * p2 /\ p1 <> p2 /\ accepted f pf lf p1 /\ accepted f pf lf p2 /\ 20 <= tb < 120 /\ 2 ^ (tb - 2) <= p1 * p2 < 2 ^ (tb + 1)) /\ map fst (snd ns) = header.
Lemma pass_ok : forall f pf lf fuel tb dr0 stats dr ts k, 20 <= tb < 120 -> Z.of_nat lf <= 2 ^ 31 -> (forall y, In y dr0 -> y mod 2 ^ 64 <> 0) -> incl dr dr0 -> (forall x, In x stats -> line_ok f pf lf x) ->
  run True True (fun r => incl (snd (fst r)) dr0 /\ (forall x, In x (fst (fst r)) -> line_ok f pf lf x) /\ (stats <> [] \/ tb = 27 -> fst (fst r) <> [])) (profile_pass f pf lf fuel tb (stats, dr, ts) k).
Proof.
  intros f pf lf fuel tb dr0 stats dr ts k Htb Hlf Hdr0 Hi Hs. unfold profile_pass. assert (Hdr : forall y, In y dr -> y mod 2 ^ 64 <> 0) by (intros y Hy; apply Hdr0, Hi, Hy).
  destruct (semiprime_pair f pf lf fuel tb dr) as [[[p1 p2] dr1]| |] eqn:E; cbn [bind run]; try exact I.
  destruct (C82_pair f pf lf fuel tb dr p1 p2 dr1 Htb Hlf Hdr E) as [A1 [A2 [B1 [B2 B3]]]]. destruct (pair_bits f pf lf fuel tb dr p1 p2 dr1 Htb Hlf Hdr E) as [_ [_ [_ [_ [_ [_ [_ [_ I1]]]]]]]].
  assert (I2 : incl dr1 dr0) by (eapply incl_tran; eassumption).
  destruct (Z.eqb_spec p1 p2) as [Q|Q]; cbn [run fst snd].
  - split; [exact I2|]. split; [exact Hs|]. intros [N| ->]; [exact N|]. exfalso. pose proof (C82_distinct f pf lf fuel dr p1 p2 dr1 Hlf Hdr E). lia.
  - assert (M : 1 <= p1 * p2 < 2 ^ 128). { assert (2 ^ (tb + 1) <= 2 ^ 120) by (apply Z.pow_le_mono_r; lia). assert (2 ^ 120 < 2 ^ 128) by reflexivity. nia. }
    rewrite mul_ok by (cbn [u128 in_range]; lia). cbn [bind]. destruct (profile_n_min f pf fuel (p1 * p2) dr1 ts) as [[[s dr2] ts2]| |] eqn:Em; cbn [bind run fst snd]; try exact I.
    destruct (C82_row f pf fuel (p1 * p2) dr1 ts s dr2 ts2 M Em) as [a [ta [b [tb' [c [Es [_ [_ [_ [_ [_ [I3 _]]]]]]]]]]]]. split; [eapply incl_tran; eassumption|]. split.
    + intros x Hx. apply in_app_or in Hx. destruct Hx as [Hx|[<-|[]]]; [apply Hs, Hx|]. split; [|cbn [snd]; rewrite Es; reflexivity]. exists p1, p2, tb. cbn [fst]. tauto.
    + intros _ C. apply app_eq_nil in C. destruct C as [_ C]. discriminate C.
Qed.
Theorem C82_file : forall f pf lf fuel dr ts stats dr' ts', Z.of_nat lf <= 2 ^ 31 -> (forall y, In y dr -> y mod 2 ^ 64 <> 0) ->
  profile_collect f pf lf fuel dr ts = Ret (stats, dr', ts') ->
  stats <> [] /\ (forall x, In x stats -> line_ok f pf lf x) /\
  profile_main f pf lf fuel dr ts = Ret (header, map (fun ns => (fst ns, map snd (snd ns))) stats).
Proof.
  intros f pf lf fuel dr ts stats dr' ts' Hlf Hdr E.
  set (Inv := fun (l : list Z) (r : list (Z * row) * draws * draws) => incl (snd (fst r)) dr /\ (forall x, In x (fst (fst r)) -> line_ok f pf lf x) /\ (In 27 l -> fst (fst r) <> [])).
  assert (R : Inv (range_step 20 120 1) (stats, dr', ts')).
  { refine (run_ret_inv _ True True (Inv _) _ _ _ E). apply (run_foldM _ _ True True Inv).
    - split; [apply incl_refl|]. split; [intros x []|]. intros C. exfalso. exact C.
    - intros l tb st Htb [A [B C]]. assert (H20 : 20 <= tb < 120) by (apply range_from_in in Htb; destruct Htb as [k [Hk ->]]; vm_compute Z.of_nat in Hk; lia).
      apply run_mono with (pan := True) (nf := True) (Q := fun r => incl (snd (fst r)) dr /\ (forall x, In x (fst (fst r)) -> line_ok f pf lf x) /\ ((fst (fst st) <> [] \/ tb = 27) -> fst (fst r) <> [])); auto.
      + set (I2 := fun (l : list Z) (r : list (Z * row) * draws * draws) => incl (snd (fst r)) dr /\ (forall x, In x (fst (fst r)) -> line_ok f pf lf x) /\ ((fst (fst st) <> [] \/ (tb = 27 /\ l <> [])) -> fst (fst r) <> [])).
        apply run_mono with (pan := True) (nf := True) (Q := I2 (range_step 0 4 1)); auto.
        * apply (run_foldM _ _ True True I2); [split; [exact A|]; split; [exact B|]; intros [N|[_ N]]; [exact N | exfalso; apply N; reflexivity]|].
          intros l' k [[stats1 d1] t1] _ [A1 [B1 C1]]. cbn [fst snd] in A1, B1, C1. pose proof (pass_ok f pf lf fuel tb dr stats1 d1 t1 k H20 Hlf Hdr A1 B1) as P.
          eapply run_mono; [exact P | auto | auto|]. intros r [P1 [P2 P3]]. split; [exact P1|]. split; [exact P2|]. intros [N|[N _]]; apply P3; [left; apply C1; left; exact N | right; exact N].
        * intros r [P1 [P2 P3]]. split; [exact P1|]. split; [exact P2|]. intros [N|N]; apply P3; [left; exact N | right; split; [exact N | discriminate]].
      + intros r [P1 [P2 P3]]. split; [exact P1|]. split; [exact P2|]. intros H27. apply in_app_or in H27. apply P3. destruct H27 as [H27|[H27|[]]]; [left; apply C, H27 | right; exact H27]. }
  destruct R as [_ [B C]]. cbn [fst] in B, C. assert (N : stats <> []) by (apply C; vm_compute; tauto). split; [exact N|]. split; [exact B|].
  unfold profile_main. rewrite E. cbn [bind]. destruct stats as [|[n0 s0] l]; [exfalso; apply N; reflexivity|]. cbn [index Z.ltb Z.compare Z.to_nat nth_error unwrap bind].
  destruct (B (n0, s0) (or_introl eq_refl)) as [_ Hh]. cbn [snd] in Hh. rewrite Hh. reflexivity.
Qed.
(** One pass evaluated (a whole run takes 400 of them). *)
Example C82_pass_case : profile_pass BigTable Debug 50 300 27 ([], [2 ^ 128 - 1; 2 ^ 128 - 1; 2; 1; 3; 1; 5; 1; 9; 1], [1; 2; 3; 4; 5; 6; 7; 8]) 0 =
  Ret ([(134422501, [(PollardRho, 128); (TimePollardRho, 1); (Squfof, 3); (TimeSqufof, 6); (OneLine, 5); (TimeOneLine, 6)])], [], []) /\ 134422501 = 8191 * 16411 /\
  forallb (fun y => negb (y mod 2 ^ 64 =? 0)) [2 ^ 128 - 1; 2 ^ 128 - 1; 2; 1; 3; 1; 5; 1; 9; 1] = true.
Proof. split; [vm_compute; reflexivity|]. split; reflexivity. Qed.

(** ** profile_n: fifteen columns, each at most 2^20. *)
Theorem C82_profile_n : forall f pf fuel n dr s dr', 1 <= n < 2 ^ 128 -> profile_n f pf fuel n dr = Ret (s, dr') ->
  map fst s = [PollardRhoNo 1; PollardRhoNo 2] ++ map SqufofK [1155; 105; 15015; 1365; 19635; 165; 1785; 15; 21945; 2145] ++ map OneLineK [1; 360; 480] /\
  forall c v, In (c, v) s -> 0 <= v <= 2 ^ 20.
Proof.
  intros f pf fuel n dr s dr' Hn E. unfold profile_n in E. apply bind_ret in E. destruct E as [[s1 dr1] [E1 E]]. apply bind_ret in E. destruct E as [s2 [E2 E]]. apply bind_ret in E. destruct E as [s3 [E3 E]]. injection E as <- <-.
  set (Inv := fun (pre : list column) (name : Z -> column) (l : list Z) (r : row) => map fst r = pre ++ map name l /\ forall c v, In (c, v) r -> 0 <= v <= 2 ^ 20).
  assert (Add : forall pre name l r k v, Inv pre name l r -> 0 <= v <= 2 ^ 20 -> Inv pre name (l ++ [k]) (r ++ [(name k, v)])).
  { intros pre name l r k v [A B] Hv. split; [rewrite !map_app, A, app_assoc; reflexivity|]. intros c w H. apply in_app_or in H. destruct H as [H|[H|[]]]; [exact (B c w H)|]. injection H as _ <-. exact Hv. }
  assert (R1 : Inv [] (fun i => PollardRhoNo (i + 1)) (range_step 0 2 1) s1).
  { refine (run_ret_inv _ True True (fun x => Inv [] (fun i => PollardRhoNo (i + 1)) (range_step 0 2 1) (fst x)) _ _ _ E1). apply (run_foldM _ _ True True (fun l x => Inv [] (fun i => PollardRhoNo (i + 1)) l (fst x))); [split; [reflexivity | intros c v []]|].
    intros l k [r d] _ B. unfold profile_rho. destruct d as [|x [|y d]]; cbn [draw bind run]; try exact I. destruct (rho_returns f pf n Hn x y 1048576 ltac:(lia)) as [o [i [-> Hi]]]. cbn [bind run fst]. apply (Add _ _ _ _ k i B). exact Hi. }
  assert (G : forall (method : Z -> Z -> Z -> res (option Z * Z)) name l r r',
    (forall k kn, In k l -> checked u128 (n * k) = Some kn -> run True True (fun x => 0 <= snd x <= 2 ^ 20) (method n kn 1048576)) ->
    (forall c v, In (c, v) r -> 0 <= v <= 2 ^ 20) -> foldM (profile_mul name method n) l r = Ret r' -> Inv (map fst r) name l r').
  { intros method name l r r' Hm Hr E. refine (run_ret_inv _ True True (Inv (map fst r) name l) _ _ _ E). apply (run_foldM _ _ True True (Inv (map fst r) name)); [split; [rewrite app_nil_r; reflexivity | exact Hr]|].
    intros l' k r1 Hk B. unfold profile_mul. destruct (checked u128 (n * k)) as [kn|] eqn:Ek; [|cbn [run]; apply Add; [exact B | lia]].
    specialize (Hm k kn Hk Ek). destruct (method n kn 1048576) as [[o i]| |]; cbn [bind run snd] in *; try exact I. apply Add; assumption. }
  assert (R2 : Inv (map fst s1) SqufofK (firstn 10 SQUFOF_MULTIPLIERS) s2).
  { apply (G _ _ _ _ _) with (3 := E2); [|exact (proj2 R1)]. intros k kn Hk Ek. assert (Hk' : 1 <= k) by (apply multipliers_pos; rewrite <- (firstn_skipn 10 SQUFOF_MULTIPLIERS); apply in_or_app; left; exact Hk).
    destruct (fit_mul n k kn ltac:(lia) Hk' Ek) as [A [B [C _]]]. destruct (square_dec kn ltac:(lia)) as [[r [R0 Er]]|Sq].
    - rewrite (C27_square f pf u128 fuel n kn _ r) by (first [assumption | lia | (cbn; lia)]). cbn [run snd]. lia.
    - destruct (C27_squfof_any_fuel f pf u128 fuel n kn 1048576 ltac:(cbn; lia) ltac:(lia) A B C ltac:(lia) Sq) as [_ [H _]]. apply run_post. intros [o i] Eo. exact (proj1 (H o i Eo)). }
  assert (R3 : Inv (map fst s2) OneLineK [1; 360; 480] s3).
  { apply (G _ _ _ _ _) with (3 := E3); [|exact (proj2 R2)]. intros k kn Hk Ek. destruct (fit_mul n k kn ltac:(lia) ltac:(cbn [In] in Hk; lia) Ek) as [A [B [C _]]].
    pose proof (one_line_run f pf u128 n kn 1048576 ltac:(cbn; lia) ltac:(lia) A B C ltac:(lia)) as R. eapply run_mono; [exact R | auto | intros [] | intros r Hr; exact (proj1 Hr)]. }
  split; [|exact (proj2 R3)]. rewrite (proj1 R3), (proj1 R2), (proj1 R1). reflexivity.
Qed.
(** The value under each name is that of the call it names; 2^20 stands for a product that does not fit. *)
Theorem C82_profile_n_values : forall f pf fuel n dr s dr', 1 <= n < 2 ^ 128 -> profile_n f pf fuel n dr = Ret (s, dr') ->
  exists x1 y1 x2 y2, dr = x1 :: y1 :: x2 :: y2 :: dr' /\ forall c v, In (c, v) s ->
    match c with
    | PollardRhoNo i => exists x y o, In (i, x, y) [(1, x1, y1); (2, x2, y2)] /\ pollard_rho pf (uops f pf u128) n (x mod 2 ^ 128) (y mod 2 ^ 128) (2 ^ 20) = Ret (o, v)
    | SqufofK k => if n * k <? 2 ^ 128 then exists o, squfof f pf u128 fuel n (n * k) (2 ^ 20) = Ret (o, v) else v = 2 ^ 20
    | OneLineK k => if n * k <? 2 ^ 128 then exists o, one_line f pf u128 n (n * k) (2 ^ 20) = Ret (o, v) else v = 2 ^ 20
    | _ => False
    end.
Proof.
  intros f pf fuel n dr s dr' Hn E. unfold profile_n in E. apply bind_ret in E. destruct E as [[s1 dr1] [E1 E]]. apply bind_ret in E. destruct E as [s2 [E2 E]]. apply bind_ret in E. destruct E as [s3 [E3 E]]. injection E as <- <-.
  change (range_step 0 2 1) with [0; 1] in E1. cbn [foldM] in E1. apply bind_ret in E1. destruct E1 as [[r1 d1] [S1 E1]]. apply bind_ret in E1. destruct E1 as [[r2 d2] [S2 E1]]. injection E1 as -> ->.
  unfold profile_rho in S1, S2. destruct dr as [|x1 [|y1 d]]; cbn [draw bind] in S1; try discriminate S1. apply bind_ret in S1. destruct S1 as [[o1 i1] [P1 S1]]. injection S1 as <- <-.
  destruct d as [|x2 [|y2 d]]; cbn [draw bind] in S2; try discriminate S2. apply bind_ret in S2. destruct S2 as [[o2 i2] [P2 S2]]. injection S2 as <- <-.
  exists x1, y1, x2, y2. split; [reflexivity|].
  match goal with |- forall c v, _ -> @?ok c v => set (Ok := ok); cbv beta in Ok end.
  assert (G : forall (method : Z -> Z -> Z -> res (option Z * Z)) name l r r',
    (forall k v, Ok (name k) v <-> (if n * k <? 2 ^ 128 then exists o, method n (n * k) (2 ^ 20) = Ret (o, v) else v = 2 ^ 20)) -> (forall k, In k l -> 1 <= k) ->
    (forall c v, In (c, v) r -> Ok c v) -> foldM (profile_mul name method n) l r = Ret r' -> forall c v, In (c, v) r' -> Ok c v).
  { intros method name l r r' Hok Hl Hr E. refine (run_ret_inv _ True True (fun r => forall c v, In (c, v) r -> Ok c v) _ _ _ E). apply (run_foldM _ _ True True (fun _ r => forall c v, In (c, v) r -> Ok c v)); [exact Hr|].
    assert (A : forall r1 k i, (forall c v, In (c, v) r1 -> Ok c v) -> Ok (name k) i -> forall c v, In (c, v) (r1 ++ [(name k, i)]) -> Ok c v).
    { intros r1 k i H1 H2 c v H. apply in_app_or in H. destruct H as [H|[H|[]]]; [exact (H1 c v H)|]. injection H as <- <-. exact H2. }
    intros dn k r1 Hk H1. specialize (Hl k Hk). unfold profile_mul. destruct (checked u128 (n * k)) as [kn|] eqn:Ek.
    - apply checked_inv in Ek. destruct Ek as [-> Hi]. cbn [u128 in_range] in Hi. destruct (method n (n * k) 1048576) as [[o i]| |] eqn:Em; cbn [bind run]; try exact I.
      apply A; [exact H1|]. apply Hok. replace (n * k <? 2 ^ 128) with true by (symmetry; apply Z.ltb_lt; lia). exists o. change (2 ^ 20) with 1048576. exact Em.
    - apply checked_none in Ek. cbn [run]. apply A; [exact H1|]. apply Hok. replace (n * k <? 2 ^ 128) with false; [reflexivity|]. symmetry. apply Z.ltb_ge. cbn [u128 in_range] in Ek. nia. }
  apply (G (one_line f pf u128) OneLineK [1; 360; 480] s2 s3); [intros k v; apply iff_refl | intros k Hk; cbn [In] in Hk; lia | | exact E3].
  refine (G (squfof f pf u128 fuel) SqufofK (firstn 10 SQUFOF_MULTIPLIERS) _ s2 _ _ _ E2); [intros k v; apply iff_refl | |].
  { intros k Hk. apply multipliers_pos. rewrite <- (firstn_skipn 10 SQUFOF_MULTIPLIERS). apply in_or_app. left. exact Hk. }
  intros c v [H|[H|[]]]; injection H as <- <-; unfold Ok; change (2 ^ 20) with 1048576; cbv beta iota.
  - exists x1, y1, o1. split; [left; reflexivity | exact P1].
  - exists x2, y2, o2. split; [right; left; reflexivity | exact P2].
Qed.

Print Assumptions C82_returns.
Print Assumptions C82_debug_refuted.
Print Assumptions C82_row.
Print Assumptions C82_time_one_line_refuted.
Print Assumptions C82_squfof_best.
Print Assumptions C82_pair.
Print Assumptions C82_bits_refuted.
Print Assumptions C82_distinct.
Print Assumptions C82_file.
Print Assumptions C82_profile_n.
Print Assumptions C82_one_line_best.
Print Assumptions C82_rho_best.
Print Assumptions C72_more_iterations.
Print Assumptions C73_more_passes.
Print Assumptions C82_profile_n_values.
Print Assumptions C82_keep_best.
