(** * SQUFOF on machine integers, to find the pass that succeeds. *)
From Coq Require Import ZArith Znumtheory List Lia Bool Arith Uint63.
From Verif Require Import Base Spec SpecCF Ext NT PBase MInteger PInteger Ops POps MPrimality PSprp MFactor PLucas3 PFactor PFactor2 PSqufof PSqufof2 PExact.
Import ListNotations.
Local Open Scope Z_scope.
Local Notation V := Uint63.to_Z.

Definition itri : Type := int * int * int.
Definition zt (s : itri) : tri := let '(p, q, w) := s in (V p, V q, V w).
Definition rhoi (rd : int) (s : itri) : itri :=
  let '(p, q, w) := s in
  let b := ((rd + p) / q)%uint63 in let p' := (b * q - p)%uint63 in (p', (w + b * (p - p'))%uint63, q).
Fixpoint walki (rd : int) (k : nat) (s : itri) : itri := match k with O => s | S k' => walki rd k' (rhoi rd s) end.
Fixpoint backi (rd : int) (k : nat) (s : itri) : option int :=
  match k with
  | O => None
  | S k' => let s' := rhoi rd s in if (fst (fst s') =? fst (fst s))%uint63 then Some (fst (fst s)) else backi rd k' s'
  end.

Section Walk.
Context (N : Z) (rd : int) (H0 : 0 <= N) (Erd : V rd = Z.sqrt N) (Hns : V rd * V rd < N) (Hrd : V rd < 2 ^ 60).
Lemma rhoi_spec : forall s, red N (V rd) (zt s) -> zt (rhoi rd s) = rhoz (V rd) (zt s).
Proof.
  intros [[p q] w] HR. pose proof (red_rho N (V rd) H0 Erd Hns _ HR) as HR'. unfold red, zt, rhoz, rhoi in *. cbv zeta in *.
  destruct HR as [Hp [_ [Hq Hw]]]. pose proof (to_Z_bounded p). pose proof (to_Z_bounded q). pose proof (to_Z_bounded w). pose proof (to_Z_bounded rd).
  assert (EW : wB = 2 ^ 63) by reflexivity.
  assert (Eb : V ((rd + p) / q)%uint63 = (V rd + V p) / V q).
  { rewrite div_spec, add_spec. rewrite Z.mod_small by (rewrite EW; lia). reflexivity. }
  set (b := ((rd + p) / q)%uint63) in *. rewrite <- Eb in *. destruct HR' as [Hp' [_ [Hq' _]]].
  assert (Ep : V (b * q - p)%uint63 = V b * V q - V p).
  { rewrite sub_spec, mul_spec. rewrite Zminus_mod_idemp_l. apply Z.mod_small. rewrite EW. lia. }
  assert (Eq : V (w + b * (p - (b * q - p)))%uint63 = V w + V b * (V p - (V b * V q - V p))).
  { rewrite add_spec, mul_spec, sub_spec, Ep. rewrite Zplus_mod_idemp_r, <- (Zplus_mod_idemp_r (V b * _)), Zmult_mod_idemp_r, Zplus_mod_idemp_r. apply Z.mod_small. rewrite EW. lia. }
  rewrite Ep, Eq. reflexivity.
Qed.
Lemma walki_spec : forall k s, red N (V rd) (zt s) -> zt (walki rd k s) = walk (V rd) k (zt s).
Proof.
  induction k as [|k IH]; intros s HR; [reflexivity|]. cbn [walki]. pose proof (rhoi_spec s HR) as E.
  rewrite IH by (rewrite E; apply (red_rho N (V rd) H0 Erd Hns), HR). rewrite E. apply walk_shift.
Qed.
Lemma backi_spec : forall k s u, red N (V rd) (zt s) -> backi rd k s = Some u -> turn (V rd) (zt s) (V u).
Proof.
  induction k as [|k IH]; intros s u HR E; [discriminate E|]. cbn [backi] in E. cbv zeta in E. pose proof (rhoi_spec s HR) as Er.
  assert (F : forall x, V (fst (fst x)) = fst (fst (zt x))) by (intros [[a b] c]; reflexivity).
  destruct (fst (fst (rhoi rd s)) =? fst (fst s))%uint63 eqn:C.
  - injection E as <-. apply ieqb in C. rewrite !F, Er in C. exists 0%nat. split; [intros i Hi; lia|]. split; [exact C | rewrite F; reflexivity].
  - apply ieqbf in C. rewrite !F, Er in C.
    assert (HR' : red N (V rd) (zt (rhoi rd s))) by (rewrite Er; apply (red_rho N (V rd) H0 Erd Hns), HR).
    destruct (IH _ _ HR' E) as [b [A [B D]]]. rewrite Er in *. exists (S b). rewrite !walk_shift in *. split; [|split; assumption].
    intros [|i] Hi; [exact C|]. rewrite <- walk_shift. apply A. lia.
Qed.
End Walk.

(** The pass k, an odd number, of squfof n N succeeds. *)
Definition sq_check (n N k : Z) : bool :=
  let rd := Z.sqrt N in let r0 := of_Z rd in
  let '(p, q, w) := zt (walki r0 (Z.to_nat k) (r0, of_Z (N - rd * rd), 1%uint63)) in
  let r := Z.sqrt q in
  let u0 := (rd - p) / r * r + p in let v0 := (N - u0 * u0) / r in
  (0 <? N) && (rd * rd <? N) && (rd <? 2 ^ 60) && (r * r =? q) && (Z.odd k) && (0 <? k) &&
  match backi r0 (Z.to_nat (k + 10)) (of_Z u0, of_Z v0, of_Z r) with
  | Some u => let d := Z.gcd n (V u) in (1 <? d) && (d <? n)
  | None => false
  end.
Lemma sq_check_ok : forall n N k, sq_check n N k = true -> exists d, hit N n k d.
Proof.
  intros n N k H. unfold sq_check in H. cbv zeta in H. set (rd := Z.sqrt N) in *. set (r0 := of_Z rd) in *.
  set (s0 := (r0, of_Z (N - rd * rd), 1%uint63)) in *. destruct (zt (walki r0 (Z.to_nat k) s0)) as [[p q] w] eqn:Ew.
  destruct (backi _ _ _) as [u|] eqn:Eb; [|rewrite andb_false_r in H; discriminate H].
  repeat match goal with X : _ && _ = true |- _ => apply andb_true_iff in X; destruct X end.
  rewrite ?Z.ltb_lt, ?Z.eqb_eq in *.
  pose proof (Z.sqrt_spec N ltac:(lia)) as [S1 S2]. pose proof (Z.sqrt_nonneg N) as S0. fold rd in S1, S2, S0.
  assert (Er0 : V r0 = rd) by (apply iof; lia).
  assert (Es0 : zt s0 = start N rd) by (unfold s0, zt, start; rewrite Er0, iof by lia; reflexivity).
  assert (HR0 : red N (V r0) (zt s0)) by (rewrite Es0, Er0; apply red_start; [lia | reflexivity | assumption]).
  rewrite (walki_spec N r0) in Ew by (try assumption; try lia; rewrite Er0; try reflexivity; try assumption; lia).
  assert (HR : red N rd (p, q, w)).
  { rewrite <- Ew, Er0. apply red_walk; [lia | reflexivity | assumption |]. rewrite Er0 in HR0. exact HR0. }
  destruct (sq_start N rd p q w (Z.sqrt q) eq_refl ltac:(lia) ltac:(assumption) HR (Z.sqrt_nonneg q) ltac:(assumption)) as [Hr [HRu _]]. cbv zeta in HRu.
  set (r := Z.sqrt q) in *. set (u0 := (rd - p) / r * r + p) in *. set (v0 := (N - u0 * u0) / r) in *.
  assert (Ez : zt (of_Z u0, of_Z v0, of_Z r) = (u0, v0, r)).
  { destruct HRu as [A [B [C D]]]. unfold zt. rewrite !iof by lia. reflexivity. }
  assert (T : turn rd (u0, v0, r) (V u)).
  { rewrite <- Ez, <- Er0. apply (backi_spec N r0 ltac:(lia) ltac:(rewrite Er0; reflexivity) ltac:(rewrite Er0; assumption) ltac:(rewrite Er0; assumption) (Z.to_nat (k + 10))); [|exact Eb]. rewrite Ez, Er0. exact HRu. }
  exists (Z.gcd n (V u)). apply (hit_inv N rd ltac:(lia) eq_refl ltac:(assumption) n k _ p q w ltac:(lia)); [rewrite Er0, Es0 in Ew; exact Ew|].
  exists r. split; [exact Hr|]. split; [symmetry; assumption|]. exists (V u). split; [|split; [reflexivity | split; assumption]].
  change (cf_turn N (pq (u0, v0, r)) (V u)). apply (turn_cf N rd ltac:(lia) eq_refl ltac:(assumption)); [exact HRu | exact T].
Qed.

Theorem squfof_found : forall f pf t fuel target N maxi k, valid_ity t -> 1 <= target -> in_range t N -> (target | N) -> k < maxi ->
  2 * N <= fuel -> sq_check target N k = true -> exists d i, squfof f pf t fuel target N maxi = Ret (Some d, i) /\ 1 <= i <= k /\ 1 < d < target /\ (d | target).
Proof.
  intros f pf t fuel target N maxi k Ht H1 HN Hd Hk Hf Hc.
  assert (B : 0 < N /\ Z.sqrt N * Z.sqrt N < N /\ Z.odd k = true /\ 0 < k).
  { unfold sq_check in Hc. cbv zeta in Hc. destruct (zt _) as [[p q] w]. repeat match goal with X : _ && _ = true |- _ => apply andb_true_iff in X; destruct X end.
    rewrite ?Z.ltb_lt, ?Z.eqb_eq in *. repeat split; assumption. }
  destruct B as [B0 [Hns [Ho Hk0]]]. destruct (sq_check_ok _ _ _ Hc) as [d0 Hh].
  assert (Hsq : ~ exists r, r * r = N) by (intros [r Er]; assert (Z.sqrt N = Z.abs r) as E by (rewrite <- Er, <- (Z.abs_square r); apply Z.sqrt_square; lia); rewrite E in Hns; nia).
  destruct (squfof_exact f pf t fuel target N maxi Ht H1 ltac:(lia) HN Hd ltac:(lia) Hsq Hf) as [[d|] [i [E H]]].
  - exists d, i. split; [exact E|]. destruct H as [A [C [D F]]]. split; [split; [lia|]; destruct (Z.le_gt_cases i k) as [L|L]; [exact L | exfalso; exact (F k d0 ltac:(lia) Ho Hh)]|].
    destruct D as [r [u [_ [_ D]]]]. cbv zeta in D. destruct D as [_ [-> D]]. split; [exact D | apply Z.gcd_divide_l].
  - exfalso. destruct H as [_ H]. exact (H k d0 ltac:(lia) Ho Hh).
Qed.
