(** * C15 and C55: the probability carried by a primality result, over binary32. *)
From Coq Require Import Reals ZArith Znumtheory List Lia Lra Bool.
From Flocq Require Import Core BinarySingleNaN.
From Verif Require Import Base Tables Spec Ext NT PBase PTables MInteger Ops POps MPrimality MTraits MSieve MIsPrime PSprp PIsPrime PropLucas NTProth PIsPrime2 PropIsPrime MProb PProb.
Import ListNotations.
Local Open Scope Z_scope.

(** A result is well formed when the probability it carries, if any, is a number in [0, 1]. *)
Definition proper (x : primality f32) : Prop := forall p, x = Probable p -> is_finite p = true /\ (0 <= B2R p <= 1)%R.

(** C15: the combinations stay well formed. *)
Theorem C15_payload_and : forall a b, proper a -> proper b -> proper (prim_and pmul a b).
Proof.
  intros [| |p] [| |q] Ha Hb r E; cbn in E; try discriminate E; injection E as <-; try (apply Ha; reflexivity); try (apply Hb; reflexivity).
  apply (pmul_unit p q); [apply Ha | apply Hb]; reflexivity.
Qed.
Theorem C15_payload_or : forall a b, proper a -> proper b -> proper (prim_or p_or a b).
Proof.
  intros [| |p] [| |q] Ha Hb r E; cbn in E; try discriminate E; injection E as <-; try (apply Ha; reflexivity); try (apply Hb; reflexivity).
  apply (p_or_unit p q); [apply Ha | apply Hb]; reflexivity.
Qed.
(** The conjunction is never more probable than either part. *)
Theorem C15_payload_and_le : forall p q r, proper (Probable p) -> proper (Probable q) ->
  prim_and pmul (Probable p) (Probable q) = Probable r -> (B2R r <= B2R p /\ B2R r <= B2R q)%R.
Proof. intros p q r Hp Hq E. injection E as <-. apply (pmul_unit p q); [apply Hp | apply Hq]; reflexivity. Qed.
(** The disjunction can lose the probability of its parts to rounding: 2^-30 or 2^-30 is 0. *)
Theorem C15_payload_or_ge_refuted : ~ (forall p q r, proper (Probable p) -> proper (Probable q) ->
  prim_or p_or (Probable p) (Probable q) = Probable r -> (B2R p <= B2R r)%R).
Proof.
  intros H. assert (P : proper (Probable (plit 1 (-30)))).
  { intros p E. injection E as <-. split; [reflexivity|]. vm_compute. lra. }
  specialize (H _ _ _ P P eq_refl). vm_compute in H. lra.
Qed.
Example C15_case_payload : proper (Probable (plit 1 (-1))) /\
  prim_and pmul (Probable (plit 1 (-1))) (Probable (plit 1 (-1))) = Probable (plit 1 (-2)) /\
  prim_or p_or (Probable (plit 1 (-1))) (Probable (plit 1 (-1))) = Probable (plit 3 (-2)).
Proof.
  split; [|split].
  - intros p E. injection E as <-. split; [reflexivity|]. vm_compute. lra.
  - cbn [prim_and]. f_equal. apply f32_eqb_eq. vm_compute. reflexivity.
  - cbn [prim_or]. f_equal. apply f32_eqb_eq. vm_compute. reflexivity.
Qed.

(** ** C55: what is_prime reports *)
Section Payload.
Context {A : Type} (PR : probs A).
(** the product the code accumulates *)
Definition payload (c : prime_config) : A :=
  let p0 := if 0 <? sprp_trials c then pr_mul PR (pr_one PR) (pr_trials PR (sprp_trials c)) else pr_one PR in
  let p1 := if 0 <? sprp_random_trials c then pr_mul PR p0 (pr_trials PR (sprp_random_trials c)) else p0 in
  let p2 := if slprp_test c then pr_mul PR p1 (pr_lucas PR) else p1 in
  if eslprp_test c then pr_mul PR p2 (pr_lucas PR) else p2.
Lemma is_prime_payload : forall T (OP : ops T) f pf fuel buf (n : T) config dr p dr',
  is_prime f pf OP PR fuel buf n config dr = Ret (Probable p, dr') ->
  p = payload (match config with Some c => c | None => pc_default end).
Proof.
  intros T OP f pf fuel buf n config dr p dr' E. unfold is_prime in E.
  destruct (o_is_even OP n); [binds E; destruct v0; discriminate E|].
  destruct (o_to_z OP n <? 2 ^ 64); [binds E; destruct v; discriminate E|].
  cbv zeta in E. apply bind_ret in E. destruct E as [[ws d] [_ E]].
  apply bind_ret in E. destruct E as [ok [_ E]]. destruct ok; cbn [negb] in E; [|discriminate E].
  apply bind_ret in E. destruct E as [sl [_ E]]. destruct sl; cbn [negb] in E; [|discriminate E].
  apply bind_ret in E. destruct E as [el [_ E]]. destruct el; cbn [negb] in E; [|discriminate E].
  injection E as <- <-. unfold payload. reflexivity.
Qed.
End Payload.

Lemma trials_val : forall k, 0 <= k < 2 ^ 31 -> pr_trials probs32 k = psub p_one (quarter_pow k).
Proof. intros k Hk. cbn [probs32 pr_trials]. rewrite as_i32_small, powi_quarter by exact Hk. reflexivity. Qed.
Lemma quarter_unit_all : forallb (fun k => let x := psub p_one (quarter_pow (Z.of_nat k)) in
  f32_eqb x (match k with O => B754_zero false | _ => if Z.of_nat k <=? 12 then plit (4 ^ Z.of_nat k - 1) (-2 * Z.of_nat k) else p_one end)) (seq 0 75) = true.
Proof. vm_compute. reflexivity. Qed.
(** 1 - 4^-k exactly for up to 12 trials, then 1.0 *)
Lemma trials_exact : forall k, 0 < k < 2 ^ 31 ->
  pr_trials probs32 k = if k <=? 12 then plit (4 ^ k - 1) (-2 * k) else p_one.
Proof.
  intros k Hk. rewrite trials_val by lia. destruct (Z.leb_spec k 74) as [H|H].
  - pose proof (proj1 (forallb_forall _ _) quarter_unit_all (Z.to_nat k)) as Q. cbv beta zeta in Q. rewrite Z2Nat.id in Q by lia.
    specialize (Q ltac:(apply in_seq; lia)). apply f32_eqb_eq in Q. destruct (Z.to_nat k) eqn:Ek; [lia|]. exact Q.
  - unfold quarter_pow. destruct (Z.leb_spec k 74); [lia|]. destruct (Z.leb_spec k 12); [lia|]. apply f32_eqb_eq. vm_compute. reflexivity.
Qed.
Lemma plit_all : forallb (fun k => let x := plit (4 ^ Z.of_nat k - 1) (-2 * Z.of_nat k) in
  match x with B754_finite false m e _ => (Zpos m * 2 ^ (24 + e) =? (4 ^ Z.of_nat k - 1) * 2 ^ (24 - 2 * Z.of_nat k)) && (-24 <=? e) && (e <=? 0) | _ => false end) (seq 1 12) = true.
Proof. vm_compute. reflexivity. Qed.
Lemma plit_val : forall k, 1 <= k <= 12 -> let x := plit (4 ^ k - 1) (-2 * k) in
  is_finite x = true /\ (B2R x = 1 - / IZR (4 ^ k))%R.
Proof.
  intros k Hk x. pose proof (proj1 (forallb_forall _ _) plit_all (Z.to_nat k)) as Q. cbv beta zeta in Q. rewrite Z2Nat.id in Q by lia.
  specialize (Q ltac:(apply in_seq; lia)). fold x in Q. destruct x as [[|]|[|]| |[|] m e H]; try discriminate Q.
  split; [reflexivity|]. apply andb_prop in Q. destruct Q as [Q Q3]. apply andb_prop in Q. destruct Q as [Q1 Q2].
  apply Z.eqb_eq in Q1. apply Z.leb_le in Q2. apply Z.leb_le in Q3. cbn [B2R cond_Zopp SpecFloat.cond_Zopp]. unfold F2R. cbn [Fnum Fexp].
  assert (P4 : (0 < IZR (4 ^ k))%R) by (apply IZR_lt, Z.pow_pos_nonneg; lia).
  assert (E1 : (bpow radix2 e = IZR (2 ^ (24 + e)) * / IZR (2 ^ 24))%R).
  { change (IZR (2 ^ (24 + e))) with (IZR (radix2 ^ (24 + e))). rewrite IZR_Zpower by lia. rewrite bpow_plus. change (bpow radix2 24) with (IZR (2 ^ 24)). field. apply not_0_IZR. lia. }
  rewrite E1. rewrite <- Rmult_assoc, <- mult_IZR, Q1, mult_IZR, minus_IZR.
  assert (E2 : (IZR (2 ^ 24) = IZR (2 ^ (24 - 2 * k)) * IZR (4 ^ k))%R).
  { rewrite <- mult_IZR. f_equal. change 4 with (2 ^ 2). rewrite <- Z.pow_mul_r by lia. rewrite <- Z.pow_add_r by lia. f_equal. lia. }
  rewrite E2. assert (P2 : (0 < IZR (2 ^ (24 - 2 * k)))%R) by (apply IZR_lt, Z.pow_pos_nonneg; lia). field. lra.
Qed.
(** k trials alone count for 1 - 4^-k, exactly, up to 12 trials; from 13 on they count for certainty. *)
Theorem C55_trials_value : forall k, 0 < k < 2 ^ 31 -> let x := pr_trials probs32 k in
  is_finite x = true /\ (k <= 12 -> (B2R x = 1 - / 4 ^ Z.to_nat k)%R) /\ (13 <= k -> B2R x = 1%R).
Proof.
  intros k Hk x. unfold x. rewrite trials_exact by exact Hk. destruct (Z.leb_spec k 12) as [H|H].
  - destruct (plit_val k ltac:(lia)) as [F V]. split; [exact F|]. split; [intros _ | lia]. rewrite V. do 2 f_equal.
    rewrite <- (Z2Nat.id k) at 1 by lia. rewrite <- pow_IZR. reflexivity.
  - split; [reflexivity|]. split; [lia|]. intros _. apply p_one_val.
Qed.
Lemma trials_unit : forall k, 0 < k < 2 ^ 31 -> unit32 (pr_trials probs32 k).
Proof.
  intros k Hk. destruct (C55_trials_value k Hk) as [F [V1 V2]]. split; [exact F|]. unfold pval. destruct (Z.le_gt_cases k 12) as [H|H].
  - rewrite V1 by exact H. assert (P : (1 <= 4 ^ Z.to_nat k)%R) by (apply pow_R1_Rle; lra).
    assert (/ 4 ^ Z.to_nat k <= 1)%R by (rewrite <- Rinv_1; apply Rinv_le; lra). assert (0 < / 4 ^ Z.to_nat k)%R by (apply Rinv_0_lt_compat; lra). lra.
  - rewrite V2 by lia. lra.
Qed.
Lemma lucas_unit : unit32 (pr_lucas probs32).
Proof. split; [reflexivity|]. unfold pval. vm_compute. lra. Qed.
Definition trials_ok (k : Z) : Prop := 0 <= k < 2 ^ 31.
Lemma payload_unit : forall c, trials_ok (sprp_trials c) -> trials_ok (sprp_random_trials c) -> unit32 (payload probs32 c).
Proof.
  intros c H1 H2. unfold payload, trials_ok in *.
  assert (U0 : unit32 (if 0 <? sprp_trials c then pr_mul probs32 (pr_one probs32) (pr_trials probs32 (sprp_trials c)) else pr_one probs32)).
  { destruct (Z.ltb_spec 0 (sprp_trials c)); [|apply p_one_unit]. apply pmul_unit; [apply p_one_unit | apply trials_unit; lia]. }
  revert U0. generalize (if 0 <? sprp_trials c then pr_mul probs32 (pr_one probs32) (pr_trials probs32 (sprp_trials c)) else pr_one probs32). intros p0 U0.
  assert (U1 : unit32 (if 0 <? sprp_random_trials c then pr_mul probs32 p0 (pr_trials probs32 (sprp_random_trials c)) else p0)).
  { destruct (Z.ltb_spec 0 (sprp_random_trials c)); [|exact U0]. apply pmul_unit; [exact U0 | apply trials_unit; lia]. }
  revert U1. generalize (if 0 <? sprp_random_trials c then pr_mul probs32 p0 (pr_trials probs32 (sprp_random_trials c)) else p0). intros p1 U1.
  cbv zeta. destruct (slprp_test c), (eslprp_test c); repeat (apply pmul_unit; [|exact lucas_unit]); exact U1.
Qed.
(** With trial counts that fit an i32, every buffer, integer type, target, random source: the reported
    probability is a number in [0, 1]. *)
Theorem C55_is_prime_probability : forall f pf T (OP : ops T) fuel buf (n : T) config dr r dr',
  (forall c, config = Some c -> 0 <= sprp_trials c < 2 ^ 31 /\ 0 <= sprp_random_trials c < 2 ^ 31) ->
  is_prime f pf OP probs32 fuel buf n config dr = Ret (r, dr') -> proper r.
Proof.
  intros f pf T OP fuel buf n config dr r dr' Hc E p ->. apply is_prime_payload in E. subst p.
  destruct config as [c|]; [destruct (Hc c eq_refl); apply payload_unit; assumption|]. apply payload_unit; cbn; unfold trials_ok; lia.
Qed.
(** The presets: the default reports 945/1024; bpsw the binary32 number next to 11/20, strict the one
    next to 33/80. *)
Theorem C55_preset_values : forall f pf T (OP : ops T) fuel buf (n : T) config dr p dr',
  is_prime f pf OP probs32 fuel buf n config dr = Ret (Probable p, dr') ->
  (config = None \/ config = Some pc_default -> B2R p = 945 / 1024)%R /\
  (config = Some pc_bpsw -> B2R p = 9227469 / 16777216)%R /\
  (config = Some pc_strict -> B2R p = 13841204 / 33554432)%R.
Proof.
  intros f pf T OP fuel buf n config dr p dr' E. apply is_prime_payload in E. subst p. split; [|split].
  - intros [->| ->]; vm_compute; lra.
  - intros ->. vm_compute. lra.
  - intros ->. vm_compute. lra.
Qed.
(** Without that restriction the statement is false: a usize above 2^31 - 1 turns negative in [as i32].
    2^32 - 1 trials, which the buffer cuts down to the primes it holds, report the probability -3. *)
Lemma prime_no_random : forall f pf t n A (PR : probs A) fuel k dr, valid_ity t -> in_range t n -> prime n -> 2 ^ 64 <= n ->
  nt_is_prime f pf (uops f pf t) PR fuel n (Some (mkPC k 0 false false)) dr = Ret (Probable (payload PR (mkPC k 0 false false)), dr).
Proof.
  intros f pf t n A PR fuel k dr Ht Hn Hp Hl. assert (HV : UV t n n) by (split; auto).
  pose proof (C21_odd n Hp ltac:(lia)) as Ho. unfold nt_is_prime.
  assert (Hb : forall w, In w (buf_iter (buf_new f)) -> 0 <= w < 2 ^ 64) by (intros w Hw; apply new_buf_range in Hw; lia).
  rewrite (is_prime_large f pf _ PR t _ _ _ (uops_lawful f pf t) Ht fuel _ n n _ _ HV ltac:(cbv beta; lia) Ho Hl Hb). cbv zeta. cbn [the_config].
  set (c := mkPC k 0 false false). change (draw_witnesses c dr (fixed_witnesses c (buf_iter (buf_new f)))) with (Ret (fixed_witnesses c (buf_iter (buf_new f)), dr)).
  cbn [bind]. replace (forallb (z_sprp n) (fixed_witnesses c (buf_iter (buf_new f)))) with true; [reflexivity|].
  symmetry. apply forallb_forall. intros w Hw. apply fixed_in in Hw. apply new_buf_range in Hw.
  apply z_sprp_spec; [lia | exact Ho|]. apply prime_strong_prp; [exact Hp | exact Ho|]. intros C. apply Z.divide_pos_le in C; lia.
Qed.
Theorem C55_any_trials_refuted : ~ (forall f pf t fuel n c dr r dr', valid_ity t -> in_range t n ->
  0 <= sprp_trials c < 2 ^ 64 -> 0 <= sprp_random_trials c < 2 ^ 64 ->
  nt_is_prime f pf (uops f pf t) probs32 fuel n (Some c) dr = Ret (r, dr') -> proper r).
Proof.
  intros H. pose proof (prime_no_random SmallTable Debug u128 18446782556616523777 f32 probs32 0%nat (2 ^ 32 - 1) [] ltac:(cbn; lia) ltac:(cbn; lia) prime_65 ltac:(lia)) as E.
  apply H in E; [|cbn; lia | cbn; lia | cbn; lia | cbn; lia]. destruct (E _ eq_refl) as [_ [P0 _]].
  assert (V : payload probs32 (mkPC (2 ^ 32 - 1) 0 false false) = plit (-3) 0) by (apply f32_eqb_eq; vm_compute; reflexivity).
  rewrite V in P0. vm_compute in P0. lra.
Qed.
Example C55_case : nt_is_prime SmallTable Debug (uops SmallTable Debug u128) probs32 0 (2 ^ 89 - 1) None [5; 7; 11] =
  Ret (Probable (payload probs32 pc_default), []) /\ (B2R (payload probs32 pc_default) = 945 / 1024)%R.
Proof.
  split; [|vm_compute; lra]. unfold nt_is_prime, is_prime, payload. generalize probs32. intros PR. vm_compute. reflexivity.
Qed.

Print Assumptions C15_payload_and.
Print Assumptions C15_payload_or.
Print Assumptions C15_payload_and_le.
Print Assumptions C15_payload_or_ge_refuted.
Print Assumptions C55_trials_value.
Print Assumptions C55_is_prime_probability.
Print Assumptions C55_preset_values.
Print Assumptions C55_any_trials_refuted.
