(** * C64: how often the strong probable prime test errs, and what the reported probability is worth. *)
From Coq Require Import Reals ZArith Znumtheory Zpow_facts List Lia Lra Bool.
From Flocq Require Import Core BinarySingleNaN.
From Verif Require Import Base Tables Spec Ext NT PBase PTables MInteger Ops POps MPrimality MTraits MSieve MIsPrime PSprp PropSprp PIsPrime PropLucas NTProth PIsPrime2 PropIsPrime MProb PProb PropProb NTRabin.
Import ListNotations.
Local Open Scope Z_scope.

(** Bases from 1 to n - 1 for which [test] accepts. *)
Definition accepted (test : Z -> res bool) (n : Z) : Z :=
  count (fun a => match test a with Ret true => true | _ => false end) (Z.to_nat (n - 1)).

(** At most a quarter of the bases 1..n-1 pass an odd composite, at every integer type. *)
Theorem C64_sprp_error : forall f pf t n, valid_ity t -> in_range t n -> 3 <= n -> Z.odd n = true -> ~ prime n ->
  4 * accepted (is_sprp (uops f pf t) n) n <= n - 1.
Proof.
  intros f pf t n Ht Hn H3 Ho Np. apply rabin_monier; [exact H3 | exact Ho | exact Np |].
  intros a Ha H. assert (Ra : in_range t a) by (destruct t; cbn [in_range] in *; lia).
  destruct (C16_is_sprp_exact f pf t n a Ht Hn Ra H3 Ho) as [b [E Hb]]. rewrite E in H. destruct b; [apply Hb; reflexivity | discriminate H].
Qed.
(** The bound is attained. *)
Theorem C64_sprp_error_sharp : forall f pf, ~ prime 9 /\ 4 * accepted (is_sprp (uops f pf (U 8)) 9) 9 = 9 - 1.
Proof.
  intros f pf. split; [|destruct f, pf; vm_compute; reflexivity].
  intros H. assert (D : (3 | 9)) by (exists 3; lia). apply (prime_divides_prime 3 9 prime_3 H) in D. discriminate D.
Qed.
(** A prime is accepted for every base (C16), so the quarter separates them. *)
Theorem C64_sprp_prime : forall f pf t p, valid_ity t -> in_range t p -> 3 <= p -> prime p ->
  accepted (is_sprp (uops f pf t) p) p = p - 1.
Proof.
  intros f pf t p Ht Hn H3 Hp. unfold accepted. rewrite (count_ext _ (fun _ => true)).
  - assert (G : forall k, count (fun _ => true) k = Z.of_nat k) by (induction k as [|k IH]; [reflexivity|]; cbn [count]; lia). rewrite G. lia.
  - intros a Ha. rewrite C16_prime_passes_every_base; auto; [destruct t; cbn [in_range] in *; lia|]. intros D. apply divide_pos_le in D; lia.
Qed.
(** The Fermat test has no such bound: 561 = 3 * 11 * 17 passes for 320 of its 560 bases. *)
Theorem C64_prp_error_refuted : forall f pf, ~ prime 561 /\ accepted (is_prp (uops f pf (U 16)) 561) 561 = 320.
Proof.
  intros f pf. split.
  - intros H. assert (D : (3 | 561)) by (exists 187; lia). apply (prime_divides_prime 3 561 prime_3 H) in D. discriminate D.
  - unfold accepted. rewrite (count_ext _ (fun a => Zpow_mod a 560 561 =? 1)); [vm_compute; reflexivity|].
    intros a Ha. change (Z.of_nat (Z.to_nat (561 - 1))) with 560 in Ha.
    rewrite (is_prp_law _ _ _ _ _ (uops_lawful f pf (U 16)) (valid_one (U 16) ltac:(cbn; lia)) 561 a 561 a); [| split; [reflexivity | cbn; lia] | split; [reflexivity | cbn; lia] | cbv beta; lia | lia].
    unfold z_prp. rewrite Zpow_mod_correct by lia. change (561 - 1) with 560. generalize (a ^ 560 mod 561 =? 1). intros [|]; reflexivity.
Qed.

(** ** Random trials of is_prime *)
Fixpoint lists_over (L : list Z) (k : nat) : list (list Z) :=
  match k with O => [[]] | S k' => flat_map (fun x => map (cons x) (lists_over L k')) L end.
Lemma lists_over_length : forall L k, length (lists_over L k) = (length L ^ k)%nat.
Proof.
  intros L k. induction k as [|k IH]; [reflexivity|]. cbn [lists_over Nat.pow]. rewrite <- IH. generalize (lists_over L k). intros ll. clear.
  induction L as [|x L IH]; [reflexivity|]. cbn [flat_map length]. rewrite app_length, map_length, IH. reflexivity.
Qed.
Lemma lists_over_in : forall L k l, length l = k -> (forall x, In x l -> In x L) -> In l (lists_over L k).
Proof.
  intros L k. induction k as [|k IH]; intros l Hl H; [destruct l; [left; reflexivity | discriminate Hl]|].
  destruct l as [|x l]; [discriminate Hl|]. cbn [lists_over]. apply in_flat_map. exists x. split; [apply H; left; reflexivity|].
  apply in_map, IH; [injection Hl; auto | intros y Hy; apply H; right; exact Hy].
Qed.
Lemma zero_not_strong : forall n, 3 <= n -> ~ strong_prp n 0.
Proof.
  intros n H3 [d [s [Hs [Hd [En H]]]]].
  assert (Pd : 1 <= d). { pose proof (Z.pow_pos_nonneg 2 s ltac:(lia) ltac:(lia)). nia. }
  destruct H as [H|[r [Hr H]]].
  - rewrite Z.pow_0_l, Z.mod_0_l, Z.mod_1_l in H by lia. discriminate H.
  - rewrite Z.pow_0_l, Z.mod_0_l in H by (pose proof (Z.pow_pos_nonneg 2 r ltac:(lia) ltac:(lia)); nia).
    replace (-1) with (n - 1 + (-1) * n) in H by ring. rewrite Z.mod_add, Z.mod_small in H by lia. lia.
Qed.
(** Whatever else is configured: of the sequences of k draws from 0..2^64-1, at most ((n-1)/4)^k let
    [is_prime] with k random trials accept a composite n. Out of (2^64)^k sequences this is a share of
    about 4^-k while n is near 2^64; the witnesses being 64 bit numbers whatever the size of n, it says
    nothing from 2^66 on. *)
Theorem C64_random_trials : forall f pf t n A (PR : probs A) fuel c (D : list (list Z)), valid_ity t -> in_range t n -> 2 ^ 64 <= n ->
  Z.odd n = true -> ~ prime n -> 0 <= sprp_random_trials c ->
  NoDup D ->
  (forall dr, In dr D -> Z.of_nat (length dr) = sprp_random_trials c /\ (forall x, In x dr -> 0 <= x < 2 ^ 64) /\
    exists r dr', nt_is_prime f pf (uops f pf t) PR fuel n (Some c) dr = Ret (r, dr') /\ probably r = true) ->
  4 ^ sprp_random_trials c * Z.of_nat (length D) <= (n - 1) ^ sprp_random_trials c.
Proof.
  intros f pf t n A PR fuel c D Ht Hn Hl Ho Np Hk ND HD. set (k := sprp_random_trials c) in *.
  set (L := filter (z_sprp n) (residues n)).
  assert (IC : incl D (lists_over L (Z.to_nat k))).
  { intros dr Hdr. destruct (HD dr Hdr) as [Hlen [Hrng [r [dr' [E Hr]]]]]. apply lists_over_in; [lia|].
    unfold nt_is_prime in E. apply C14_is_prime_large in E; [|exact Ht | exact Hn | exact Hl | intros w Hw; apply new_buf_range in Hw; lia].
    cbv zeta in E. destruct E as [_ E]. destruct (E Ho) as [rnd [Lr [NDr [Hrnd Hno]]]]. fold k in Lr. clear E.
    assert (Ir : incl rnd dr).
    { intros w Hw. destruct (Hrnd w Hw) as [_ [x [Hx ->]]]. rewrite Z.mod_small by (apply Hrng; exact Hx). exact Hx. }
    assert (Id : incl dr rnd) by (apply NoDup_length_incl; [exact NDr | lia | exact Ir]).
    intros x Hx. assert (Sx : z_sprp n x = true).
    { destruct (z_sprp n x) eqn:Ex; [reflexivity|]. exfalso.
      assert (r = No); [|subst r; discriminate Hr]. apply Hno. left. exists x. split; [apply in_or_app; right; apply Id; exact Hx|].
      intros C. apply z_sprp_spec in C; [congruence | lia | exact Ho]. }
    apply filter_In. split; [|exact Sx]. apply residues_in. pose proof (Hrng x Hx). assert (x <> 0); [|lia].
    intros ->. apply z_sprp_spec in Sx; [|lia | exact Ho]. revert Sx. apply zero_not_strong. lia. }
  pose proof (NoDup_incl_length ND IC) as Le. rewrite lists_over_length in Le. apply inj_le in Le. rewrite Nat2Z.inj_pow, Z2Nat.id in Le by exact Hk.
  assert (RM : 4 * Z.of_nat (length L) <= n - 1).
  { unfold L. rewrite <- count_residues. apply rabin_monier; [lia | exact Ho | exact Np|]. intros a _ Ha. apply z_sprp_spec in Ha; [exact Ha | lia | exact Ho]. }
  apply (Z.le_trans _ ((4 * Z.of_nat (length L)) ^ k)).
  - rewrite Z.pow_mul_l. apply Z.mul_le_mono_nonneg_l; [apply Z.pow_nonneg; lia | exact Le].
  - apply Z.pow_le_mono_l. lia.
Qed.

(** The probability reported for the fixed bases is no bound at all: the composite
    3317044064679887385961981 passes the first 13 primes and is reported as prime with probability 1. *)
Definition psi13 : Z := 3317044064679887385961981.
Definition strong_check (n d a : Z) : bool :=
  (Zpow_mod a d n =? 1) || (Zpow_mod a d n =? n - 1) || (Zpow_mod a (d * 2) n =? n - 1).
Lemma strong_check_ok : forall n d a, 3 <= n -> 0 <= d -> Z.odd d = true -> n - 1 = d * 2 ^ 2 -> strong_check n d a = true -> strong_prp n a.
Proof.
  intros n d a Hn Hd Ho En C. unfold strong_check in C. rewrite !Zpow_mod_correct in C by lia.
  assert (M : (-1) mod n = n - 1) by (replace (-1) with (n - 1 + (-1) * n) by ring; rewrite Z.mod_add, Z.mod_small by lia; reflexivity).
  exists d, 2. split; [lia|]. split; [exact Ho|]. split; [exact En|].
  apply orb_prop in C. destruct C as [C|C]; [apply orb_prop in C; destruct C as [C|C]|]; apply Z.eqb_eq in C.
  - left. rewrite C, Z.mod_1_l by lia. reflexivity.
  - right. exists 0. split; [lia|]. rewrite Z.pow_0_r, Z.mul_1_r, C, M. reflexivity.
  - right. exists 1. split; [lia|]. rewrite Z.pow_1_r, C, M. reflexivity.
Qed.
Lemma psi13_checks : forallb (strong_check psi13 829261016169971846490495) [2; 3; 5; 7; 11; 13; 17; 19; 23; 29; 31; 37; 41] = true.
Proof. vm_compute. reflexivity. Qed.
Lemma psi13_strong : forall a, In a [2; 3; 5; 7; 11; 13; 17; 19; 23; 29; 31; 37; 41] -> z_sprp psi13 a = true.
Proof.
  intros a Ha. pose proof (proj1 (forallb_forall _ _) psi13_checks a Ha) as C. apply z_sprp_spec; [unfold psi13; lia | reflexivity|].
  apply (strong_check_ok psi13 829261016169971846490495); [unfold psi13; lia | lia | reflexivity | reflexivity | exact C].
Qed.
Theorem C64_certain_composite_refuted : forall f pf,
  3317044064679887385961981 = 1287836182261 * 2575672364521 /\
  exists p, nt_is_prime f pf (uops f pf u128) probs32 0 3317044064679887385961981 (Some (mkPC 13 0 false false)) [] = Ret (Probable p, []) /\
    is_finite p = true /\ B2R p = 1%R.
Proof.
  intros f pf. split; [reflexivity|]. exists (payload probs32 (mkPC 13 0 false false)). split.
  - fold psi13. unfold nt_is_prime. assert (HV : UV u128 psi13 psi13) by (split; [reflexivity | unfold psi13; cbn; lia]).
    assert (Hb : forall w, In w (buf_iter (buf_new f)) -> 0 <= w < 2 ^ 64) by (intros w Hw; apply new_buf_range in Hw; lia).
    rewrite (is_prime_large f pf _ probs32 u128 _ _ _ (uops_lawful f pf u128) ltac:(cbn; lia) 0 _ psi13 psi13 _ _ HV ltac:(cbv beta; unfold psi13; lia) eq_refl ltac:(unfold psi13; lia) Hb).
    cbv zeta. cbn [the_config]. set (c := mkPC 13 0 false false).
    change (draw_witnesses c [] (fixed_witnesses c (buf_iter (buf_new f)))) with (Ret (fixed_witnesses c (buf_iter (buf_new f)), @nil Z)).
    replace (fixed_witnesses c (buf_iter (buf_new f))) with [2; 3; 5; 7; 11; 13; 17; 19; 23; 29; 31; 37; 41] by (destruct f; reflexivity).
    cbn [bind]. replace (forallb (z_sprp psi13) [2; 3; 5; 7; 11; 13; 17; 19; 23; 29; 31; 37; 41]) with true; [reflexivity|].
    symmetry. apply forallb_forall. exact psi13_strong.
  - replace (payload probs32 (mkPC 13 0 false false)) with p_one by (symmetry; apply f32_eqb_eq; vm_compute; reflexivity).
    split; [reflexivity | apply p_one_val].
Qed.
(** 91 = 7 * 13 is accepted for 18 of its 90 bases. *)
Example C64_case : in_range (U 8) 91 /\ Z.odd 91 = true /\ 91 = 7 * 13 /\ accepted (is_sprp (uops BigTable Debug (U 8)) 91) 91 = 18.
Proof. split; [cbn; lia|]. split; [reflexivity|]. split; [reflexivity|]. vm_compute. reflexivity. Qed.

Print Assumptions C64_sprp_error.
Print Assumptions C64_sprp_error_sharp.
Print Assumptions C64_sprp_prime.
Print Assumptions C64_prp_error_refuted.
Print Assumptions C64_random_trials.
Print Assumptions C64_certain_composite_refuted.
