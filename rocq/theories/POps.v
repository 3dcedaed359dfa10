(** * What the generic code may assume of an operation dictionary, and proofs that plain
    integers and Montgomery-wrapped integers meet it. *)
From Coq Require Import ZArith Znumtheory Zpow_facts List Lia Bool.
From Verif Require Import Base Spec Ext NT PBase MInteger Ops PInteger.
Import ListNotations.
Local Open Scope Z_scope.

(** [V x v]: x is the plain integer v of the type; [R N x v]: x is the residue v modulo N;
    [okm N]: N is an allowed modulus. *)
Record lawful {T} (OP : ops T) (t : ity) (okm : Z -> Prop) (V : T -> Z -> Prop) (R : Z -> T -> Z -> Prop) : Prop := {
  l_okm : forall N, okm N -> 1 <= N;
  l_range : forall x v, V x v -> in_range t v;
  l_rrange : forall N x v, R N x v -> 0 <= v < N;
  l_from : forall c, in_range t c -> exists x, o_from OP c = Some x /\ V x c;
  l_from_none : forall c, ~ in_range t c -> o_from OP c = None;
  l_toz : forall x v, V x v -> o_to_z OP x = v;
  l_add : forall x y a b, V x a -> V y b -> in_range t (a + b) -> exists z, o_add OP x y = Ret z /\ V z (a + b);
  l_sub : forall x y a b, V x a -> V y b -> in_range t (a - b) -> exists z, o_sub OP x y = Ret z /\ V z (a - b);
  l_eqb : forall x y a b, V x a -> V y b -> o_eqb OP x y = Ret (a =? b);
  l_reqb : forall N x y a b, R N x a -> R N y b -> o_eqb OP x y = Ret (a =? b);
  l_ltb : forall x y a b, V x a -> V y b -> o_ltb OP x y = Ret (a <? b);
  l_even : forall x a, V x a -> o_is_even OP x = Z.even a;
  l_rzero : forall N x a, R N x a -> o_is_zero OP x = (a =? 0);
  l_rone : forall N x a, R N x a -> o_is_one OP x = (a =? 1);
  l_rem : forall x m a N, V x a -> V m N -> okm N -> exists r, o_rem OP x m = Ret r /\ R N r (a mod N);
  l_negm : forall x m a N, V x a -> V m N -> okm N -> exists r, o_negm OP x m = Ret r /\ R N r ((- a) mod N);
  l_rnegm : forall x m a N, R N x a -> V m N -> okm N -> exists r, o_negm OP x m = Ret r /\ R N r ((- a) mod N);
  l_dblm : forall x m a N, R N x a -> V m N -> okm N -> exists r, o_dblm OP x m = Ret r /\ R N r ((2 * a) mod N);
  l_sqm : forall x m a N, R N x a -> V m N -> okm N -> exists r, o_sqm OP x m = Ret r /\ R N r ((a * a) mod N);
  l_addm : forall x y m a b N, R N x a -> R N y b -> V m N -> okm N -> exists r, o_addm OP x y m = Ret r /\ R N r ((a + b) mod N);
  l_subm : forall x y m a b N, R N x a -> R N y b -> V m N -> okm N -> exists r, o_subm OP x y m = Ret r /\ R N r ((a - b) mod N);
  l_mulm : forall x y m a b N, R N x a -> R N y b -> V m N -> okm N -> exists r, o_mulm OP x y m = Ret r /\ R N r ((a * b) mod N);
  l_powm : forall x e m a k N, V x a -> V e k -> V m N -> okm N -> exists r, o_powm OP x e m = Ret r /\ R N r (a ^ k mod N);
  l_jacobi : forall x m a N, V x a -> V m N -> o_jacobi OP x m = ext_jacobi a N;
  l_rjacobi : forall x m a N, R N x a -> V m N -> o_jacobi OP x m = ext_jacobi a N;
  l_bits : forall x a, V x a -> o_bits OP x = Ret (bt_bits a);
  l_bit : forall x a i, V x a -> 0 <= i < bt_bits a -> o_bit OP x i = Ret (Z.testbit a i);
  l_tz : forall x a, V x a -> 0 < a -> o_tz OP x = Ret (ztz a);
  l_shr : forall x a, V x a -> 0 < a -> exists y, o_shr OP x (ztz a) = Ret y /\ V y (Z.shiftr a (ztz a));
  l_rsub1 : forall N x y a, R N x a -> V y 1 -> 1 <= a -> exists z, o_sub OP x y = Ret z /\ R N z (a - 1);
  l_rgcd : forall N m z a, V m N -> R N z a -> exists g, o_gcd OP m z = Ret g /\ V g (Z.gcd N a);
  l_sqrt_exact : forall x a, V x a -> 0 < a -> exists o, o_sqrt_exact OP x = Ret o /\
      (match o with Some _ => exists r, 0 <= r /\ r * r = a | None => ~ exists r, r * r = a end);
}.

Definition UV (t : ity) (x v : Z) : Prop := x = v /\ in_range t v.
Definition UR (t : ity) (N x v : Z) : Prop := x = v /\ 0 <= v < N /\ in_range t N.
Definition MV (t : ity) (x : mint) (v : Z) : Prop := x = ML v /\ in_range t v.
Definition MRr (N : Z) (x : mint) (v : Z) : Prop := x = MR v N /\ 0 <= v < N.

Lemma Zpow_mod_spec : forall a k N, 1 <= N -> 0 <= k -> Zpow_mod a k N = a ^ k mod N.
Proof. intros a k N HN Hk. apply Zpow_mod_correct. lia. Qed.

Lemma bits_lt_width : forall w a, 0 <= a < 2 ^ w -> bt_bits a <= Z.max 0 w.
Proof.
  intros w a H. unfold bt_bits. destruct (Z.eqb_spec a 0) as [->|H0]; [lia|].
  assert (Hw : 0 <= w). { destruct (Z.lt_ge_cases w 0); [|assumption]. rewrite Z.pow_neg_r in H by assumption. lia. }
  assert (Z.log2 a < w) by (apply Z.log2_lt_pow2; lia). lia.
Qed.
Lemma ztz_lt_width : forall w a, 0 < a < 2 ^ w -> 0 <= ztz a < w.
Proof.
  intros w a [Ha Hw]. destruct (ztz_spec a Ha) as [A [m [E [_ Hm]]]]. split; [exact A|].
  apply (Z.pow_lt_mono_r_iff 2); [lia | | ].
  - destruct (Z.lt_ge_cases w 0) as [L|L]; [|exact L]. rewrite Z.pow_neg_r in Hw by exact L. lia.
  - assert (P : 0 < 2 ^ ztz a) by (apply Z.pow_pos_nonneg; lia).
    assert (Q : 2 ^ ztz a * 1 <= 2 ^ ztz a * m) by (apply Z.mul_le_mono_nonneg_l; lia). rewrite <- E in Q. lia.
Qed.
Lemma bt_bit_spec : forall pf t a i, in_range t a -> 0 <= i < bt_bits a -> bt_bit pf t a i = Ret (Z.testbit a i).
Proof.
  intros pf [w|] a i Ha Hi; cbn [bt_bit]; [|reflexivity]. cbn [in_range] in Ha. pose proof (bits_lt_width w a Ha).
  unfold shl_. replace (0 <=? i) with true by (symmetry; apply Z.leb_le; lia).
  replace (i <? w) with true by (symmetry; apply Z.ltb_lt; lia). cbn [andb bind].
  rewrite Z.shiftl_1_l, Z.mod_small by (split; [apply Z.pow_nonneg; lia | apply Z.pow_lt_mono_r; lia]).
  rewrite land_pow2 by lia. f_equal. destruct (Z.testbit a i); [|reflexivity]. apply Z.ltb_lt. apply Z.pow_pos_nonneg; lia.
Qed.
Lemma shr_ztz : forall pf t a, in_range t a -> 0 < a ->
  shr_ pf t a (ztz a) = Ret (Z.shiftr a (ztz a)) /\ in_range t (Z.shiftr a (ztz a)).
Proof.
  intros pf t a Ha H0. destruct (shiftr_ztz a H0) as [m [_ [Hm [E Es]]]]. destruct (ztz_spec a H0) as [Hz _]. split.
  - apply shr_ok; [exact Ha | lia |]. destruct t as [w|]; [|exact I]. cbn [in_range] in Ha. apply ztz_lt_width. lia.
  - rewrite Es. eapply in_range_le; [|exact Ha]. split; [lia|].
    assert (P : 0 < 2 ^ ztz a) by (apply Z.pow_pos_nonneg; lia).
    assert (Q : 1 * m <= 2 ^ ztz a * m) by (apply Z.mul_le_mono_nonneg_r; lia). rewrite <- E in Q. lia.
Qed.
Lemma gcd_range : forall t a b, in_range t a -> 0 < a -> in_range t (Z.gcd a b).
Proof.
  intros t a b Ha H0. eapply in_range_le; [|exact Ha]. split; [apply Z.gcd_nonneg|].
  apply Z.divide_pos_le; [exact H0 | apply Z.gcd_divide_l].
Qed.
Lemma odd_pos : forall N, 1 <= N -> Z.odd N = true -> N <> 0.
Proof. intros N H. lia. Qed.

Ltac unv := repeat match goal with
  | H : UV _ _ _ |- _ => destruct H as [-> ?]
  | H : UR _ _ _ _ |- _ => destruct H as [-> [? ?]]
  | H : MV _ _ _ |- _ => destruct H as [-> ?]
  | H : MRr _ _ _ |- _ => destruct H as [-> ?]
  end.

Lemma sqrt_exact_lawful : forall f pf t a, in_range t a -> 0 < a ->
  exists o, sqrt_exact f pf t a = Ret o /\ exact_root 2 a o.
Proof.
  intros f pf [w|] a Ha H0; cbn [sqrt_exact].
  - cbn [in_range] in Ha. apply sqrt_exact_prim_spec. lia.
  - apply sqrt_exact_big_spec. lia.
Qed.
Lemma exact_root_2 : forall a o, exact_root 2 a o ->
  match o with Some _ => exists r, 0 <= r /\ r * r = a | None => ~ exists r, r * r = a end.
Proof.
  intros a [r|] H; cbn [exact_root] in H.
  - exists r. rewrite Z.pow_2_r in H. exact H.
  - intros [r C]. apply (H (Z.abs r) (Z.abs_nonneg r)). rewrite Z.pow_2_r. nia.
Qed.


Lemma rem_R : forall t a N, in_range t N -> 1 <= N -> exists r, rem_ a N = Ret r /\ UR t N r (a mod N).
Proof.
  intros t a N HN H1. rewrite rem_ok by lia. eexists. split; [reflexivity|].
  split; [reflexivity|]. split; [apply Z.mod_pos_bound; lia | exact HN].
Qed.

Theorem uops_lawful : forall f pf t, lawful (uops f pf t) t (fun N => 1 <= N) (UV t) (UR t).
Proof.
  intros f pf t. constructor; cbn [uops o_from o_to_z o_add o_sub o_eqb o_ltb o_is_even o_is_zero o_is_one o_rem o_negm o_dblm o_sqm o_addm o_subm o_mulm o_powm o_jacobi o_bits o_bit o_tz o_shr o_gcd o_sqrt_exact]; intros; unv; auto; try (apply rem_R; assumption).
  - eexists. split; [apply from_prim_ok; assumption | split; auto].
  - unfold from_prim. destruct (in_rangeb t c) eqn:E; [apply in_rangeb_spec in E; contradiction | reflexivity].
  - rewrite add_ok by assumption. eexists. split; [reflexivity | split; auto].
  - rewrite sub_ok by assumption. eexists. split; [reflexivity | split; auto].
  - unfold ext_powm. replace (N =? 0) with false by (symmetry; apply Z.eqb_neq; lia).
    eexists. split; [reflexivity|]. split; [|split; [apply Z.mod_pos_bound; lia | assumption]].
    apply Zpow_mod_spec; [lia | eapply in_range_nonneg; eassumption].
  - apply bt_bit_spec; assumption.
  - unfold bt_trailing_zeros. replace (a =? 0) with false by (symmetry; apply Z.eqb_neq; lia). reflexivity.
  - destruct (shr_ztz pf t a) as [E Hr]; try assumption. eexists. split; [exact E | split; auto].
  - rewrite sub_ok by (apply (in_range_le t _ N); [lia | assumption]).
    eexists. split; [reflexivity|]. split; [reflexivity|]. split; [lia | assumption].
  - eexists. split; [reflexivity | split; [reflexivity |]]. unfold ext_gcd. apply gcd_range; [assumption | lia].
  - destruct (sqrt_exact_lawful f pf t a) as [o [E Ho]]; try assumption. exists o. split; [exact E | apply exact_root_2, Ho].
Qed.

Lemma reduced_ok : forall a N, 1 <= N -> Z.odd N = true -> exists r, reduced_new a N = Ret r /\ MRr N r (a mod N).
Proof.
  intros a N H1 Ho. unfold reduced_new. rewrite Ho. eexists. split; [reflexivity|]. split; [reflexivity|]. apply Z.mod_pos_bound. lia.
Qed.

Theorem mops_lawful : forall pf t, lawful (mops pf t) t (fun N => 1 <= N /\ Z.odd N = true) (MV t) MRr.
Proof.
  intros pf t. constructor; cbn [mops o_from o_to_z o_add o_sub o_eqb o_ltb o_is_even o_is_zero o_is_one o_rem o_negm o_dblm o_sqm o_addm o_subm o_mulm o_powm o_jacobi o_bits o_bit o_tz o_shr o_gcd o_sqrt_exact mint_val mint_plain mint_eqb mint_binop mint_rem mint_unop mint_coreop mint_powm mint_jacobi mint_gcd mint_ltb mint_sqrt_exact]; intros;
    repeat match goal with H : _ /\ Z.odd _ = true |- _ => destruct H end; unv; auto; rewrite ?Z.eqb_refl; cbn [andb bind];
    try (apply reduced_ok; assumption).
  all: cbn [mint_binop mint_eqb mint_unop mint_coreop mint_powm mint_plain mint_gcd mint_val mint_sqrt_exact]; rewrite ?Z.eqb_refl; cbn [andb].
  all: try (eexists; split; [reflexivity|]; split; [reflexivity | apply Z.mod_pos_bound; lia]).
  - eexists. split; [rewrite from_prim_ok by assumption; reflexivity | split; auto].
  - unfold from_prim. destruct (in_rangeb t c) eqn:E; [apply in_rangeb_spec in E; contradiction | reflexivity].
  - rewrite add_ok by assumption. eexists. split; [reflexivity | split; auto].
  - rewrite sub_ok by assumption. eexists. split; [reflexivity | split; auto].
  - reflexivity.
  - destruct (reduced_ok a N) as [r [-> [-> Hr]]]; try assumption. cbn [bind]. eexists. split; [reflexivity|].
    split; [|apply Z.mod_pos_bound; lia]. f_equal. rewrite <- Z.sub_0_l, Zminus_mod_idemp_r, Z.sub_0_l. reflexivity.
  - match goal with H : Z.odd N = true |- _ => rewrite H end. unfold ext_powm.
    replace (N =? 0) with false by (symmetry; apply Z.eqb_neq; lia). cbn [bind].
    eexists. split; [reflexivity|]. split; [|apply Z.mod_pos_bound; lia]. f_equal.
    apply Zpow_mod_spec; [lia | eapply in_range_nonneg; eassumption].
  - apply bt_bit_spec; assumption.
  - unfold bt_trailing_zeros. replace (a =? 0) with false by (symmetry; apply Z.eqb_neq; lia). reflexivity.
  - destruct (shr_ztz pf t a) as [E Hr]; try assumption. rewrite E. eexists. split; [reflexivity | split; auto].
  - eexists. split; [reflexivity|]. split; [|lia]. f_equal. rewrite (Z.mod_small 1) by lia. apply Z.mod_small. lia.
  - eexists. split; [reflexivity|]. split; [reflexivity|]. apply gcd_range; [assumption | lia].
  - destruct (nth_root_exact_nonneg a 2) as [o [-> Ho]]; [lia | lia |]. cbn [bind]. eexists. split; [reflexivity|].
    apply exact_root_2 in Ho. destruct o; exact Ho.
Qed.
