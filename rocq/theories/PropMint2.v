(** * C56: every operation of Mint (src/mint.rs), on every mix of its two forms. *)
From Coq Require Import ZArith Znumtheory Zpow_facts List Lia Bool.
From Verif Require Import Base Spec Ext NT PBase MInteger PInteger Ops POps MMint.
Local Open Scope Z_scope.

(** [x] stands for the integer [v] modulo [m]: it is [v] itself, or the residue of [v] modulo [m]. *)
Definition stands_for (m : Z) (x : mint) (v : Z) : Prop :=
  match x with ML a => a = v | MR r m' => m' = m /\ r = v mod m end.
Definition is_plain (x : mint) : Prop := exists a, x = ML a.

Ltac mforms := repeat match goal with
  | x : mint |- _ => destruct x
  | H : stands_for _ (ML _) _ |- _ => cbn [stands_for] in H; subst
  | H : stands_for _ (MR _ _) _ |- _ => cbn [stands_for] in H; destruct H; subst
  end.

(** +, - and * : as soon as one operand is a residue, the result is the residue of the exact result. *)
Theorem C56_ring_ops : forall pf t m a b x y, 1 <= m -> stands_for m x a -> stands_for m y b -> ~ (is_plain x /\ is_plain y) ->
  o_add (mops pf t) x y = Ret (MR ((a + b) mod m) m) /\
  o_sub (mops pf t) x y = Ret (MR ((a - b) mod m) m) /\
  o_mul (mops pf t) x y = Ret (MR ((a * b) mod m) m).
Proof.
  intros pf t m a b x y Hm Hx Hy Hp. cbn [mops o_add o_sub o_mul]. mforms; cbn [mint_binop]; rewrite ?Z.eqb_refl.
  - exfalso. apply Hp. split; eexists; reflexivity.
  - rewrite <- Zplus_mod, <- Zminus_mod, <- Zmult_mod. auto.
  - rewrite <- Zplus_mod, <- Zminus_mod, <- Zmult_mod. auto.
  - rewrite <- Zplus_mod, <- Zminus_mod, <- Zmult_mod. auto.
Qed.
(** On two plain integers they are the operations of the integer type, and so are / and the others
    that only accept plain integers. *)
Theorem C56_plain_ops : forall pf t a b, in_range t a -> in_range t b ->
  (in_range t (a + b) -> o_add (mops pf t) (ML a) (ML b) = Ret (ML (a + b))) /\
  (in_range t (a * b) -> o_mul (mops pf t) (ML a) (ML b) = Ret (ML (a * b))) /\
  (b <= a -> o_sub (mops pf t) (ML a) (ML b) = Ret (ML (a - b))) /\
  (b <> 0 -> o_div (mops pf t) (ML a) (ML b) = Ret (ML (a / b)) /\
             o_is_multiple_of (mops pf t) (ML a) (ML b) = Ret (a mod b =? 0) /\
             mint_div_floor (ML a) (ML b) = Ret (ML (a / b)) /\ mint_mod_floor (ML a) (ML b) = Ret (ML (a mod b)) /\
             mint_div_rem (ML a) (ML b) = Ret (ML (a / b), ML (a mod b)) /\
             mint_divides (ML a) (ML b) = Ret (a mod b =? 0)) /\
  (in_range t (Z.lcm a b) -> mint_lcm pf t (ML a) (ML b) = Ret (ML (Z.lcm a b))) /\
  o_sqrt (mops pf t) (ML a) = Ret (ML (Z.sqrt a)).
Proof.
  intros pf t a b Ha Hb. pose proof (in_range_nonneg _ _ Ha). pose proof (in_range_nonneg _ _ Hb).
  cbn [mops o_add o_mul o_sub o_div o_is_multiple_of o_sqrt]. unfold mint_div_floor, mint_mod_floor, mint_div_rem, mint_divides, mint_lcm. cbn [mint_binop mint_left2 mint_div mint_is_multiple_of mint_sqrt].
  split; [intros E; rewrite add_ok by exact E; reflexivity|]. split; [intros E; rewrite mul_ok by exact E; reflexivity|].
  split; [intros E; rewrite sub_ok by (apply (in_range_le t _ a); [lia | exact Ha]); reflexivity|].
  split; [intros E; rewrite div_ok, rem_ok by exact E; cbn [bind]; repeat split|].
  split; [|reflexivity]. intros E. unfold ext_lcm. destruct (Z.eqb_spec a 0) as [->|Ea].
  - destruct (Z.eqb_spec b 0) as [->|Eb]; cbn [andb bind]; [reflexivity|].
    rewrite mul_ok by (rewrite Z.mul_0_l; exact Ha). cbn [bind]. rewrite Z.mul_0_l. reflexivity.
  - cbn [andb]. assert (L : Z.lcm a b = a * (b / Z.gcd a b)).
    { unfold Z.lcm. apply Z.abs_eq. apply Z.mul_nonneg_nonneg; [lia|]. apply Z.div_pos; [lia|].
      pose proof (Z.gcd_nonneg a b). assert (Z.gcd a b <> 0) by (intros C; apply Z.gcd_eq_0 in C; lia). lia. }
    rewrite L in E |- *. rewrite mul_ok by exact E. reflexivity.
Qed.
(** Operations that exist for residues only with a plain odd modulus: results are the exact residues,
    for operands in either form. *)
Theorem C56_modular_ops : forall pf t m a x, 1 <= m -> Z.odd m = true -> stands_for m x a ->
  o_negm (mops pf t) x (ML m) = Ret (MR ((- a) mod m) m) /\
  o_dblm (mops pf t) x (ML m) = Ret (MR ((2 * a) mod m) m) /\
  o_sqm (mops pf t) x (ML m) = Ret (MR ((a * a) mod m) m) /\
  (forall e, 0 <= e -> o_powm (mops pf t) x (ML e) (ML m) = Ret (MR (a ^ e mod m) m)) /\
  o_rem (mops pf t) x (ML m) = Ret (MR (a mod m) m).
Proof.
  intros pf t m a x Hm Ho Hx. cbn [mops o_negm o_dblm o_sqm o_powm o_rem].
  assert (E1 : (- (a mod m)) mod m = (- a) mod m) by (rewrite <- (Z.sub_0_l (a mod m)), Zminus_mod_idemp_r, Z.sub_0_l; reflexivity).
  assert (E2 : (2 * (a mod m)) mod m = (2 * a) mod m) by apply Zmult_mod_idemp_r.
  assert (E3 : (a mod m * (a mod m)) mod m = (a * a) mod m) by (symmetry; apply Zmult_mod).
  assert (P : forall e v, 0 <= e -> ext_powm v e m = Ret (v ^ e mod m)).
  { intros e v He. unfold ext_powm. destruct (Z.eqb_spec m 0); [lia|]. rewrite Zpow_mod_spec by lia. reflexivity. }
  mforms; cbn [mint_unop mint_powm mint_rem]; unfold reduced_new; rewrite ?Ho, ?Z.eqb_refl; cbn [bind]; rewrite ?E1, ?E2, ?E3.
  - repeat split. intros e He. rewrite P by exact He. reflexivity.
  - repeat split. intros e He. rewrite P by exact He. cbn [bind]. rewrite <- Zpower_mod by lia; reflexivity.
Qed.
Theorem C56_core_ops : forall pf t m a b, 1 <= m ->
  let x := MR (a mod m) m in let y := MR (b mod m) m in
  o_addm (mops pf t) x y (ML m) = Ret (MR ((a + b) mod m) m) /\
  o_subm (mops pf t) x y (ML m) = Ret (MR ((a - b) mod m) m) /\
  o_mulm (mops pf t) x y (ML m) = Ret (MR ((a * b) mod m) m).
Proof.
  intros pf t m a b Hm. cbn [mops o_addm o_subm o_mulm mint_coreop]. rewrite Z.eqb_refl. cbn [andb].
  rewrite <- Zplus_mod, <- Zminus_mod, <- Zmult_mod. auto.
Qed.
(** An even modulus cannot be entered (the Montgomery form needs an odd one), whatever the operation. *)
Theorem C56_even_modulus_panics : forall pf t m a e, Z.odd m = false ->
  o_rem (mops pf t) (ML a) (ML m) = Panic /\ o_negm (mops pf t) (ML a) (ML m) = Panic /\
  o_dblm (mops pf t) (ML a) (ML m) = Panic /\ o_sqm (mops pf t) (ML a) (ML m) = Panic /\ o_powm (mops pf t) (ML a) (ML e) (ML m) = Panic.
Proof.
  intros pf t m a e Ho. cbn [mops o_rem o_negm o_dblm o_sqm o_powm mint_rem mint_unop mint_powm]. unfold reduced_new. rewrite Ho. auto.
Qed.
(** Comparing: equality needs both operands in one form, the order does not. *)
Theorem C56_eq : forall x y, 
  (forall b, mint_eqb x y = Ret b -> (b = true <-> x = y)) /\
  (mint_eqb x y = Panic <-> (is_plain x /\ ~ is_plain y) \/ (~ is_plain x /\ is_plain y) \/ exists r m r' m', x = MR r m /\ y = MR r' m' /\ m <> m') /\
  mint_eqb x y <> NoFuel.
Proof.
  intros [a|r m] [b|r' m']; cbn [mint_eqb]; (split; [|split; [|try destruct (m =? m'); discriminate]]).
  - intros c E. injection E as <-. rewrite Z.eqb_eq. split; congruence.
  - split; [discriminate|]. intros [[_ H]|[[H _]|(r1 & m1 & r2 & m2 & C & _)]]; [exfalso; apply H; eexists; reflexivity.. | discriminate C].
  - discriminate.
  - split; [intros _; left | reflexivity]. split; [eexists; reflexivity | intros [c C]; discriminate C].
  - discriminate.
  - split; [intros _; right; left | reflexivity]. split; [intros [c C]; discriminate C | eexists; reflexivity].
  - intros c E. destruct (Z.eqb_spec m m') as [->|]; [|discriminate E]. injection E as <-. rewrite Z.eqb_eq. split; congruence.
  - destruct (Z.eqb_spec m m') as [->|Hm].
    + split; [discriminate|]. intros [[[c C] _]|[[_ [c C]]|(r1 & m1 & r2 & m2 & C1 & C2 & C)]]; try discriminate C. congruence.
    + split; [intros _ | reflexivity]. right. right. exists r, m, r', m'. auto.
Qed.
Theorem C56_order : forall pf m x y a b, stands_for m x a -> stands_for m y b -> 0 <= a < m -> 0 <= b < m -> mint_ltb pf x y = Ret (a <? b).
Proof.
  intros pf m x y a b Hx Hy Ha Hb. mforms; cbn [mint_ltb mint_val]; rewrite ?Z.eqb_refl, ?Z.mod_small by lia; reflexivity.
Qed.
(** Queries look at the value. *)
Theorem C56_queries : forall pf t x v, (v = match x with ML a => a | MR r _ => r end) -> 0 <= v ->
  o_is_zero (mops pf t) x = (v =? 0) /\ o_is_one (mops pf t) x = (v =? 1) /\ o_is_even (mops pf t) x = Z.even v /\ o_to_z (mops pf t) x = v /\
  (forall y, o_gcd (mops pf t) x y = Ret (ML (Z.gcd v (match y with ML a => a | MR r _ => r end)))) /\
  (forall n, Z.odd n = true -> o_jacobi (mops pf t) x (ML n) = Ret (jacobi v n)) /\
  (mint_to_u64 x = Some v <-> v < 2 ^ 64) /\ (mint_to_i64 x = Some v <-> v < 2 ^ 63).
Proof.
  intros pf t x v Hv H0. cbn [mops o_is_zero o_is_one o_is_even o_to_z o_gcd o_jacobi].
  assert (E : mint_val x = v) by (destruct x; symmetry; exact Hv). unfold mint_gcd, mint_jacobi, mint_to_u64, mint_to_i64, ext_gcd, ext_jacobi. rewrite E.
  split; [reflexivity|]. split; [reflexivity|]. split; [reflexivity|]. split; [reflexivity|].
  split; [intros [c|r c]; reflexivity|]. split; [intros n ->; reflexivity|].
  split; [destruct (Z.ltb_spec v (2 ^ 64)) | destruct (Z.ltb_spec v (2 ^ 63))]; split; intros; try discriminate; auto; lia.
Qed.
(** Everything else hits [unreachable!()] when given a residue. *)
Theorem C56_residue_panics : forall pf t r m y k, 
  o_div (mops pf t) (MR r m) y = Panic /\ o_div (mops pf t) y (MR r m) = Panic /\ o_rem (mops pf t) y (MR r m) = Panic /\
  o_is_multiple_of (mops pf t) (MR r m) y = Panic /\ o_is_multiple_of (mops pf t) y (MR r m) = Panic /\
  o_sqrt (mops pf t) (MR r m) = Panic /\ o_sqrt_exact (mops pf t) (MR r m) = Panic /\ o_bits (mops pf t) (MR r m) = Panic /\
  o_bit (mops pf t) (MR r m) k = Panic /\ o_tz (mops pf t) (MR r m) = Panic /\ o_shr (mops pf t) (MR r m) k = Panic /\
  o_negm (mops pf t) y (MR r m) = Panic /\ o_jacobi (mops pf t) y (MR r m) = Panic /\ (forall e, o_powm (mops pf t) y e (MR r m) = Panic) /\
  mint_nth_root (MR r m) k = Panic /\ mint_nth_root_exact (MR r m) k = Panic /\ mint_pow pf t (MR r m) k = Panic /\
  mint_lcm pf t (MR r m) y = Panic /\ mint_div_rem y (MR r m) = Panic.
Proof.
  intros pf t r m y k. cbn [mops o_div o_rem o_is_multiple_of o_sqrt o_sqrt_exact o_bits o_bit o_tz o_shr o_negm o_jacobi o_powm].
  destruct y; repeat split; try reflexivity; intros [e|e' m']; reflexivity.
Qed.
(** Operands that belong to different moduli. Debug builds panic. Release builds keep the modulus of the residue and
    do not look at the one that is passed, so a negation "modulo m'" is really one modulo m. *)
Theorem C56_other_modulus : forall pf t r m r' m' e, m <> m' ->
  o_add (mops pf t) (MR r m) (MR r' m') = Panic /\ o_sub (mops pf t) (MR r m) (MR r' m') = Panic /\ o_mul (mops pf t) (MR r m) (MR r' m') = Panic /\
  o_eqb (mops pf t) (MR r m) (MR r' m') = Panic /\
  (forall n, o_addm (mops pf t) (MR r m) (MR r' m') n = Panic /\ o_subm (mops pf t) (MR r m) (MR r' m') n = Panic /\ o_mulm (mops pf t) (MR r m) (MR r' m') n = Panic) /\
  (pf = Debug ->
    o_ltb (mops pf t) (MR r m) (MR r' m') = Panic /\ o_rem (mops pf t) (MR r m) (ML m') = Panic /\
    o_negm (mops pf t) (MR r m) (ML m') = Panic /\ o_dblm (mops pf t) (MR r m) (ML m') = Panic /\ o_sqm (mops pf t) (MR r m) (ML m') = Panic /\
    o_powm (mops pf t) (MR r m) (ML e) (ML m') = Panic /\
    (forall q, o_addm (mops pf t) (MR r m) (MR q m) (ML m') = Panic /\ o_subm (mops pf t) (MR r m) (MR q m) (ML m') = Panic /\ o_mulm (mops pf t) (MR r m) (MR q m) (ML m') = Panic)) /\
  (pf = Release ->
    o_ltb (mops pf t) (MR r m) (MR r' m') = Ret (r <? r') /\ o_rem (mops pf t) (MR r m) (ML m') = Ret (MR r m) /\
    o_negm (mops pf t) (MR r m) (ML m') = Ret (MR ((- r) mod m) m) /\ o_dblm (mops pf t) (MR r m) (ML m') = Ret (MR ((2 * r) mod m) m) /\
    o_sqm (mops pf t) (MR r m) (ML m') = Ret (MR ((r * r) mod m) m) /\
    (1 <= m -> 0 <= e -> o_powm (mops pf t) (MR r m) (ML e) (ML m') = Ret (MR (r ^ e mod m) m)) /\
    (forall q, o_addm (mops pf t) (MR r m) (MR q m) (ML m') = Ret (MR ((r + q) mod m) m) /\ o_subm (mops pf t) (MR r m) (MR q m) (ML m') = Ret (MR ((r - q) mod m) m) /\
               o_mulm (mops pf t) (MR r m) (MR q m) (ML m') = Ret (MR ((r * q) mod m) m))).
Proof.
  intros pf t r m r' m' e Hm.
  assert (E : (m =? m') = false) by (apply Z.eqb_neq; exact Hm).
  assert (N : forall n A (x : res A), (if (m =? n) && (m' =? n) then x else unless_debug pf Panic) = Panic).
  { intros n A x. destruct (Z.eqb_spec m n), (Z.eqb_spec m' n); cbn [andb]; try (destruct pf; reflexivity). congruence. }
  cbn [mops o_add o_sub o_mul o_eqb o_ltb o_rem o_negm o_dblm o_sqm o_powm o_addm o_subm o_mulm mint_binop mint_eqb mint_ltb mint_rem mint_unop mint_powm mint_coreop].
  rewrite E. repeat match goal with |- _ /\ _ => split end; try reflexivity.
  - intros [n|q n]; repeat split; try reflexivity; apply N.
  - intros ->. cbn [unless_debug andb]. repeat split; reflexivity.
  - intros ->. cbn [unless_debug andb]. rewrite Z.eqb_refl. repeat split; try reflexivity.
    intros H1 He. unfold ext_powm. destruct (Z.eqb_spec m 0); [lia|]. rewrite Zpow_mod_spec by lia. reflexivity.
Qed.
(** addm, subm and mulm take residues and a plain modulus, nothing else; a residue cannot serve as a modulus;
    invm is not implemented. *)
Theorem C56_unsupported : forall pf t x y m, is_plain x \/ is_plain y \/ ~ is_plain m ->
  o_addm (mops pf t) x y m = Panic /\ o_subm (mops pf t) x y m = Panic /\ o_mulm (mops pf t) x y m = Panic /\
  (~ is_plain m -> o_negm (mops pf t) x m = Panic /\ o_dblm (mops pf t) x m = Panic /\ o_sqm (mops pf t) x m = Panic /\
     o_rem (mops pf t) x m = Panic /\ forall e, o_powm (mops pf t) x e m = Panic /\ o_powm (mops pf t) e m x = Panic) /\
  mint_invm x m = Panic.
Proof.
  intros pf t x y m H.
  assert (P : forall a, is_plain (ML a)) by (intros; eexists; reflexivity).
  assert (R : forall r q, ~ is_plain (MR r q)) by (intros r q [a C]; discriminate C).
  cbn [mops o_addm o_subm o_mulm o_negm o_dblm o_sqm o_rem o_powm].
  destruct x, y, m; try (exfalso; destruct H as [H|[H|H]]; [exact (R _ _ H) | exact (R _ _ H) | exact (H (P _))]);
  (repeat match goal with |- _ /\ _ => split end; try reflexivity);
  (intros C; first [exfalso; exact (C (P _)) | repeat split; try reflexivity; match goal with |- mint_powm _ ?e _ _ = _ => destruct e; reflexivity | |- mint_powm _ _ ?e _ = _ => destruct e; reflexivity end]).
Qed.
(** Roots and powers of plain integers. *)
Theorem C56_roots_and_powers : forall pf t a k, 0 <= a -> 1 <= k ->
  (exists r, mint_nth_root (ML a) k = Ret (ML r) /\ 0 <= r /\ r ^ k <= a < (r + 1) ^ k) /\
  (exists o, mint_nth_root_exact (ML a) k = Ret o /\ (forall x, o = Some x -> exists r, x = ML r /\ 0 <= r /\ r ^ k = a) /\ (o = None -> forall r, 0 <= r -> r ^ k <> a)) /\
  (in_range t (a ^ k) -> mint_pow pf t (ML a) k = Ret (ML (a ^ k))).
Proof.
  intros pf t a k Ha Hk. unfold mint_nth_root, mint_nth_root_exact, mint_pow. cbn [mint_plain]. split; [|split].
  - unfold ext_nth_root. destruct (Z.leb_spec k 0); [lia|]. destruct (Z.leb_spec 0 a); [|lia]. cbn [bind].
    destruct (iroot_spec k a ltac:(lia) Ha) as [H1 [H2 H3]]. exists (iroot k a). auto.
  - destruct (nth_root_exact_nonneg a k Hk Ha) as [o [-> Ho]]. cbn [bind]. eexists. split; [reflexivity|]. destruct o as [r|]; cbn [option_map exact_root] in *.
    + split; [intros x E; injection E as <-; exists r; intuition | discriminate].
    + split; [discriminate | intros _; intuition].
  - intros E. unfold wrapz. apply in_rangeb_spec in E. rewrite E. reflexivity.
Qed.
Example C56_case_other_modulus : (3 <> 7) /\
  o_negm (mops Debug u64) (MR 2 7) (ML 3) = Panic /\ o_negm (mops Release u64) (MR 2 7) (ML 3) = Ret (MR 5 7) /\
  o_powm (mops Release u64) (MR 2 7) (ML 3) (ML 3) = Ret (MR 1 7) /\ o_add (mops Release u64) (MR 2 7) (MR 2 3) = Panic.
Proof. repeat split; try reflexivity. discriminate. Qed.
Example C56_case : let x := MR 3 7 in let y := ML 12 in
  (stands_for 7 x 10 /\ stands_for 7 y 12 /\ ~ (is_plain x /\ is_plain y)) /\
  o_sub (mops Debug u64) y x = Ret (MR 2 7) /\ o_sub (mops Debug u64) x y = Ret (MR 5 7) /\ o_powm (mops Debug u64) x (ML 2) (ML 7) = Ret (MR 2 7) /\
  mint_eqb x y = Panic /\ mint_ltb Debug x (ML 5) = Ret true /\ mint_lcm Debug u64 y (ML 18) = Ret (ML 36) /\ mint_nth_root y 3 = Ret (ML 2).
Proof.
  split; [repeat split; auto; intros [[a C] _]; discriminate C|]. repeat split; reflexivity.
Qed.

Print Assumptions C56_ring_ops.
Print Assumptions C56_plain_ops.
Print Assumptions C56_modular_ops.
Print Assumptions C56_core_ops.
Print Assumptions C56_even_modulus_panics.
Print Assumptions C56_eq.
Print Assumptions C56_order.
Print Assumptions C56_queries.
Print Assumptions C56_residue_panics.
Print Assumptions C56_other_modulus.
Print Assumptions C56_unsupported.
Print Assumptions C56_roots_and_powers.
