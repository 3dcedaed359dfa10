(** * How long Pollard's rho (src/factor.rs) runs and when it finds a factor. No further code is modelled here. *)
From Coq Require Import ZArith Znumtheory List Lia Bool.
From Verif Require Import Base Ext NT PBase MInteger PInteger Ops POps PropSprp MFactor PFactor.
Import ListNotations.
Local Open Scope Z_scope.

(** one pass as a function of numbers *)
Definition rho_pure (n c : Z) (st : rho_state (T := Z)) : step (rho_state (T := Z)) (option Z * Z) :=
  let i := r_i st + 1 in
  let a := (r_a st * r_a st + c) mod n in
  if a =? r_b st then Done (None, i)
  else
    let z := (r_z st * Z.abs (a - r_b st)) mod n in
    if z =? 0 then
      if r_bt st then Done (None, i)
      else Next {| r_a := r_s st; r_b := r_b st; r_z := 1 mod n; r_i := i; r_j := r_j st; r_s := 1; r_bt := true |}
    else
      let check := (i =? r_j st) || (Z.land i 127 =? 0) || r_bt st in
      let g := Z.gcd z n in
      if check && negb (g =? 1) && negb (g =? n) then Done (Some g, i)
      else Next {| r_a := a; r_b := if i =? r_j st then a else r_b st; r_z := z; r_i := i;
                   r_j := if i =? r_j st then 2 * r_j st else r_j st; r_s := if check then a else r_s st; r_bt := r_bt st |}.

Lemma rho_step_pure : forall f pf t n c st, valid_ity t -> in_range t n -> 1 <= n -> in_range t (r_b st) ->
  0 <= r_i st < 2 ^ 63 -> 0 <= r_j st < 2 ^ 63 -> rho_step pf (uops f pf t) n c st = Ret (rho_pure n c st).
Proof.
  intros f pf t n c st Ht Hn H1 Hb Hi Hj.
  assert (Hmod : forall x, in_range t (x mod n)) by (intros x; eapply in_range_le; [|exact Hn]; pose proof (Z.mod_pos_bound x n ltac:(lia)); lia).
  unfold rho_step, rho_pure. rewrite add_ok by (cbn [usize in_range]; lia). cbn [bind]. cbn [uops o_sqm o_addm o_eqb o_ltb o_sub o_mulm o_is_zero o_rem o_gcd o_is_one].
  unfold ext_sqm, ext_addm, ext_mulm. rewrite rem_ok by lia. cbn [bind]. rewrite rem_ok by lia. cbn [bind].
  replace (((r_a st * r_a st) mod n + c) mod n) with ((r_a st * r_a st + c) mod n) by (rewrite Zplus_mod_idemp_l; reflexivity).
  set (a := (r_a st * r_a st + c) mod n). assert (Har : in_range t a) by apply Hmod. pose proof (in_range_nonneg _ _ Har). pose proof (in_range_nonneg _ _ Hb).
  destruct (Z.eqb_spec a (r_b st)) as [E|E]; [reflexivity|].
  assert (Hd : (if a <? r_b st then sub_ pf t (r_b st) a else sub_ pf t a (r_b st)) = Ret (Z.abs (a - r_b st))).
  { destruct (Z.ltb_spec a (r_b st)); (rewrite sub_ok; [f_equal; lia|]); [eapply in_range_le; [|exact Hb] | eapply in_range_le; [|exact Har]]; lia. }
  rewrite Hd. cbn [bind]. rewrite rem_ok by lia. cbn [bind]. set (z := (r_z st * Z.abs (a - r_b st)) mod n).
  destruct (z =? 0).
  - destruct (r_bt st); [reflexivity|]. unfold o_one, o_const. cbn [uops o_from]. rewrite from_prim_ok by (apply valid_one, Ht). cbn [unwrap bind]. rewrite rem_ok by lia. reflexivity.
  - set (check := (r_i st + 1 =? r_j st) || (Z.land (r_i st + 1) 127 =? 0) || r_bt st). unfold ext_gcd.
    assert (Esh : shl_ pf usize (r_j st) 1 = Ret (2 * r_j st)).
    { unfold shl_, usize. cbn [Z.leb Z.ltb Z.compare Pos.compare Pos.compare_cont andb]. rewrite Z.shiftl_mul_pow2 by lia. rewrite Z.mod_small by lia. f_equal. lia. }
    destruct check eqn:Ec; cbn [bind andb].
    + destruct (Z.gcd z n =? 1); cbn [bind negb andb]; [|destruct (Z.gcd z n =? n); cbn [bind negb andb]; [|reflexivity]];
        (destruct (r_i st + 1 =? r_j st); [rewrite Esh|]; reflexivity).
    + destruct (r_i st + 1 =? r_j st); [rewrite Esh|]; reflexivity.
Qed.

Section Walk.
Variables (n c start : Z).
Hypotheses (Hn : 2 <= n) (Hs : 0 <= start < n).
Notation X k := (Nat.iter (Z.to_nat k) (fun x => (x * x + c) mod n) start).

Lemma X_succ : forall k, 0 <= k -> X (k + 1) = (X k * X k + c) mod n.
Proof. intros k Hk. replace (Z.to_nat (k + 1)) with (S (Z.to_nat k)) by lia. reflexivity. Qed.
Lemma X_range : forall k, 0 <= X k < n.
Proof. intros k. destruct (Z.to_nat k) as [|j]; [exact Hs|]. cbn [Nat.iter]. apply Z.mod_pos_bound. lia. Qed.

(** the product of the next [h] differences to the fixed point *)
Fixpoint dprod (ib u : Z) (h : nat) : Z :=
  match h with O => 1 | S h' => (X (u + 1) - X ib) * dprod ib (u + 1) h' end.
Lemma dprod_snoc : forall h ib u, 0 <= u -> dprod ib u (S h) = dprod ib u h * (X (u + Z.of_nat h + 1) - X ib).
Proof.
  induction h as [|h IH]; intros ib u Hu; [cbn [dprod]; replace (u + Z.of_nat 0 + 1) with (u + 1) by lia; ring|].
  change (dprod ib u (S (S h))) with ((X (u + 1) - X ib) * dprod ib (u + 1) (S h)). rewrite IH by lia. cbn [dprod].
  replace (u + 1 + Z.of_nat h + 1) with (u + Z.of_nat (S h) + 1) by lia. ring.
Qed.

(** the walk modulo a divisor [d] has period [l] from [m] on *)
Variables (d m l : Z).
Hypotheses (Hd : 1 < d) (Dn : (d | n)) (Hm : 0 <= m) (Hl : 1 <= l) (Hcol : (d | X (m + l) - X m)).
Let M := Z.max (m + 128) l.

Lemma period : forall u, m <= u -> (d | X (u + l) - X u).
Proof.
  intros u Hu. replace u with (m + (u - m)) by lia. generalize (u - m) (Z.le_0_sub m u). intros k Hk. assert (0 <= k) as Hk' by (apply Hk; lia). clear Hk Hu u.
  pattern k. apply natlike_ind; [| |exact Hk'].
  - rewrite Z.add_0_r. exact Hcol.
  - intros x Hx [e IH]. replace (m + Z.succ x + l) with (m + x + l + 1) by lia. replace (m + Z.succ x) with (m + x + 1) by lia. rewrite !X_succ by lia.
    set (A := X (m + x + l)) in *. set (B := X (m + x)) in *. destruct Dn as [q En].
    pose proof (Z.div_mod (A * A + c) n ltac:(lia)) as E1. pose proof (Z.div_mod (B * B + c) n ltac:(lia)) as E2.
    exists (e * (A + B) - q * ((A * A + c) / n) + q * ((B * B + c) / n)). assert (A = B + e * d) by lia. nia.
Qed.

Inductive inv (k : Z) (st : rho_state (T := Z)) : Prop :=
| I_start : k = 0 -> st = {| r_a := start; r_b := start; r_z := 1 mod n; r_i := 0; r_j := 1; r_s := start; r_bt := false |} -> inv k st
| I_walk : forall J is y, 1 <= J <= k -> k < 2 * J -> r_i st = k -> r_j st = 2 * J -> r_bt st = false ->
    r_a st = X k -> r_b st = X J -> r_s st = X is -> J <= is <= k -> 128 * (k / 128) <= is ->
    Z.gcd y n = 1 -> (n | r_z st - y * dprod J is (Z.to_nat (k - is))) -> 0 < r_z st < n ->
    J < 2 * M -> (M <= J -> k < J + l \/ (d | r_z st)) -> inv k st
| I_replay : forall ia ib rem, r_i st = k -> r_bt st = true -> r_a st = X ia -> r_b st = X ib -> 0 <= ib <= ia -> ia <= k -> k - ia <= 128 ->
    Z.gcd (r_z st) n = 1 -> (n | dprod ib ia rem) -> k + Z.of_nat rem <= 4 * M + 128 -> 0 <= r_j st <= 2 * k -> r_j st <= k \/ r_j st < 4 * M -> inv k st
| I_new : forall J h, 1 <= J <= k -> k < 2 * J -> r_i st = k -> r_j st = 2 * J -> r_bt st = true ->
    0 <= h <= 128 -> h <= J -> r_a st = X (k - h) -> r_b st = X (J - h) ->
    Z.gcd (r_z st) n = 1 -> J < 4 * M -> (M <= J -> k < J + l) -> inv k st.

Lemma coprime_mul0 : forall z x, Z.gcd z n = 1 -> (n | z * x) -> (n | x).
Proof. intros z x G D. apply (Z.gauss n z x); [exact D | rewrite Z.gcd_comm; exact G]. Qed.
Lemma gcd_mod : forall z, Z.gcd (z mod n) n = Z.gcd z n.
Proof. intros z. rewrite Z.gcd_mod by lia. apply Z.gcd_comm. Qed.
Lemma div_mod0 : forall x, x mod n = 0 <-> (n | x).
Proof. intros x. split; [apply Z.mod_divide; lia | apply Z.mod_divide; lia]. Qed.
Lemma d_mod : forall x, (d | x) -> (d | x mod n).
Proof. intros x D. rewrite Z.mod_eq by lia. apply Z.divide_sub_r; [exact D|]. apply Z.divide_mul_l. exact Dn. Qed.
Lemma small_multiple : forall u v, 0 <= u < n -> 0 <= v < n -> (n | Z.abs (u - v)) -> u = v.
Proof. intros u v Hu Hv D. destruct (Z.eq_dec u v) as [E|E]; [exact E|]. exfalso. pose proof (Z.divide_pos_le n (Z.abs (u - v)) ltac:(lia) D). lia. Qed.
Lemma gcd_coprime_part : forall z x, Z.gcd (z * x) n = 1 -> Z.gcd x n = 1.
Proof.
  intros z x G. pose proof (Z.gcd_divide_l x n) as D1. pose proof (Z.gcd_divide_r x n) as D2. pose proof (Z.gcd_nonneg x n).
  assert (D : (Z.gcd x n | 1)) by (rewrite <- G; apply Z.gcd_greatest; [apply Z.divide_mul_r; exact D1 | exact D2]). apply Z.divide_1_r in D. lia.
Qed.
Lemma gcd_abs_coprime : forall x, Z.gcd (Z.abs x) n = Z.gcd x n.
Proof. intros x. apply Z.gcd_abs_l. Qed.
Lemma abs_unit : forall x, exists e, (e = 1 \/ e = -1) /\ Z.abs x = e * x.
Proof. intros x. destruct (Z.le_gt_cases 0 x); [exists 1 | exists (-1)]; lia. Qed.
Lemma gcd_not_n : forall z, 0 < z < n -> Z.gcd z n <> n.
Proof. intros z Hz C. pose proof (Z.gcd_divide_l z n) as D. rewrite C in D. pose proof (Z.divide_pos_le n z ltac:(lia) D). lia. Qed.
Lemma d_coprime : forall z, Z.gcd z n = 1 -> ~ (d | z).
Proof. intros z G D. assert (E : (d | 1)) by (rewrite <- G; apply Z.gcd_greatest; assumption). apply Z.divide_1_r in E. lia. Qed.

Definition cyclic (i : Z) : Prop := exists u v, 0 <= u < v /\ v <= i /\ X u = X v.

Inductive outcome (st : rho_state (T := Z)) (ia ib : Z) : Prop :=
| O_meet : X (ia + 1) = X ib -> rho_pure n c st = Done (None, r_i st + 1) -> outcome st ia ib
| O_zero : X (ia + 1) <> X ib -> (n | r_z st * Z.abs (X (ia + 1) - X ib)) ->
    rho_pure n c st = (if r_bt st then Done (None, r_i st + 1) else Next {| r_a := r_s st; r_b := r_b st; r_z := 1 mod n; r_i := r_i st + 1; r_j := r_j st; r_s := 1; r_bt := true |}) -> outcome st ia ib
| O_found : forall g, 1 < g < n -> (g | n) -> rho_pure n c st = Done (Some g, r_i st + 1) -> outcome st ia ib
| O_next : forall z check, X (ia + 1) <> X ib -> z = (r_z st * Z.abs (X (ia + 1) - X ib)) mod n -> 0 < z < n ->
    check = (r_i st + 1 =? r_j st) || (Z.land (r_i st + 1) 127 =? 0) || r_bt st -> (check = true -> Z.gcd z n = 1) ->
    rho_pure n c st = Next {| r_a := X (ia + 1); r_b := if r_i st + 1 =? r_j st then X (ia + 1) else r_b st; r_z := z; r_i := r_i st + 1;
                   r_j := if r_i st + 1 =? r_j st then 2 * r_j st else r_j st; r_s := if check then X (ia + 1) else r_s st; r_bt := r_bt st |} -> outcome st ia ib.

Lemma pure_outcome : forall st ia ib, 0 <= ia -> r_a st = X ia -> r_b st = X ib -> outcome st ia ib.
Proof.
  intros st ia ib Hia Ea Eb. assert (E1 : (r_a st * r_a st + c) mod n = X (ia + 1)) by (rewrite X_succ by lia; rewrite Ea; reflexivity).
  destruct (Z.eq_dec (X (ia + 1)) (X ib)) as [E|E].
  - apply O_meet; [exact E|]. unfold rho_pure. rewrite E1, Eb, (proj2 (Z.eqb_eq _ _) E). reflexivity.
  - assert (Ne : (X (ia + 1) =? r_b st) = false) by (rewrite Eb; apply Z.eqb_neq, E).
    remember ((r_z st * Z.abs (X (ia + 1) - X ib)) mod n) as z eqn:Ez. pose proof (Z.mod_pos_bound (r_z st * Z.abs (X (ia + 1) - X ib)) n ltac:(lia)) as Bz. rewrite <- Ez in Bz.
    destruct (Z.eq_dec z 0) as [Z0|Z0].
    + apply O_zero; [exact E | apply div_mod0; congruence|]. unfold rho_pure. rewrite E1, Ne, Eb, <- Ez, Z0, <- Eb. reflexivity.
    + remember ((r_i st + 1 =? r_j st) || (Z.land (r_i st + 1) 127 =? 0) || r_bt st) as check eqn:Ec.
      assert (Nz : (z =? 0) = false) by (apply Z.eqb_neq; exact Z0). pose proof (gcd_not_n z ltac:(lia)) as Gn.
      destruct (check && negb (Z.gcd z n =? 1)) eqn:Ef.
      * apply andb_true_iff in Ef. destruct Ef as [Ef1 Ef2]. apply negb_true_iff, Z.eqb_neq in Ef2. destruct (gcd_proper n z ltac:(lia) Ef2 Gn) as [G1 [G2 G3]].
        apply (O_found _ _ _ (Z.gcd z n)); [lia | exact G3|]. unfold rho_pure. rewrite E1, Ne, Eb, <- Ez, Nz, <- Ec, Ef1. apply Z.eqb_neq in Ef2, Gn. rewrite Ef2, Gn. reflexivity.
      * apply (O_next _ _ _ z check); [exact E | exact Ez | lia | exact Ec | |].
        -- intros C. rewrite C in Ef. cbn [andb] in Ef. apply negb_false_iff, Z.eqb_eq in Ef. exact Ef.
        -- unfold rho_pure. rewrite E1, Ne, Eb, <- Ez, Nz, <- Ec, Ef, <- Eb. reflexivity.
Qed.

Lemma meet_in_replay : forall z u v, Z.gcd z n = 1 -> (n | z * Z.abs (X u - X v)) -> X u = X v.
Proof. intros z u v G D. apply small_multiple; [apply X_range | apply X_range|]. exact (coprime_mul0 z _ G D). Qed.
Lemma gcd_next : forall z x, Z.gcd ((z * Z.abs x) mod n) n = 1 -> Z.gcd x n = 1.
Proof. intros z x G. rewrite gcd_mod in G. apply gcd_coprime_part in G. rewrite gcd_abs_coprime in G. exact G. Qed.
Lemma land127 : forall i, 0 <= i -> (Z.land i 127 =? 0) = false -> 128 * (i / 128) < i.
Proof. intros i Hi E. change 127 with (Z.ones 7) in E. rewrite Z.land_ones in E by lia. apply Z.eqb_neq in E. change (2 ^ 7) with 128 in E. pose proof (Z.div_mod i 128 ltac:(lia)). pose proof (Z.mod_pos_bound i 128 ltac:(lia)). lia. Qed.
Lemma M_ge : 128 <= M /\ m + 128 <= M /\ l <= M.
Proof. unfold M. lia. Qed.

Lemma inv_step : forall k st, 0 <= k -> inv k st ->
  match rho_pure n c st with
  | Next st' => inv (k + 1) st'
  | Done (None, i) => i = k + 1 /\ cyclic i
  | Done (Some g, i) => i = k + 1 /\ 1 < g < n /\ (g | n)
  end.
Proof.
  intros k st Hk I. pose proof M_ge as [M1 [M2 M3]]. destruct I as [Ek Est | J is y HJ HkJ Ei Ej Ebt Ea Eb Es His H128 Gy Hz Bz HJM HF | ia ib rem Ei Ebt Ea Eb Hib Hia Hsh Gz Hrem Hbound Hj0 Hj | J h HJ HkJ Ei Ej Ebt Hh HhJ Ea Eb Gz HJM HF].
  - (* first pass *)
    subst k. assert (Ea : r_a st = X 0) by (rewrite Est; reflexivity). assert (Eb : r_b st = X 0) by (rewrite Est; reflexivity). assert (Ez : r_z st = 1) by (rewrite Est; cbn; apply Z.mod_small; lia).
    destruct (pure_outcome st 0 0 ltac:(lia) Ea Eb) as [E P | E D P | g Hg Dg P | z check E Ezz Bz Ec G P]; rewrite P; rewrite Est in *; cbn [r_a r_b r_z r_i r_j r_s r_bt] in *.
    + split; [reflexivity|]. exists 0, (0 + 1). split; [lia|]. split; [lia|]. symmetry. exact E.
    + exfalso. apply E. apply (meet_in_replay 1); [apply Z.gcd_1_l|]. rewrite Ez in D. exact D.
    + split; [reflexivity|]. split; assumption.
    + change (0 + 1 =? 1) with true in *. cbn [orb] in Ec. subst check. specialize (G eq_refl).
      apply (I_walk _ _ 1 1 z); cbn [r_a r_b r_z r_i r_j r_s r_bt]; try lia; try reflexivity; try exact G.
      * change ((0 + 1) / 128) with 0. lia.
      * change (Z.to_nat (0 + 1 - 1)) with 0%nat. cbn [dprod]. exists 0. lia.
  - (* before any backtracking *)
    destruct (pure_outcome st k J ltac:(lia) Ea Eb) as [E P | E D P | g Hg Dg P | z check E Ezz Bzz Ec G P]; rewrite P; rewrite ?Ei, ?Ej, ?Ebt in *.
    + split; [reflexivity|]. exists J, (k + 1). split; [lia|]. split; [lia|]. symmetry. exact E.
    + apply (I_replay _ _ is J (Z.to_nat (k + 1 - is))); cbn [r_a r_b r_z r_i r_j r_s r_bt]; try lia; try reflexivity; try assumption.
      * pose proof (Z.div_mod k 128 ltac:(lia)). pose proof (Z.mod_pos_bound k 128 ltac:(lia)). lia.
      * rewrite Z.mod_small by lia. apply Z.gcd_1_l.
      * replace (Z.to_nat (k + 1 - is)) with (S (Z.to_nat (k - is))) by lia. rewrite dprod_snoc by lia. replace (is + Z.of_nat (Z.to_nat (k - is)) + 1) with (k + 1) by lia.
        apply (coprime_mul0 y); [exact Gy|]. destruct (abs_unit (X (k + 1) - X J)) as [e [He Eabs]]. rewrite Eabs in D. destruct Hz as [q1 Hz]. destruct D as [q2 D].
        set (DD := dprod J is (Z.to_nat (k - is))) in *. set (x := X (k + 1) - X J) in *. assert (r_z st = y * DD + q1 * n) by lia. destruct He as [-> | ->]; [exists (q2 - q1 * x) | exists (- q2 - q1 * x)]; nia.
      * pose proof (Z.div_mod k 128 ltac:(lia)). pose proof (Z.mod_pos_bound k 128 ltac:(lia)). lia.
    + split; [reflexivity|]. split; assumption.
    + (* d divides the accumulator once the walk has closed modulo d *)
      assert (Fz : M <= J -> k + 1 < J + l \/ (d | z)).
      { intros HMJ. destruct (HF HMJ) as [C|C].
        - destruct (Z.eq_dec (k + 1) (J + l)) as [C2|C2]; [|left; lia]. right. rewrite Ezz. apply d_mod. apply Z.divide_mul_r. apply Z.divide_abs_r. rewrite C2. apply period. lia.
        - right. rewrite Ezz. apply d_mod. apply Z.divide_mul_l. exact C. }
      destruct check.
      * specialize (G eq_refl). pose proof (d_coprime z G) as Nd. destruct (Z.eqb_spec (k + 1) (2 * J)) as [Eq|Nq].
        -- apply (I_walk _ _ (k + 1) (k + 1) z); cbn [r_a r_b r_z r_i r_j r_s r_bt]; try lia; try reflexivity; try exact G.
           ++ pose proof (Z.div_mod (k + 1) 128 ltac:(lia)). pose proof (Z.mod_pos_bound (k + 1) 128 ltac:(lia)). lia.
           ++ replace (Z.to_nat (k + 1 - (k + 1))) with 0%nat by lia. cbn [dprod]. exists 0. lia.
           ++ destruct (Z.le_gt_cases M J) as [C|C]; [|lia]. exfalso. destruct (Fz C) as [C2|C2]; [lia | exact (Nd C2)].
        -- apply (I_walk _ _ J (k + 1) z); cbn [r_a r_b r_z r_i r_j r_s r_bt]; try lia; try reflexivity; try exact G; try assumption.
           ++ pose proof (Z.div_mod (k + 1) 128 ltac:(lia)). pose proof (Z.mod_pos_bound (k + 1) 128 ltac:(lia)). lia.
           ++ replace (Z.to_nat (k + 1 - (k + 1))) with 0%nat by lia. cbn [dprod]. exists 0. lia.
      * symmetry in Ec. apply orb_false_iff in Ec. destruct Ec as [Ec _]. apply orb_false_iff in Ec. destruct Ec as [Ec1 Ec2]. rewrite Ec1. apply Z.eqb_neq in Ec1. pose proof (land127 (k + 1) ltac:(lia) Ec2) as L.
        assert (Ed : 128 * ((k + 1) / 128) <= is).
        { assert ((k + 1) / 128 = k / 128) as ->; [|exact H128]. apply Z.div_unique with ((k + 1) - 1 - 128 * ((k + 1) / 128)); [|lia]. left. pose proof (Z.div_mod (k + 1) 128 ltac:(lia)). pose proof (Z.mod_pos_bound (k + 1) 128 ltac:(lia)). lia. }
        destruct (abs_unit (X (k + 1) - X J)) as [e [He Eabs]].
        apply (I_walk _ _ J is (e * y)); cbn [r_a r_b r_z r_i r_j r_s r_bt]; try lia; try reflexivity; try assumption.
        -- destruct He as [-> | ->]; [rewrite Z.mul_1_l; exact Gy|]. replace (-1 * y) with (- y) by lia. rewrite Z.gcd_opp_l. exact Gy.
        -- replace (Z.to_nat (k + 1 - is)) with (S (Z.to_nat (k - is))) by lia. rewrite dprod_snoc by lia. replace (is + Z.of_nat (Z.to_nat (k - is)) + 1) with (k + 1) by lia.
           rewrite Eabs in Ezz. destruct Hz as [q1 Hz]. set (DD := dprod J is (Z.to_nat (k - is))) in *. set (x := X (k + 1) - X J) in *. pose proof (Z.div_mod (r_z st * (e * x)) n ltac:(lia)) as Dv. rewrite <- Ezz in Dv. set (q2 := r_z st * (e * x) / n) in *.
           exists (q1 * e * x - q2). assert (r_z st = y * DD + q1 * n) by lia. nia.
  - (* replaying the batch *)
    destruct (pure_outcome st ia ib ltac:(lia) Ea Eb) as [E P | E D P | g Hg Dg P | z check E Ezz Bzz Ec G P]; rewrite P; rewrite ?Ei, ?Ebt in *.
    + split; [reflexivity|]. exists ib, (ia + 1). split; [lia|]. split; [lia|]. symmetry. exact E.
    + exfalso. apply E. exact (meet_in_replay _ _ _ Gz D).
    + split; [reflexivity|]. split; assumption.
    + rewrite orb_true_r in Ec. subst check. specialize (G eq_refl). pose proof G as G2. rewrite Ezz in G2. apply gcd_next in G2.
      destruct rem as [|rem]; [exfalso; cbn [dprod] in Hrem; apply Z.divide_1_r in Hrem; lia|]. cbn [dprod] in Hrem. apply coprime_mul0 in Hrem; [|exact G2].
      destruct (Z.eqb_spec (k + 1) (r_j st)) as [Eq|Nq].
      * apply (I_new _ _ (k + 1) (k - ia)); cbn [r_a r_b r_z r_i r_j r_s r_bt]; try lia; try reflexivity; try exact G; f_equal; f_equal; lia.
      * apply (I_replay _ _ (ia + 1) ib rem); cbn [r_a r_b r_z r_i r_j r_s r_bt]; try lia; try reflexivity; try assumption.
  - (* after the batch *)
    destruct (pure_outcome st (k - h) (J - h) ltac:(lia) Ea Eb) as [E P | E D P | g Hg Dg P | z check E Ezz Bzz Ec G P]; rewrite P; rewrite ?Ei, ?Ej, ?Ebt in *.
    + split; [reflexivity|]. exists (J - h), (k - h + 1). split; [lia|]. split; [lia|]. symmetry. exact E.
    + exfalso. apply E. exact (meet_in_replay _ _ _ Gz D).
    + split; [reflexivity|]. split; assumption.
    + rewrite orb_true_r in Ec. subst check. specialize (G eq_refl). pose proof (d_coprime z G) as Nd.
      assert (Fz : M <= J -> k + 1 < J + l).
      { intros HMJ. specialize (HF HMJ). destruct (Z.eq_dec (k + 1) (J + l)) as [C2|C2]; [|lia]. exfalso. apply Nd. rewrite Ezz. apply d_mod. apply Z.divide_mul_r. apply Z.divide_abs_r.
        replace (k - h + 1) with (J - h + l) by lia. apply period. lia. }
      replace (k - h + 1) with (k + 1 - h) in * by lia.
      destruct (Z.eqb_spec (k + 1) (2 * J)) as [Eq|Nq].
      * apply (I_new _ _ (k + 1) h); cbn [r_a r_b r_z r_i r_j r_s r_bt]; try lia; try reflexivity; try exact G.
      * apply (I_new _ _ J h); cbn [r_a r_b r_z r_i r_j r_s r_bt]; try lia; try reflexivity; try exact G; assumption.
Qed.

Lemma inv_bound : forall k st, inv k st -> k < 5 * M + l.
Proof.
  intros k st I. pose proof M_ge as [M1 [M2 M3]]. destruct I as [Ek Est | J is y HJ HkJ Ei Ej Ebt Ea Eb Es His H128 Gy Hz Bz HJM HF | ia ib rem Ei Ebt Ea Eb Hib Hia Hsh Gz Hrem Hbound Hj0 Hj | J h HJ HkJ Ei Ej Ebt Hh HhJ Ea Eb Gz HJM HF]; try lia.
Qed.
Lemma inv_ok : forall k st, inv k st -> 0 <= r_b st < n /\ r_i st = k /\ 0 <= r_j st <= 2 * k + 1.
Proof.
  intros k st I. pose proof M_ge as [M1 [M2 M3]]. destruct I as [Ek Est | J is y HJ HkJ Ei Ej Ebt Ea Eb Es His H128 Gy Hz Bz HJM HF | ia ib rem Ei Ebt Ea Eb Hib Hia Hsh Gz Hrem Hbound Hj0 Hj | J h HJ HkJ Ei Ej Ebt Hh HhJ Ea Eb Gz HJM HF];
    [subst; cbn [r_b r_i r_j]; split; [exact Hs | lia] | rewrite Eb; split; [apply X_range | lia] | rewrite Eb; split; [apply X_range | lia] | rewrite Eb; split; [apply X_range | lia]].
Qed.

(** The whole run. *)
Lemma rho_run : forall f pf t mi, valid_ity t -> in_range t n -> 0 <= mi <= 2 ^ 62 ->
  exists o i, pollard_rho pf (uops f pf t) n start c mi = Ret (o, i) /\ 0 <= i <= mi /\
    (o = None -> i < mi -> cyclic i) /\ (5 * M + l <= mi -> i <= 5 * M + l /\ (o = None -> cyclic i)).
Proof.
  intros f pf t mi Ht Hnt Hmi. unfold pollard_rho, o_one, o_const. cbn [uops o_from o_rem]. rewrite from_prim_ok by (apply valid_one, Ht). cbn [unwrap bind]. rewrite rem_ok by lia. cbn [bind].
  pose proof (run_iter_count _ _ False False inv (fun k x => snd x = k + 1 /\ k < 5 * M + l /\ (fst x = None -> cyclic (k + 1))) (rho_step pf (uops f pf t) n c) mi
    {| r_a := start; r_b := start; r_z := 1 mod n; r_i := 0; r_j := 1; r_s := start; r_bt := false |} ltac:(lia)) as R.
  assert (R1 : run False False (fun r => match r with Next s' => inv mi s' | Done x => exists k, 0 <= k < mi /\ snd x = k + 1 /\ k < 5 * M + l /\ (fst x = None -> cyclic (k + 1)) end)
    (iter mi (rho_step pf (uops f pf t) n c) {| r_a := start; r_b := start; r_z := 1 mod n; r_i := 0; r_j := 1; r_s := start; r_bt := false |})).
  { apply R; [apply I_start; reflexivity|]. intros k st Hk I. destruct (inv_ok k st I) as [Bb [Ei Bj]]. rewrite rho_step_pure; try assumption; try lia; [|eapply in_range_le; [|exact Hnt]; lia].
    cbn [run]. pose proof (inv_step k st ltac:(lia) I) as S. pose proof (inv_bound k st I). destruct (rho_pure n c st) as [st'|[[g|] i]]; cbn [fst snd].
    - exact S.
    - destruct S as [-> S]. split; [reflexivity|]. split; [lia | discriminate].
    - destruct S as [-> S]. split; [reflexivity|]. split; [lia | auto]. }
  apply run_total in R1. destruct R1 as [r [-> HR]]. cbn [bind]. destruct r as [st|[o i]].
  - exists None, (r_i st). destruct (inv_ok mi st HR) as [_ [-> _]]. pose proof (inv_bound mi st HR). split; [reflexivity|]. split; [lia|]. split; [intros _ C; lia | intros C; lia].
  - destruct HR as [k [Hk [E [HB HC]]]]. cbn [fst snd] in *. subst i. exists o, (k + 1). split; [reflexivity|]. split; [lia|]. split; [auto | intros _; split; [lia | exact HC]].
Qed.
End Walk.

(** every walk repeats within [n] steps *)
Lemma orbit_repeats : forall n c start, 2 <= n -> 0 <= start < n ->
  exists u v, 0 <= u < v /\ v <= n /\ Nat.iter (Z.to_nat u) (fun x => (x * x + c) mod n) start = Nat.iter (Z.to_nat v) (fun x => (x * x + c) mod n) start.
Proof.
  intros n c start Hn Hs. set (Y := fun k : nat => Nat.iter k (fun x => (x * x + c) mod n) start).
  assert (R : forall k, 0 <= Y k < n) by (intros [|k]; [exact Hs | unfold Y; cbn [Nat.iter]; apply Z.mod_pos_bound; lia]).
  assert (G : forall k, (exists u v : nat, (u < v <= k)%nat /\ Y u = Y v) \/ NoDup (map Y (seq 0 (S k)))).
  { induction k as [|k [[u [v [H E]]]|IH]].
    - right. cbn. constructor; [intros [] | constructor].
    - left. exists u, v. split; [lia | exact E].
    - destruct (in_dec Z.eq_dec (Y (S k)) (map Y (seq 0 (S k)))) as [I|I].
      + left. apply in_map_iff in I. destruct I as [u [E Hu]]. apply in_seq in Hu. exists u, (S k). split; [lia | exact E].
      + right. rewrite seq_S, map_app. cbn [map]. rewrite Nat.add_0_l. apply NoDup_rev in IH. apply NoDup_rev in IH. rewrite rev_involutive in IH.
        pose proof (Add_app (Y (S k)) (map Y (seq 0 (S k))) []) as A. rewrite app_nil_r in A. apply (NoDup_Add A). split; [exact IH | exact I]. }
  destruct (G (Z.to_nat n)) as [[u [v [H E]]]|N].
  - exists (Z.of_nat u), (Z.of_nat v). rewrite !Nat2Z.id. split; [lia|]. split; [lia | exact E].
  - exfalso. assert (L : (length (map Y (seq 0 (S (Z.to_nat n)))) <= length (map Z.of_nat (seq 0 (Z.to_nat n))))%nat).
    { apply NoDup_incl_length; [exact N|]. intros x Hx. apply in_map_iff in Hx. destruct Hx as [k [<- _]]. apply in_map_iff. exists (Z.to_nat (Y k)). pose proof (R k). split; [lia|]. apply in_seq. lia. }
    rewrite !map_length, !seq_length in L. lia.
Qed.
