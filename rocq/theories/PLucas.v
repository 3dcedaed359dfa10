(** * Lucas sequences and Lucas probable prime tests: the generic code computes
    mathematical functions on Z. *)
From Coq Require Import ZArith Znumtheory Zpow_facts List Lia Bool.
From Verif Require Import Base Spec Ext NT NTLegendre NTLucas PBase MInteger Ops PInteger POps MPrimality PSprp.
Import ListNotations.
Local Open Scope Z_scope.

Lemma wrap_isize_ok : forall pf x, - 2 ^ 63 <= x < 2 ^ 63 -> wrap_isize pf x = Ret x.
Proof.
  intros pf x H. unfold wrap_isize. replace (- 2 ^ 63 <=? x) with true by (symmetry; apply Z.leb_le; lia).
  replace (x <? 2 ^ 63) with true by (symmetry; apply Z.ltb_lt; lia). reflexivity.
Qed.
Lemma as_isize_ok : forall x, - 2 ^ 63 <= x < 2 ^ 63 -> as_isize x = x.
Proof. intros x H. unfold as_isize. rewrite Z.mod_small by lia. lia. Qed.

(** Parameters P (usize), Q (isize) for which P, |Q|, |D| fit the machine types involved. *)
Definition params_ok (t : ity) (p q : Z) : Prop :=
  0 <= p /\ p * p < 2 ^ 63 /\ - 2 ^ 61 <= q < 2 ^ 61 /\ - 2 ^ 63 < p * p - 4 * q < 2 ^ 63 /\
  in_range t p /\ in_range t (Z.abs q) /\ in_range t (Z.abs (p * p - 4 * q)).

Lemma delta_pos : forall n p q, 3 <= n -> 0 < n - jacobi (p * p - 4 * q) n.
Proof. intros n p q H. pose proof (jacobi_range (p * p - 4 * q) n). lia. Qed.

(** ** The tests on mathematical integers *)
Definition z_delta (n p q : Z) : Z := n - jacobi (p * p - 4 * q) n.
Definition z_lprp (n p q : Z) : bool := lucasU p q (z_delta n p q) mod n =? 0.
Fixpoint z_vloop (k : nat) (n p q i : Z) : bool :=
  match k with O => false | S k' => (lucasV p q (2 * i) mod n =? 0) || z_vloop k' n p q (2 * i) end.
Definition z_slprp (n p q : Z) : bool :=
  let s := ztz (z_delta n p q) in
  let d := Z.shiftr (z_delta n p q) s in
  (lucasU p q d mod n =? 0) || (lucasV p q d mod n =? 0) || z_vloop (Z.to_nat s) n p q d.
Definition z_eslprp (n p : Z) : bool :=
  let s := ztz (z_delta n p 1) in
  let d := Z.shiftr (z_delta n p 1) s in
  ((lucasU p 1 d mod n =? 0) && ((lucasV p 1 d mod n =? 2) || (lucasV p 1 d mod n =? n - 2)))
  || (lucasV p 1 d mod n =? 0) || z_vloop (Z.to_nat s - 2) n p 1 d.

Section Generic.
Context {T : Type} (pf : profile) (OP : ops T) (t : ity) (okm : Z -> Prop) (V : T -> Z -> Prop) (R : Z -> T -> Z -> Prop).
Context (L : lawful OP t okm V R) (Ht : in_range t 1).
Notation RC N x v := (R N x (v mod N)).

Lemma rc_sqm : forall x m a N, RC N x a -> V m N -> okm N -> exists r, o_sqm OP x m = Ret r /\ RC N r (a * a).
Proof. intros x m a N Hx Hm Ho. destruct (l_sqm _ _ _ _ _ L _ _ _ _ Hx Hm Ho) as [r [E H]]. exists r. rewrite <- Zmult_mod in H. auto. Qed.
Lemma rc_dblm : forall x m a N, RC N x a -> V m N -> okm N -> exists r, o_dblm OP x m = Ret r /\ RC N r (2 * a).
Proof. intros x m a N Hx Hm Ho. destruct (l_dblm _ _ _ _ _ L _ _ _ _ Hx Hm Ho) as [r [E H]]. exists r. rewrite Zmult_mod_idemp_r in H. auto. Qed.
Lemma rc_mulm : forall x y m a b N, RC N x a -> RC N y b -> V m N -> okm N -> exists r, o_mulm OP x y m = Ret r /\ RC N r (a * b).
Proof. intros x y m a b N Hx Hy Hm Ho. destruct (l_mulm _ _ _ _ _ L _ _ _ _ _ _ Hx Hy Hm Ho) as [r [E H]]. exists r. rewrite <- Zmult_mod in H. auto. Qed.
Lemma rc_subm : forall x y m a b N, RC N x a -> RC N y b -> V m N -> okm N -> exists r, o_subm OP x y m = Ret r /\ RC N r (a - b).
Proof. intros x y m a b N Hx Hy Hm Ho. destruct (l_subm _ _ _ _ _ L _ _ _ _ _ _ Hx Hy Hm Ho) as [r [E H]]. exists r. rewrite <- Zminus_mod in H. auto. Qed.
Lemma rc_addm : forall x y m a b N, RC N x a -> RC N y b -> V m N -> okm N -> exists r, o_addm OP x y m = Ret r /\ RC N r (a + b).
Proof. intros x y m a b N Hx Hy Hm Ho. destruct (l_addm _ _ _ _ _ L _ _ _ _ _ _ Hx Hy Hm Ho) as [r [E H]]. exists r. rewrite <- Zplus_mod in H. auto. Qed.

Ltac st lem := let r := fresh "r" in let Hr := fresh "Hr" in edestruct lem as [r [-> Hr]]; [eassumption .. | cbn [bind]].

(** lucasm: U_n, V_n mod m *)
Lemma lucas_step_law : forall p q m M P Q k b uk uk1, V m M -> okm M -> RC M p P -> RC M q Q -> 0 <= k ->
  RC M uk (lucasU P Q k) -> RC M uk1 (lucasU P Q (k + 1)) ->
  exists u u1, lucas_step OP p q m b (uk, uk1) = Ret (u, u1) /\
    RC M u (lucasU P Q (2 * k + Z.b2z b)) /\ RC M u1 (lucasU P Q (2 * k + Z.b2z b + 1)).
Proof.
  intros p q m M P Q k b uk uk1 Hm Ho Hp Hq Hk H0 H1. unfold lucas_step. destruct b; cbn [Z.b2z].
  - destruct (rc_sqm _ _ _ _ H1 Hm Ho) as [a1 [-> A1]]. cbn [bind].
    destruct (rc_mulm _ _ _ _ _ _ Hp A1 Hm Ho) as [a2 [-> A2]]. cbn [bind].
    destruct (rc_mulm _ _ _ _ _ _ Hq H1 Hm Ho) as [a3 [-> A3]]. cbn [bind].
    destruct (rc_mulm _ _ _ _ _ _ A3 H0 Hm Ho) as [a4 [-> A4]]. cbn [bind].
    destruct (rc_dblm _ _ _ _ A4 Hm Ho) as [a5 [-> A5]]. cbn [bind].
    destruct (rc_subm _ _ _ _ _ _ A2 A5 Hm Ho) as [a6 [-> A6]]. cbn [bind].
    destruct (rc_sqm _ _ _ _ H0 Hm Ho) as [a7 [-> A7]]. cbn [bind].
    destruct (rc_mulm _ _ _ _ _ _ Hq A7 Hm Ho) as [a8 [-> A8]]. cbn [bind].
    destruct (rc_subm _ _ _ _ _ _ A1 A8 Hm Ho) as [a9 [-> A9]]. cbn [bind].
    exists a9, a6. split; [reflexivity|]. split.
    + rewrite U_double1 by lia. replace (Q * lucasU P Q k * lucasU P Q k) with (Q * (lucasU P Q k * lucasU P Q k)) by ring. exact A9.
    + replace (2 * k + 1 + 1) with (2 * k + 2) by lia. rewrite U_double2 by lia.
      replace (P * lucasU P Q (k + 1) * lucasU P Q (k + 1) - 2 * Q * lucasU P Q (k + 1) * lucasU P Q k) with
        (P * (lucasU P Q (k + 1) * lucasU P Q (k + 1)) - 2 * (Q * lucasU P Q (k + 1) * lucasU P Q k)) by ring. exact A6.
  - destruct (rc_sqm _ _ _ _ H0 Hm Ho) as [a1 [-> A1]]. cbn [bind].
    destruct (rc_sqm _ _ _ _ H1 Hm Ho) as [a2 [-> A2]]. cbn [bind].
    destruct (rc_mulm _ _ _ _ _ _ A1 Hq Hm Ho) as [a3 [-> A3]]. cbn [bind].
    destruct (rc_subm _ _ _ _ _ _ A2 A3 Hm Ho) as [a4 [-> A4]]. cbn [bind].
    destruct (rc_mulm _ _ _ _ _ _ H1 H0 Hm Ho) as [a5 [-> A5]]. cbn [bind].
    destruct (rc_dblm _ _ _ _ A5 Hm Ho) as [a6 [-> A6]]. cbn [bind].
    destruct (rc_mulm _ _ _ _ _ _ A1 Hp Hm Ho) as [a7 [-> A7]]. cbn [bind].
    destruct (rc_subm _ _ _ _ _ _ A6 A7 Hm Ho) as [a8 [-> A8]]. cbn [bind].
    exists a8, a4. split; [reflexivity|]. rewrite Z.add_0_r. split.
    + rewrite U_double, V_U by lia.
      replace (lucasU P Q k * (2 * lucasU P Q (k + 1) - P * lucasU P Q k)) with
        (2 * (lucasU P Q (k + 1) * lucasU P Q k) - lucasU P Q k * lucasU P Q k * P) by ring. exact A8.
    + rewrite U_double1 by lia.
      replace (Q * lucasU P Q k * lucasU P Q k) with (lucasU P Q k * lucasU P Q k * Q) by ring. exact A4.
Qed.

Lemma lucas_loop_law : forall p q m n M P Q N, V m M -> okm M -> V n N -> 0 <= N -> RC M p P -> RC M q Q ->
  forall i uk uk1, Z.of_nat i <= bt_bits N ->
  RC M uk (lucasU P Q (N / 2 ^ Z.of_nat i)) -> RC M uk1 (lucasU P Q (N / 2 ^ Z.of_nat i + 1)) ->
  exists u u1, lucas_loop OP p q m n i (uk, uk1) = Ret (u, u1) /\ RC M u (lucasU P Q N) /\ RC M u1 (lucasU P Q (N + 1)).
Proof.
  intros p q m n M P Q N Hm Ho Hn HN Hp Hq. induction i as [|i IH]; intros uk uk1 Hi H0 H1; cbn [lucas_loop].
  - change (2 ^ Z.of_nat 0) with 1 in *. rewrite Z.div_1_r in *. eauto.
  - rewrite (l_bit _ _ _ _ _ L _ _ _ Hn) by lia. cbn [bind].
    assert (Hp2 : 0 < 2 ^ Z.of_nat (S i)) by (apply Z.pow_pos_nonneg; lia).
    destruct (lucas_step_law p q m M P Q (N / 2 ^ Z.of_nat (S i)) (Z.testbit N (Z.of_nat i)) uk uk1) as [u [u1 [-> [A B]]]];
      [assumption | assumption | assumption | assumption | apply Z.div_pos; lia | assumption | assumption |]. cbn [bind].
    assert (E : 2 * (N / 2 ^ Z.of_nat (S i)) + Z.b2z (Z.testbit N (Z.of_nat i)) = N / 2 ^ Z.of_nat i).
    { rewrite Nat2Z.inj_succ. rewrite Z.testbit_spec' by lia. unfold Z.succ. rewrite Z.pow_add_r, Z.pow_1_r by lia.
      rewrite <- Z.div_div by (try lia; apply Z.pow_pos_nonneg; lia). symmetry. apply Z.div_mod. lia. }
    rewrite E in A, B. apply IH; [lia | exact A | exact B].
Qed.

Lemma const_rem : forall c m N, in_range t c -> V m N -> okm N -> exists x r, o_const OP c = Ret x /\ o_rem OP x m = Ret r /\ RC N r c.
Proof.
  intros c m N Hc Hm Ho. destruct (o_const_ok OP t okm V R L c Hc) as [x [E Hx]].
  destruct (l_rem _ _ _ _ _ L _ _ _ _ Hx Hm Ho) as [r [Er Hr]]. exists x, r. auto.
Qed.

Lemma lucasm_law : forall p q m n M N, V m M -> okm M -> V n N -> in_range t p -> in_range t (Z.abs q) -> - 2 ^ 63 < q <= 2 ^ 63 ->
  exists u v, lucasm pf OP p q m n = Ret (u, v) /\ RC M u (lucasU p q N) /\ RC M v (lucasV p q N).
Proof.
  intros p q m n M N Hm Ho Hn Hp Hq Hqr. unfold lucasm.
  pose proof (in_range_nonneg _ _ (l_range _ _ _ _ _ L _ _ Hn)) as HN.
  destruct (const_rem p m M Hp Hm Ho) as [p0 [p' [-> [Ep Hp']]]]. cbn [bind]. rewrite Ep. cbn [bind].
  assert (Eq : exists q', (if 0 <=? q then q0 <- o_const OP q ;; o_rem OP q0 m
         else nq <- wrap_isize pf (- q) ;; q0 <- o_const OP nq ;; o_negm OP q0 m) = Ret q' /\ RC M q' q).
  { destruct (Z.leb_spec 0 q) as [Hs|Hs].
    - rewrite Z.abs_eq in Hq by lia. destruct (const_rem q m M Hq Hm Ho) as [q0 [q' [-> [Eq Hq']]]]. cbn [bind]. exists q'. auto.
    - rewrite wrap_isize_ok by lia. cbn [bind]. rewrite Z.abs_neq in Hq by lia.
      destruct (o_const_ok OP t okm V R L (- q) Hq) as [x [-> Hx]]. cbn [bind].
      destruct (l_negm _ _ _ _ _ L _ _ _ _ Hx Hm Ho) as [r [-> Hr]]. exists r. rewrite Z.opp_involutive in Hr. auto. }
  destruct Eq as [q' [-> Hq']]. cbn [bind].
  unfold o_zero, o_one.
  destruct (const_rem 0 m M (in_range_0 t Ht) Hm Ho) as [z [u0 [-> [Ez Hz]]]]. cbn [bind]. rewrite Ez. cbn [bind].
  destruct (const_rem 1 m M Ht Hm Ho) as [o [u1 [-> [Eo Ho1]]]]. cbn [bind]. rewrite Eo. cbn [bind].
  rewrite (l_bits _ _ _ _ _ L _ _ Hn). cbn [bind].
  assert (Hb : 0 <= bt_bits N). { unfold bt_bits. destruct (N =? 0); [lia|]. pose proof (Z.log2_nonneg N). lia. }
  assert (D0 : N / 2 ^ Z.of_nat (Z.to_nat (bt_bits N)) = 0).
  { rewrite Z2Nat.id by exact Hb. unfold bt_bits. destruct (Z.eqb_spec N 0) as [->|H0]; [reflexivity|].
    apply Z.div_small. split; [exact HN|]. rewrite Z.add_1_r. apply Z.log2_spec. lia. }
  destruct (lucas_loop_law p' q' m n M p q N Hm Ho Hn HN Hp' Hq' (Z.to_nat (bt_bits N)) u0 u1) as [u [u' [-> [A B]]]].
  - lia.
  - rewrite D0. exact Hz.
  - rewrite D0. exact Ho1.
  - cbn [bind]. destruct (rc_dblm _ _ _ _ B Hm Ho) as [x [-> Hx]]. cbn [bind].
    destruct (rc_mulm _ _ _ _ _ _ Hp' A Hm Ho) as [y [-> Hy]]. cbn [bind].
    destruct (rc_subm _ _ _ _ _ _ Hx Hy Hm Ho) as [w [-> Hw]]. cbn [bind]. exists u, w. split; [reflexivity|]. split; [exact A|].
    rewrite V_U by exact HN. exact Hw.
Qed.

(** the index n - (D/n) *)
Lemma lucas_delta_law : forall n N p q, V n N -> okm N -> Z.odd N = true -> 3 <= N -> in_range t (N + 1) -> params_ok t p q ->
  exists x, lucas_delta pf OP n p q = Ret x /\ V x (z_delta N p q).
Proof.
  intros n N p q Hn Ho Hodd H3 Hr (Hp & Hpp & Hq & HD & Rp & Rq & RD). unfold lucas_delta.
  rewrite mul_ok by rng. cbn [bind].
  rewrite wrap_isize_ok by lia. cbn [bind]. rewrite as_isize_ok by nia. rewrite wrap_isize_ok by lia. cbn [bind].
  set (D := p * p - 4 * q) in *.
  assert (Ej : exists dd, (if 0 <? D then o_const OP D
         else nd <- wrap_isize pf (- D) ;; c <- o_const OP nd ;; o_negm OP c n) = Ret dd /\ o_jacobi OP dd n = Ret (jacobi D N)).
  { destruct (Z.ltb_spec 0 D) as [Hs|Hs].
    - rewrite Z.abs_eq in RD by lia. destruct (o_const_ok OP t okm V R L D RD) as [x [-> Hx]]. exists x. split; [reflexivity|].
      rewrite (l_jacobi _ _ _ _ _ L _ _ _ _ Hx Hn). unfold ext_jacobi. rewrite Hodd. reflexivity.
    - rewrite wrap_isize_ok by lia. cbn [bind]. rewrite Z.abs_neq in RD by lia.
      destruct (o_const_ok OP t okm V R L (- D) RD) as [x [-> Hx]]. cbn [bind].
      destruct (l_negm _ _ _ _ _ L _ _ _ _ Hx Hn Ho) as [r [-> Hx']]. exists r. split; [reflexivity|].
      rewrite (l_rjacobi _ _ _ _ _ L _ _ _ _ Hx' Hn). unfold ext_jacobi. rewrite Hodd, Z.opp_involutive. f_equal.
      apply jacobi_eqm; [lia|]. apply eqm_mod. lia. }
  destruct Ej as [dd [-> Ej]]. cbn [bind]. rewrite Ej. cbn [bind].
  destruct (o_one_ok OP t okm V R L Ht) as [o [-> H1]]. cbn [bind]. unfold z_delta. fold D.
  pose proof (jacobi_range D N ltac:(lia)).
  destruct (Z.eqb_spec (jacobi D N) 0) as [->|]; [exists n; rewrite Z.sub_0_r; auto|].
  destruct (Z.eqb_spec (jacobi D N) (-1)) as [->|].
  { replace (N - -1) with (N + 1) by lia. apply (l_add _ _ _ _ _ L); assumption. }
  destruct (Z.eqb_spec (jacobi D N) 1) as [->|]; [|lia].
  apply (l_sub _ _ _ _ _ L); [assumption | assumption |]. eapply in_range_le; [|apply (l_range _ _ _ _ _ L _ _ Hn)]. lia.
Qed.

Lemma ltb_one : forall n N o, V n N -> V o 1 -> o_ltb OP n o = Ret (N <? 1).
Proof. intros n N o Hn H1. apply (l_ltb _ _ _ _ _ L); assumption. Qed.

(** what the tests compute once parameters are fixed *)
Lemma lprp_core : forall n N p q, V n N -> okm N -> Z.odd N = true -> 3 <= N -> in_range t (N + 1) -> params_ok t p q ->
  (delta <- lucas_delta pf OP n p q ;; '(u, _) <- lucasm pf OP p q n delta ;; Ret (o_is_zero OP u)) = Ret (z_lprp N p q).
Proof.
  intros n N p q Hn Ho Hodd H3 Hr Hpar. destruct (lucas_delta_law n N p q Hn Ho Hodd H3 Hr Hpar) as [x [-> Hx]]. cbn [bind].
  destruct Hpar as (Hp & Hpp & Hq & HD & Rp & Rq & RD).
  destruct (lucasm_law p q n x N _ Hn Ho Hx Rp Rq) as [u [v [-> [Hu _]]]]; [lia|]. cbn [bind].
  rewrite (l_rzero _ _ _ _ _ L _ _ _ Hu). reflexivity.
Qed.

Lemma slprp_loop_law : forall k n N p q qk vd i, V n N -> okm N -> 0 <= i ->
  RC N qk (q ^ i) -> RC N vd (lucasV p q (2 * i)) ->
  slprp_loop OP k n qk vd = Ret (z_vloop k N p q (2 * i)).
Proof.
  induction k as [|k IH]; intros n N p q qk vd i Hn Ho Hi Hq Hv; cbn [slprp_loop z_vloop]; [reflexivity|].
  destruct (rc_sqm _ _ _ _ Hq Hn Ho) as [a1 [-> A1]]. cbn [bind].
  destruct (rc_sqm _ _ _ _ Hv Hn Ho) as [a2 [-> A2]]. cbn [bind].
  destruct (rc_dblm _ _ _ _ A1 Hn Ho) as [a3 [-> A3]]. cbn [bind].
  destruct (rc_subm _ _ _ _ _ _ A2 A3 Hn Ho) as [a4 [-> A4]]. cbn [bind].
  assert (E1 : q ^ i * q ^ i = q ^ (2 * i)) by (rewrite <- Z.pow_add_r by lia; f_equal; lia).
  assert (E2 : lucasV p q (2 * i) * lucasV p q (2 * i) - 2 * (q ^ i * q ^ i) = lucasV p q (2 * (2 * i))).
  { rewrite E1. symmetry. apply V_double. lia. }
  rewrite E2 in A4. rewrite E1 in A1. rewrite (l_rzero _ _ _ _ _ L _ _ _ A4).
  destruct (lucasV p q (2 * (2 * i)) mod N =? 0); cbn [orb]; [reflexivity|]. apply IH; try assumption. lia.
Qed.

Lemma slprp_core : forall n N p q, V n N -> okm N -> Z.odd N = true -> 3 <= N -> in_range t (N + 1) -> params_ok t p q ->
  (delta <- lucas_delta pf OP n p q ;;
        shift <- o_tz OP delta ;;
        base <- o_shr OP delta shift ;;
        '(ud, vd) <- lucasm pf OP p q n base ;;
        if o_is_zero OP ud || o_is_zero OP vd then Ret true
        else if shift =? 0 then Ret false
        else
          aq <- wrap_isize pf (Z.abs q) ;;
          aq' <- o_const OP aq ;;
          qk <- o_powm OP aq' base n ;;
          v2 <- o_sqm OP vd n ;; q2 <- o_dblm OP qk n ;;
          vd' <- (if 0 <=? q then o_subm OP v2 q2 n else o_addm OP v2 q2 n) ;;
          if o_is_zero OP vd' then Ret true
          else slprp_loop OP (Z.to_nat shift - 1) n qk vd') = Ret (z_slprp N p q).
Proof.
  intros n N p q Hn Ho Hodd H3 Hr Hpar. destruct (lucas_delta_law n N p q Hn Ho Hodd H3 Hr Hpar) as [x [-> Hx]]. cbn [bind].
  destruct Hpar as (Hp & Hpp & Hq & HD & Rp & Rq & RD). pose proof (delta_pos N p q H3) as Hpos. fold (z_delta N p q) in Hpos.
  rewrite (l_tz _ _ _ _ _ L _ _ Hx Hpos). cbn [bind]. destruct (l_shr _ _ _ _ _ L _ _ Hx Hpos) as [b [-> Hb]]. cbn [bind].
  unfold z_slprp. cbv zeta. destruct (shiftr_ztz _ Hpos) as [d [Hd [Hdp [Ed Es]]]]. rewrite Es in *.
  destruct (ztz_spec _ Hpos) as [Hs0 _]. set (s := ztz (z_delta N p q)) in *.
  destruct (lucasm_law p q n b N d Hn Ho Hb Rp Rq) as [u [v [-> [Hu Hv]]]]; [lia|]. cbn [bind].
  rewrite (l_rzero _ _ _ _ _ L _ _ _ Hu), (l_rzero _ _ _ _ _ L _ _ _ Hv).
  destruct (lucasU p q d mod N =? 0); cbn [orb]; [reflexivity|]. destruct (lucasV p q d mod N =? 0); cbn [orb]; [reflexivity|].
  destruct (Z.eqb_spec s 0) as [->|Hs]; [reflexivity|]. rewrite wrap_isize_ok by lia. cbn [bind].
  destruct (o_const_ok OP t okm V R L (Z.abs q) Rq) as [aq [-> Haq]]. cbn [bind].
  destruct (l_powm _ _ _ _ _ L _ _ _ _ _ _ Haq Hb Hn Ho) as [qk [-> Hqk]]. cbn [bind].
  destruct (rc_sqm _ _ _ _ Hv Hn Ho) as [v2 [-> Hv2]]. cbn [bind].
  destruct (rc_dblm _ _ _ _ Hqk Hn Ho) as [q2 [-> Hq2]]. cbn [bind].
  assert (EV : exists vd', (if 0 <=? q then o_subm OP v2 q2 n else o_addm OP v2 q2 n) = Ret vd' /\ RC N vd' (lucasV p q (2 * d))).
  { rewrite V_double by lia. destruct (Z.leb_spec 0 q) as [Hs1|Hs1].
    - destruct (rc_subm _ _ _ _ _ _ Hv2 Hq2 Hn Ho) as [w [-> Hw]]. exists w. rewrite Z.abs_eq in Hw by lia. auto.
    - destruct (rc_addm _ _ _ _ _ _ Hv2 Hq2 Hn Ho) as [w [-> Hw]]. exists w. split; [reflexivity|]. rewrite Z.abs_neq in Hw by lia.
      replace (lucasV p q d * lucasV p q d - 2 * q ^ d) with (lucasV p q d * lucasV p q d + 2 * (- q) ^ d); [exact Hw|].
      rewrite Z.pow_opp_odd by (apply Zodd_bool_iff in Hd; apply Zodd_ex in Hd; destruct Hd as [c Hc]; exists c; exact Hc). ring. }
  destruct EV as [vd' [-> Hvd']]. cbn [bind]. rewrite (l_rzero _ _ _ _ _ L _ _ _ Hvd').
  destruct (Z.to_nat s) as [|k] eqn:Ek; [lia|]. cbn [z_vloop].
  destruct (Z.eqb_spec (lucasV p q (2 * d) mod N) 0); cbn [orb]; [reflexivity|]. replace (S k - 1)%nat with k by lia.
  (* the sign of Q is lost in qk but only its square is used *)
  destruct k as [|k]; [reflexivity|]. cbn [slprp_loop z_vloop].
  destruct (rc_sqm _ _ _ _ Hqk Hn Ho) as [a1 [-> A1]]. cbn [bind].
  destruct (rc_sqm _ _ _ _ Hvd' Hn Ho) as [a2 [-> A2]]. cbn [bind].
  destruct (rc_dblm _ _ _ _ A1 Hn Ho) as [a3 [-> A3]]. cbn [bind].
  destruct (rc_subm _ _ _ _ _ _ A2 A3 Hn Ho) as [a4 [-> A4]]. cbn [bind].
  assert (E1 : Z.abs q ^ d * Z.abs q ^ d = q ^ (2 * d)).
  { rewrite <- Z.pow_mul_l. rewrite <- Z.abs_mul, Z.abs_eq by nia. rewrite Z.pow_mul_r by lia. rewrite Z.pow_2_r. reflexivity. }
  assert (E2 : lucasV p q (2 * d) * lucasV p q (2 * d) - 2 * (Z.abs q ^ d * Z.abs q ^ d) = lucasV p q (2 * (2 * d))).
  { rewrite E1. symmetry. apply V_double. lia. }
  rewrite E2 in A4. rewrite E1 in A1. rewrite (l_rzero _ _ _ _ _ L _ _ _ A4).
  destruct (lucasV p q (2 * (2 * d)) mod N =? 0); cbn [orb]; [reflexivity|]. apply slprp_loop_law; try assumption. lia.
Qed.

Lemma is_lprp_explicit : forall fuel n N p q, V n N -> okm N -> Z.odd N = true -> 3 <= N -> in_range t (N + 1) -> params_ok t p q ->
  is_lprp pf OP fuel n (Some p) (Some q) = Ret (z_lprp N p q).
Proof.
  intros fuel n N p q Hn Ho Hodd H3 Hr Hpar. unfold is_lprp. destruct (o_one_ok OP t okm V R L Ht) as [o [-> H1]]. cbn [bind].
  rewrite (ltb_one _ _ _ Hn H1). cbn [bind]. replace (N <? 1) with false by (symmetry; apply Z.ltb_ge; lia).
  rewrite (l_even _ _ _ _ _ L _ _ Hn). rewrite <- Z.negb_odd, Hodd. cbn [negb lucas_params bind]. apply lprp_core; assumption.
Qed.
Lemma is_slprp_explicit : forall fuel n N p q, V n N -> okm N -> Z.odd N = true -> 3 <= N -> in_range t (N + 1) -> params_ok t p q ->
  is_slprp pf OP fuel n (Some p) (Some q) = Ret (z_slprp N p q).
Proof.
  intros fuel n N p q Hn Ho Hodd H3 Hr Hpar. unfold is_slprp. destruct (o_one_ok OP t okm V R L Ht) as [o [-> H1]]. cbn [bind].
  rewrite (ltb_one _ _ _ Hn H1). cbn [bind]. replace (N <? 1) with false by (symmetry; apply Z.ltb_ge; lia).
  rewrite (l_even _ _ _ _ _ L _ _ Hn). rewrite <- Z.negb_odd, Hodd. cbn [negb lucas_params bind]. apply slprp_core; assumption.
Qed.
End Generic.
