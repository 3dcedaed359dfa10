(** * Model of src/factor.rs. *)
From Coq Require Import ZArith List Bool.
From Verif Require Import Base Ext MInteger Ops.
Import ListNotations.
Local Open Scope Z_scope.

(** ** Trial division and Pollard's rho: generic over the number type *)
Section Generic.
Context {T : Type} (pf : profile) (OP : ops T).

(** src/factor.rs:52-55: [while residual.is_multiple_of(&pt)]; returns the new residual and how
    often [p] was divided out. *)
Definition td_divide (fuel : Z) (pt residual : T) : res (T * Z) :=
  loop fuel (fun '(r, e) =>
    m <- o_is_multiple_of OP r pt ;;
    if m then r' <- o_div OP r pt ;; Ret (Next (r', e + 1)) else Ret (Done (r, e)))
    (residual, 0).

(** src/factor.rs:44-60: the loop over the primes; returns (result, residual, factored). *)
Fixpoint td_loop (fuel : Z) (primes : list Z) (tsqrt limit residual : T)
    (result : list (Z * Z)) : res (list (Z * Z) * T * bool) :=
  match primes with
  | [] => Ret (result, residual, false)
  | p :: ps =>
      pt <- o_const OP p ;;
      above <- o_ltb OP tsqrt pt ;;
      stop <- o_ltb OP limit pt ;;
      if stop then Ret (result, residual, above)
      else
        '(residual', e) <- td_divide fuel pt residual ;;
        let result' := if 0 <? e then bt_add result p e else result in
        if o_is_one OP residual' then Ret (result', residual', true)
        else
          '(res', rsd, f) <- td_loop fuel ps tsqrt limit residual' result' ;;
          Ret (res', rsd, above || f)
  end.

(** src/factor.rs:23-67 trial_division; [inl] = Ok(residual), [inr] = Err(residual) *)
Definition trial_division (fuel : Z) (primes : list Z) (target : T) (limit : option Z)
    : res (list (Z * Z) * (T + T)) :=
  r <- o_sqrt OP target ;; one <- o_one OP ;; tsqrt <- o_add OP r one ;;
  limit' <- (match limit with
             | Some l => lt <- o_const OP l ;; b <- o_ltb OP lt tsqrt ;;
                         Ret (if b then lt else tsqrt)
             | None => Ret tsqrt
             end) ;;
  '(result, residual, factored) <- td_loop fuel primes tsqrt limit' target [] ;;
  Ret (result, if factored then inl residual else inr residual).

(** src/factor.rs:88-97: the mutable variables of pollard_rho *)
Record rho_state : Type := mkRho {
  r_a : T; r_b : T; r_z : T; r_i : Z; r_j : Z; r_s : T; r_bt : bool;
}.

(** src/factor.rs:100-139: one pass of the loop *)
Definition rho_step (target offset : T) (st : rho_state) : res (step rho_state (option T * Z)) :=
  i <- add_ pf usize (r_i st) 1 ;;
  x <- o_sqm OP (r_a st) target ;; a <- o_addm OP x offset target ;;
  same <- o_eqb OP a (r_b st) ;;
  if same then Ret (Done (None, i))
  else
    gt <- o_ltb OP a (r_b st) ;;
    diff <- (if gt then o_sub OP (r_b st) a else o_sub OP a (r_b st)) ;;
    z <- o_mulm OP (r_z st) diff target ;;
    if o_is_zero OP z then
      if r_bt st then Ret (Done (None, i))
      else
        one <- o_one OP ;; z' <- o_rem OP one target ;;
        Ret (Next {| r_a := r_s st; r_b := r_b st; r_z := z'; r_i := i; r_j := r_j st;
                     r_s := one; r_bt := true |})
    else
      let check := (i =? r_j st) || (Z.land i 127 =? 0) || r_bt st in
      found <- (if check then
                  d <- o_gcd OP z target ;;
                  if o_is_one OP d then Ret None
                  else e <- o_eqb OP d target ;; Ret (if e then None else Some d)
                else Ret None) ;;
      match found with
      | Some d => Ret (Done (Some d, i))
      | None =>
          let s' := if check then a else r_s st in
          if i =? r_j st then
            j' <- shl_ pf usize (r_j st) 1 ;;
            Ret (Next {| r_a := a; r_b := a; r_z := z; r_i := i; r_j := j'; r_s := s';
                         r_bt := r_bt st |})
          else
            Ret (Next {| r_a := a; r_b := r_b st; r_z := z; r_i := i; r_j := r_j st; r_s := s';
                         r_bt := r_bt st |})
      end.

(** src/factor.rs:72-143 pollard_rho. [i] counts the passes, so [while i < max_iter] makes at most
    [max_iter] passes. *)
Definition pollard_rho (target start offset : T) (max_iter : Z) : res (option T * Z) :=
  one <- o_one OP ;; z <- o_rem OP one target ;;
  r <- iter max_iter (rho_step target offset)
         {| r_a := start; r_b := start; r_z := z; r_i := 0; r_j := 1; r_s := start;
            r_bt := false |} ;;
  match r with
  | Done x => Ret x
  | Next st => Ret (None, r_i st)
  end.
End Generic.

(** ** SQUFOF and Hart's one line method, for unsigned integers *)

(** src/factor.rs:176-190 rho; returns (new_p, new q, new qm1) *)
Definition sq_rho (pf : profile) (t : ity) (rd p q qm1 : Z) : res (Z * Z * Z) :=
  s <- add_ pf t rd p ;; b <- div_ s q ;;
  bq <- mul_ pf t b q ;; new_p <- sub_ pf t bq p ;;
  new_q <- (if new_p <? p then
              d <- sub_ pf t p new_p ;; bd <- mul_ pf t b d ;; add_ pf t qm1 bd
            else
              d <- sub_ pf t new_p p ;; bd <- mul_ pf t b d ;; sub_ pf t qm1 bd) ;;
  Ret (new_p, new_q, q).

(** src/factor.rs:208-215: the backward loop; returns the final u *)
Definition sq_backward (pf : profile) (t : ity) (fuel rd u v vm1 : Z) : res Z :=
  loop fuel (fun '(u, v, vm1) =>
    '(new_u, v', vm1') <- sq_rho pf t rd u v vm1 ;;
    if new_u =? u then Ret (Done u) else Ret (Next (new_u, v', vm1')))
    (u, v, vm1).

(** src/factor.rs:199-223: one pass of [for i in 1..max_iter]; state (i, p, q, qm1) *)
Definition sq_step (f : feature) (pf : profile) (t : ity) (fuel target mul_target rd : Z)
    (st : Z * Z * Z * Z) : res (step (Z * Z * Z * Z) (option Z * Z)) :=
  let '(i, p0, q0, qm10) := st in
  '(p, q, qm1) <- sq_rho pf t rd p0 q0 qm10 ;;
  found <- (if Z.odd i then
              r <- sqrt_exact f pf t q ;;
              match r with
              | None => Ret None
              | Some rq =>
                  d <- sub_ pf t rd p ;; b <- div_ d rq ;;
                  brq <- mul_ pf t b rq ;; u <- add_ pf t brq p ;;
                  uu <- mul_ pf t u u ;; d2 <- sub_ pf t mul_target uu ;; v <- div_ d2 rq ;;
                  u' <- sq_backward pf t fuel rd u v rq ;;
                  let g := ext_gcd target u' in
                  Ret (if (1 <? g) && (g <? target) then Some g else None)
              end
            else Ret None) ;;
  match found with
  | Some g => Ret (Done (Some g, i))
  | None => Ret (Next (i + 1, p, q, qm1))
  end.

(** src/factor.rs:157-225 squfof; [fuel] bounds each backward loop *)
Definition squfof (f : feature) (pf : profile) (t : ity) (fuel target mul_target max_iter : Z)
    : res (option Z * Z) :=
  m <- rem_ mul_target target ;;
  if negb (m =? 0) then Panic
  else
    let rd := ext_sqrt mul_target in
    rr <- mul_ pf t rd rd ;; q <- sub_ pf t mul_target rr ;;
    if q =? 0 then Ret (Some rd, 0)
    else
      r <- iter (max_iter - 1) (sq_step f pf t fuel target mul_target rd) (1, rd, q, 1) ;;
      match r with
      | Done x => Ret x
      | Next _ => Ret (None, max_iter)
      end.

(** src/factor.rs:230-269 *)
Definition SQUFOF_MULTIPLIERS : list Z := [
  3*5*7*11; 3*5*7; 3*5*7*11*13; 3*5*7*13; 3*5*7*11*17; 3*5*11; 3*5*7*17; 3*5; 3*5*7*11*19;
  3*5*11*13; 3*5*7*19; 3*5*7*13*17; 3*5*13; 3*7*11; 3*7; 5*7*11; 3*7*13; 5*7; 3*5*17; 5*7*13;
  3*5*19; 3*11; 3*7*17; 3; 3*11*13; 5*11; 3*7*19; 3*13; 5; 5*11*13; 5*7*19; 5*13; 7*11; 7; 3*17;
  7*13; 11; 1].

(** src/factor.rs:299-313: one pass of [for i in 1..max_iter]; state (i, ikn) *)
Definition ol_step (f : feature) (pf : profile) (t : ity) (target mul_target : Z)
    (st : Z * Z) : res (step (Z * Z) (option Z * Z)) :=
  let '(i, ikn) := st in
  s <- add_ pf t (ext_sqrt ikn) 1 ;;
  ss <- mul_ pf t s s ;; m <- sub_ pf t ss ikn ;;
  r <- sqrt_exact f pf t m ;;
  found <- (match r with
            | Some x => d <- sub_ pf t s x ;;
                        let g := ext_gcd target d in
                        Ret (if negb (g =? 1) && negb (g =? target) then Some g else None)
            | None => Ret None
            end) ;;
  match found with
  | Some g => Ret (Done (Some g, i))
  | None =>
      match checked t (ikn + mul_target) with
      | Some n => Ret (Next (i + 1, n))
      | None => Ret (Done (None, i))
      end
  end.

(** src/factor.rs:284-316 one_line *)
Definition one_line (f : feature) (pf : profile) (t : ity) (target mul_target max_iter : Z)
    : res (option Z * Z) :=
  m <- rem_ mul_target target ;;
  if negb (m =? 0) then Panic
  else
    r <- iter (max_iter - 1) (ol_step f pf t target mul_target) (1, mul_target) ;;
    match r with
    | Done x => Ret x
    | Next _ => Ret (None, max_iter)
    end.
