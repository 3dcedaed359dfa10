(** * Model of src/primality.rs: Lucas utilities and probable prime tests. *)
From Coq Require Import ZArith List Bool.
From Verif Require Import Base Ext MInteger Ops.
Import ListNotations.
Local Open Scope Z_scope.

Section Primality.
Context {T : Type} (pf : profile) (OP : ops T).

(** ** src/primality.rs:36-83 lucasm *)

(** One iteration of the loop body, src/primality.rs:51-77; state is (uk, uk1). *)
Definition lucas_step (p q m : T) (bit : bool) (st : T * T) : res (T * T) :=
  let '(uk, uk1) := st in
  if bit then
    (* lines 54-63: k' = 2k+1 *)
    uk1sq <- o_sqm OP uk1 m ;;
    t1 <- o_mulm OP p uk1sq m ;;
    x <- o_mulm OP q uk1 m ;; y <- o_mulm OP x uk m ;; t2 <- o_dblm OP y m ;;
    new_uk1 <- o_subm OP t1 t2 m ;;
    s <- o_sqm OP uk m ;; t2' <- o_mulm OP q s m ;;
    new_uk <- o_subm OP uk1sq t2' m ;;
    Ret (new_uk, new_uk1)
  else
    (* lines 67-76: k' = 2k *)
    uksq <- o_sqm OP uk m ;;
    t1 <- o_sqm OP uk1 m ;;
    t2 <- o_mulm OP uksq q m ;;
    new_uk1 <- o_subm OP t1 t2 m ;;
    z <- o_mulm OP uk1 uk m ;; t1' <- o_dblm OP z m ;;
    t2' <- o_mulm OP uksq p m ;;
    new_uk <- o_subm OP t1' t2' m ;;
    Ret (new_uk, new_uk1).

(** [for i in (0..n.bits()).rev()] *)
Fixpoint lucas_loop (p q m n : T) (i : nat) (st : T * T) : res (T * T) :=
  match i with
  | O => Ret st
  | S j => b <- o_bit OP n (Z.of_nat j) ;;
           st' <- lucas_step p q m b st ;;
           lucas_loop p q m n j st'
  end.

Definition lucasm (p q : Z) (m n : T) : res (T * T) :=
  p0 <- o_const OP p ;; p' <- o_rem OP p0 m ;;
  q' <- (if 0 <=? q then q0 <- o_const OP q ;; o_rem OP q0 m
         else nq <- wrap_isize pf (- q) ;; q0 <- o_const OP nq ;; o_negm OP q0 m) ;;
  z <- o_zero OP ;; uk0 <- o_rem OP z m ;;
  o <- o_one OP ;; uk10 <- o_rem OP o m ;;
  nb <- o_bits OP n ;;
  '(uk, uk1) <- lucas_loop p' q' m n (Z.to_nat nb) (uk0, uk10) ;;
  (* lines 80-82 *)
  a <- o_dblm OP uk1 m ;; b <- o_mulm OP p' uk m ;;
  vk <- o_subm OP a b m ;;
  Ret (uk, vk).

(** [n.is_square()]: src/traits.rs:202-204 *)
Definition is_square (n : T) : res bool :=
  r <- o_sqrt_exact OP n ;; Ret (match r with Some _ => true | None => false end).

(** [d.to_isize().unwrap()] *)
Definition to_isize (x : T) : res Z :=
  let v := o_to_z OP x in if v <? 2 ^ 63 then Ret v else Panic.

(** src/primality.rs:85-111 pq_selfridge; the loop takes fuel *)
Fixpoint selfridge_loop (fuel : nat) (n d : T) (neg : bool) : res (Z * Z) :=
  match fuel with
  | O => NoFuel
  | S fuel' =>
      thirteen <- o_const OP 13 ;;
      at13 <- o_eqb OP d thirteen ;;
      sq <- (if at13 then is_square n else Ret false) ;;
      if sq then Ret (0, 0)
      else
        sd <- (if neg then o_negm OP d n else Ret d) ;;
        j <- o_jacobi OP sd n ;;
        d_eq_n <- (if j =? 0 then o_eqb OP d n else Ret true) ;;
        if negb d_eq_n then Ret (0, 0)
        else if j =? -1 then
          di <- to_isize d ;;
          let di := if neg then - di else di in
          d1 <- wrap_isize pf (1 - di) ;;
          Ret (1, Z.quot d1 4)
        else
          two <- o_const OP 2 ;;
          d' <- o_add OP d two ;;
          selfridge_loop fuel' n d' (negb neg)
  end.
Definition pq_selfridge (fuel : nat) (n : T) : res (Z * Z) :=
  five <- o_const OP 5 ;; selfridge_loop fuel n five false.

(** src/primality.rs:113-131 p_bruteforce *)
Fixpoint bruteforce_loop (fuel : nat) (n : T) (p : Z) : res Z :=
  match fuel with
  | O => NoFuel
  | S fuel' =>
      sq <- (if p =? 10 then is_square n else Ret false) ;;
      if sq then Ret 0
      else
        pp <- mul_ pf usize p p ;;
        pp4 <- sub_ pf usize pp 4 ;;
        d <- o_const OP pp4 ;;
        j <- o_jacobi OP d n ;;
        d_eq_n <- (if j =? 0 then o_eqb OP d n else Ret true) ;;
        if negb d_eq_n then Ret 0
        else if j =? -1 then Ret p
        else p' <- add_ pf usize p 1 ;; bruteforce_loop fuel' n p'
  end.
Definition p_bruteforce (fuel : nat) (n : T) : res Z := bruteforce_loop fuel n 3.

(** ** Probable prime tests *)

(** src/primality.rs:141-147 is_prp *)
Definition is_prp (n base : T) : res bool :=
  one <- o_one OP ;;
  lt <- o_ltb OP n one ;;
  if lt then Ret false
  else
    tm1 <- o_sub OP n one ;;
    x <- o_powm OP base tm1 n ;;
    Ret (o_is_one OP x).

(** src/primality.rs:173-184: the loop of test_sprp ([for _ in 0..shift]) *)
Fixpoint sprp_loop (k : nat) (n m1 mm1 x : T) : res (bool + T) :=
  match k with
  | O => b <- o_eqb OP x m1 ;; Ret (inl b)
  | S k' =>
      y <- o_sqm OP x n ;;
      is1 <- o_eqb OP y m1 ;;
      if is1 then
        one <- o_one OP ;; xm1 <- o_sub OP x one ;; g <- o_gcd OP n xm1 ;; Ret (inr g)
      else
        ism1 <- o_eqb OP y mm1 ;;
        if ism1 then Ret (inl true) else sprp_loop k' n m1 mm1 y
  end.

(** src/primality.rs:154-185 test_sprp; [inl] = Either::Left, [inr] = Either::Right *)
Definition test_sprp (n base : T) : res (bool + T) :=
  one <- o_one OP ;;
  lt <- o_ltb OP n one ;;
  if lt then Ret (inl false)
  else
    tm1 <- o_sub OP n one ;;
    shift <- o_tz OP tm1 ;;
    u <- o_shr OP tm1 shift ;;
    m1 <- o_rem OP one n ;;
    mm1 <- o_negm OP m1 n ;;
    x <- o_powm OP base u n ;;
    is1 <- o_eqb OP x m1 ;;
    ism1 <- (if is1 then Ret true else o_eqb OP x mm1) ;;
    if ism1 then Ret (inl true)
    else sprp_loop (Z.to_nat shift) n m1 mm1 x.

(** src/primality.rs:150-152 is_sprp *)
Definition is_sprp (n base : T) : res bool :=
  r <- test_sprp n base ;;
  Ret (match r with inl v => v | inr _ => false end).

(** src/primality.rs:195-204 and 230-239: explicit parameters or Selfridge's; [None] = early
    [return false]. *)
Definition lucas_params (fuel : nat) (n : T) (p q : option Z) : res (option (Z * Z)) :=
  match p, q with
  | Some sp, Some sq => Ret (Some (sp, sq))
  | _, _ =>
      '(sp, sq) <- pq_selfridge fuel n ;;
      if sp =? 0 then Ret None else Ret (Some (sp, sq))
  end.

(** src/primality.rs:206-217, 241-252, 307-318: discriminant and index n - (D/n) *)
Definition lucas_delta (n : T) (p q : Z) : res T :=
  pp <- mul_ pf usize p p ;;
  q4 <- wrap_isize pf (4 * q) ;;
  d <- wrap_isize pf (as_isize pp - q4) ;;
  dd <- (if 0 <? d then o_const OP d
         else nd <- wrap_isize pf (- d) ;; c <- o_const OP nd ;; o_negm OP c n) ;;
  j <- o_jacobi OP dd n ;;
  one <- o_one OP ;;
  if j =? 0 then Ret n
  else if j =? -1 then o_add OP n one
  else if j =? 1 then o_sub OP n one
  else Panic.

(** src/primality.rs:187-220 is_lprp *)
Definition is_lprp (fuel : nat) (n : T) (p q : option Z) : res bool :=
  one <- o_one OP ;;
  lt <- o_ltb OP n one ;;
  if lt then Ret false
  else if o_is_even OP n then Ret false
  else
    pq <- lucas_params fuel n p q ;;
    match pq with
    | None => Ret false
    | Some (p, q) =>
        delta <- lucas_delta n p q ;;
        '(u, _) <- lucasm p q n delta ;;
        Ret (o_is_zero OP u)
    end.

(** src/primality.rs:277-285: [for _ in 1..shift] *)
Fixpoint slprp_loop (k : nat) (n qk vd : T) : res bool :=
  match k with
  | O => Ret false
  | S k' =>
      qk' <- o_sqm OP qk n ;;
      v2 <- o_sqm OP vd n ;; q2 <- o_dblm OP qk' n ;;
      vd' <- o_subm OP v2 q2 n ;;
      if o_is_zero OP vd' then Ret true else slprp_loop k' n qk' vd'
  end.

(** src/primality.rs:222-286 is_slprp *)
Definition is_slprp (fuel : nat) (n : T) (p q : option Z) : res bool :=
  one <- o_one OP ;;
  lt <- o_ltb OP n one ;;
  if lt then Ret false
  else if o_is_even OP n then Ret false
  else
    pq <- lucas_params fuel n p q ;;
    match pq with
    | None => Ret false
    | Some (p, q) =>
        delta <- lucas_delta n p q ;;
        shift <- o_tz OP delta ;;
        base <- o_shr OP delta shift ;;
        '(ud, vd) <- lucasm p q n base ;;
        if o_is_zero OP ud || o_is_zero OP vd then Ret true
        else if shift =? 0 then Ret false
        else
          aq <- wrap_isize pf (Z.abs q) ;;
          aq' <- o_const OP aq ;;
          qk <- o_powm OP aq' base n ;;
          v2 <- o_sqm OP vd n ;; q2 <- o_dblm OP qk n ;;
          vd' <- (if 0 <=? q then o_subm OP v2 q2 n else o_addm OP v2 q2 n) ;;
          if o_is_zero OP vd' then Ret true
          else slprp_loop (Z.to_nat shift - 1) n qk vd'
    end.

(** src/primality.rs:333-340: [for _ in 1..(shift - 1)] *)
Fixpoint eslprp_loop (k : nat) (n two vd : T) : res bool :=
  match k with
  | O => Ret false
  | S k' =>
      v2 <- o_sqm OP vd n ;;
      vd' <- o_subm OP v2 two n ;;
      if o_is_zero OP vd' then Ret true else eslprp_loop k' n two vd'
  end.

(** src/primality.rs:288-341 is_eslprp. [shift - 1] is usize arithmetic: for shift = 0 it
    panics in debug and wraps in release, where the loop [1..usize::MAX] is modelled by
    [NoFuel] unless it exits early (never attempted by the model). *)
Definition is_eslprp (fuel : nat) (n : T) (p : option Z) : res bool :=
  one <- o_one OP ;;
  lt <- o_ltb OP n one ;;
  if lt then Ret false
  else if o_is_even OP n then Ret false
  else
    sp <- (match p with Some sp => Ret sp | None => p_bruteforce fuel n end) ;;
    if (match p with Some _ => false | None => sp =? 0 end) then Ret false
    else
      delta <- lucas_delta n sp 1 ;;
      shift <- o_tz OP delta ;;
      base <- o_shr OP delta shift ;;
      '(ud, vd) <- lucasm sp 1 n base ;;
      two <- o_const OP 2 ;;
      hit <- (if o_is_zero OP ud then
                e1 <- o_eqb OP vd two ;;
                if e1 then Ret true
                else nm2 <- o_sub OP n two ;; o_eqb OP vd nm2
              else Ret false) ;;
      if hit then Ret true
      else if o_is_zero OP vd then Ret true
      else
        sm1 <- sub_ pf usize shift 1 ;;
        if shift =? 0 then NoFuel
        else eslprp_loop (Z.to_nat sm1 - 1) n two vd.
End Primality.
