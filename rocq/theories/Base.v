(** * Machine model: results, build profiles, integer types, random draws.
    Nothing here is specific to num-prime; it fixes what "panic", "overflow" and
    "does not return" mean for the model. *)
From Coq Require Import ZArith List Lia Bool.
Import ListNotations.
Local Open Scope Z_scope.

(** Outcome of running a piece of Rust code.
    [Ret a]  : returns the value [a];
    [Panic]  : panics (overflow in a debug build, [unwrap] of [None], index out of
               bounds, [unreachable!()], division by zero);
    [NoFuel] : the loop bound given to the model was too small (the Rust code has no
               such bound) or the supplied finite list of random draws was exhausted. *)
Inductive res (A : Type) : Type :=
| Ret (a : A)
| Panic
| NoFuel.
Arguments Ret {A} a.
Arguments Panic {A}.
Arguments NoFuel {A}.

Definition bind {A B} (m : res A) (f : A -> res B) : res B :=
  match m with
  | Ret a => f a
  | Panic => Panic
  | NoFuel => NoFuel
  end.

Declare Scope res_scope.
Delimit Scope res_scope with res.
Notation "x <- e ;; f" := (bind e (fun x => f))
  (at level 61, e at next level, right associativity) : res_scope.
Notation "' p <- e ;; f" := (bind e (fun p => f))
  (at level 61, p pattern, e at next level, right associativity) : res_scope.
Open Scope res_scope.

(** [Option::unwrap] *)
Definition unwrap {A} (o : option A) : res A :=
  match o with Some a => Ret a | None => Panic end.

(** cargo build profile: overflow checks on ([Debug]) or off ([Release]). *)
Inductive profile := Debug | Release.

(** Unsigned integer types: [U w] is the machine integer of [w] bits
    (u8, u16, u32, u64, u128, usize); [Big] is num_bigint::BigUint. *)
Inductive ity := U (w : Z) | Big.

Definition in_rangeb (t : ity) (x : Z) : bool :=
  match t with
  | U w => (0 <=? x) && (x <? 2 ^ w)
  | Big => 0 <=? x
  end.

Definition in_range (t : ity) (x : Z) : Prop :=
  match t with
  | U w => 0 <= x < 2 ^ w
  | Big => 0 <= x
  end.

(** The supported integer types. *)
Definition valid_ity (t : ity) : Prop :=
  match t with
  | U w => w = 8 \/ w = 16 \/ w = 32 \/ w = 64 \/ w = 128
  | Big => True
  end.

(** Result of an arithmetic operation whose exact value is [x]. *)
Definition wrapz (pf : profile) (t : ity) (x : Z) : res Z :=
  if in_rangeb t x then Ret x
  else match t with
       | U w => match pf with Debug => Panic | Release => Ret (x mod 2 ^ w) end
       | Big => Panic
       end.

Definition add_ (pf : profile) (t : ity) (a b : Z) : res Z := wrapz pf t (a + b).
Definition sub_ (pf : profile) (t : ity) (a b : Z) : res Z := wrapz pf t (a - b).
Definition mul_ (pf : profile) (t : ity) (a b : Z) : res Z := wrapz pf t (a * b).
(** Division and remainder panic on a zero divisor in both profiles. *)
Definition div_ (a b : Z) : res Z := if b =? 0 then Panic else Ret (a / b).
Definition rem_ (a b : Z) : res Z := if b =? 0 then Panic else Ret (a mod b).
(** Shifts: an amount >= width panics in debug and is masked in release. *)
Definition shr_ (pf : profile) (t : ity) (a k : Z) : res Z :=
  match t with
  | Big => Ret (Z.shiftr a k)
  | U w => if (0 <=? k) && (k <? w) then Ret (Z.shiftr a k)
           else match pf with
                | Debug => Panic
                | Release => Ret (Z.shiftr a (k mod w))
                end
  end.
Definition shl_ (pf : profile) (t : ity) (a k : Z) : res Z :=
  match t with
  | Big => Ret (Z.shiftl a k)
  | U w => if (0 <=? k) && (k <? w) then Ret (Z.shiftl a k mod 2 ^ w)
           else match pf with
                | Debug => Panic
                | Release => Ret (Z.shiftl a (k mod w) mod 2 ^ w)
                end
  end.
(** [checked_add] / [checked_mul]; BigUint's never fail. *)
Definition checked (t : ity) (x : Z) : option Z :=
  if in_rangeb t x then Some x else None.
(** [FromPrimitive::from_*] : [None] when the value does not fit. *)
Definition from_prim (t : ity) (x : Z) : option Z :=
  if in_rangeb t x then Some x else None.

(** Machine words used for counters (64-bit platform). *)
Definition u64 := U 64.
Definition usize := U 64.
Definition u128 := U 128.

(** isize arithmetic on a 64-bit platform. *)
Definition wrap_isize (pf : profile) (x : Z) : res Z :=
  if (- 2 ^ 63 <=? x) && (x <? 2 ^ 63) then Ret x
  else match pf with
       | Debug => Panic
       | Release => Ret ((x + 2 ^ 63) mod 2 ^ 64 - 2 ^ 63)
       end.
(** [x as isize] for a usize [x]. *)
Definition as_isize (x : Z) : Z := (x + 2 ^ 63) mod 2 ^ 64 - 2 ^ 63.

(** Random numbers: the code draws from a stream that is an explicit argument.
    [draw w] takes the next element, reduced to [w] bits ([rand::random::<uN>()],
    [rng.gen::<uN>()]); an exhausted list is reported as [NoFuel]. *)
Definition draws := list Z.
Definition draw (w : Z) (l : draws) : res (Z * draws) :=
  match l with
  | [] => NoFuel
  | x :: l' => Ret (x mod 2 ^ w, l')
  end.

(** Folding a computation over a list ([for x in list]). *)
Fixpoint foldM {A B} (f : A -> B -> res A) (l : list B) (a : A) : res A :=
  match l with
  | [] => Ret a
  | b :: l' => a' <- f a b ;; foldM f l' a'
  end.

(** [(start..stop).step_by(step)] for step >= 1. *)
Fixpoint range_from (n : nat) (start step : Z) : list Z :=
  match n with
  | O => []
  | S n' => start :: range_from n' (start + step) step
  end.
Definition range_step (start stop step : Z) : list Z :=
  range_from (Z.to_nat ((stop - start + step - 1) / step)) start step.

(** ** Loops.
    One pass of a loop body either goes on with a new state or leaves the loop. *)
Inductive step (S R : Type) : Type :=
| Next (s : S)
| Done (r : R).
Arguments Next {S R} s.
Arguments Done {S R} r.

(** [piter f p s]: at most [p] passes of the body [f] from the state [s]. *)
Fixpoint piter {S R} (f : S -> res (step S R)) (p : positive) (s : S) : res (step S R) :=
  match p with
  | xH => f s
  | xO q =>
      r <- piter f q s ;;
      match r with Done x => Ret (Done x) | Next s' => piter f q s' end
  | xI q =>
      r <- f s ;;
      match r with
      | Done x => Ret (Done x)
      | Next s' =>
          r' <- piter f q s' ;;
          match r' with Done x => Ret (Done x) | Next s'' => piter f q s'' end
      end
  end.
(** [iter n f s]: the loop [for _ in 0..n] with body [f]. *)
Definition iter {S R} (n : Z) (f : S -> res (step S R)) (s : S) : res (step S R) :=
  match n with Zpos p => piter f p s | _ => Ret (Next s) end.
(** [loop fuel f s]: an unbounded [loop]/[while]; [NoFuel] if it is still running after
    [fuel] passes. *)
Definition loop {S R} (fuel : Z) (f : S -> res (step S R)) (s : S) : res R :=
  r <- iter fuel f s ;;
  match r with Done x => Ret x | Next _ => NoFuel end.
