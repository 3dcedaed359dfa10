(** * Model of the floating point code: the formulas of prime_pi_bounds and nth_prime_bounds and
    Gram's series in prime_pi_est.

    f64 is Flocq's binary64 with rounding to nearest even. [ln] and [exp] are library functions of
    the platform; they are parameters here, and the theorems state what they need of them. *)
From Coq Require Import Reals ZArith List Bool.
From Flocq Require Import Core BinarySingleNaN.
From Verif Require Import Base Tables FArith.
Import ListNotations.
Local Open Scope Z_scope.

(** [T::from_f64] (num-traits for the machine integers, num-bigint for BigUint): the value is truncated
    towards zero; None for NaN, an infinity, or a truncated value outside the type *)
Definition from_f64 (t : ity) (v : f64) : option Z :=
  if is_finite v then from_prim t (Btrunc v) else None.
(** [x.recip()] *)
Definition frecip (x : f64) : f64 := fdiv (fint 1) x.
(** [a < b] on floats (false if one is NaN) *)
Definition flt (a b : f64) : bool := match Bcompare a b with Some Lt => true | _ => false end.

Section Float.
Context (ln exp : f64 -> f64).

(** ** src/nt_funcs.rs:742-793 nth_prime_bounds *)
(** [n * (ln + lnln - c)], lines 756, 779, 783 *)
Definition nth_f1 (c : f64) (x : Z) : f64 :=
  let n := fint x in let l := ln n in let ll := ln l in
  fmul n (fsub (fadd l ll) c).
(** [n * (ln + lnln - 1. + (lnln - c) / ln)], lines 754, 775, 777, 781 *)
Definition nth_f2 (c : f64) (x : Z) : f64 :=
  let n := fint x in let l := ln n in let ll := ln l in
  fmul n (fadd (fsub (fadd l ll) (fint 1)) (fdiv (fsub ll c) l)).
(** [n * (ln + lnln - 1. + (lnln - 2.) / ln - (lnln * lnln - 6. * lnln + c) / (2. * ln * ln))],
    lines 750-751, 763-764, 768-769, 787-793 *)
Definition nth_f3 (c : f64) (x : Z) : f64 :=
  let n := fint x in let l := ln n in let ll := ln l in
  fmul n (fsub (fadd (fsub (fadd l ll) (fint 1)) (fdiv (fsub ll (fint 2)) l))
    (fdiv (fadd (fsub (fmul ll ll) (fmul (fint 6) ll)) c) (fmul (fmul (fint 2) l) l))).
(** lines 747-757 (and 788-790: the same formula when the target does not fit usize) *)
Definition nth_lo (x : Z) : f64 :=
  if 317200 <=? x then nth_f3 (flit 11321 1000) x
  else if 3520 <=? x then nth_f2 (flit 21 10) x
  else nth_f1 (fint 1) x.
(** lines 758-784 (and 791-793) *)
Definition nth_hi (x : Z) : f64 :=
  if 46254381 <=? x then nth_f3 (flit 10667 1000) x
  else if 8009824 <=? x then nth_f3 (flit 10273 1000) x
  else if 688383 <=? x then nth_f2 (fint 2) x
  else if 178974 <=? x then nth_f2 (flit 195 100) x
  else if 39017 <=? x then nth_f1 (flit 9484 10000) x
  else if 27076 <=? x then nth_f2 (flit 18 10) x
  else nth_f1 (flit 5 10) x.
(** line 785 (and 794): [Some((T::from_f64(lo)?, T::from_f64(hi)?))] *)
Definition nth_float (t : ity) (x : Z) : option (Z * Z) :=
  match from_f64 t (nth_lo x) with
  | None => None
  | Some lo => match from_f64 t (nth_hi x) with None => None | Some hi => Some (lo, hi) end
  end.

(** ** src/nt_funcs.rs:662-705 prime_pi_bounds *)
(** [n / (ln - 1. - invln)], [n / (ln - 1. - 1.2311 * invln)]: lines 669, 687, 701 *)
Definition pi_q (x : Z) : f64 :=
  let n := fint x in let l := ln n in let i := frecip l in
  fdiv n (fsub (fsub l (fint 1)) i).
Definition pi_qc (c : f64) (x : Z) : f64 :=
  let n := fint x in let l := ln n in let i := frecip l in
  fdiv n (fsub (fsub l (fint 1)) (fmul c i)).
(** [n / (ln - c)], lines 673, 691 *)
Definition pi_r (c : f64) (x : Z) : f64 :=
  let n := fint x in let l := ln n in fdiv n (fsub l c).
(** [n * invln], line 677 *)
Definition pi_s0 (x : Z) : f64 :=
  let n := fint x in let i := frecip (ln n) in fmul n i.
(** [n * invln * (1. + invln)], line 675 *)
Definition pi_s1 (x : Z) : f64 :=
  let n := fint x in let i := frecip (ln n) in fmul (fmul n i) (fadd (fint 1) i).
(** [n * invln * (1. + invln * c)], line 693 *)
Definition pi_s1c (c : f64) (x : Z) : f64 :=
  let n := fint x in let i := frecip (ln n) in fmul (fmul n i) (fadd (fint 1) (fmul i c)).
(** [n * invln * (1. + invln * (1. + 2. * invln))], line 671 *)
Definition pi_s2 (x : Z) : f64 :=
  let n := fint x in let i := frecip (ln n) in
  fmul (fmul n i) (fadd (fint 1) (fmul i (fadd (fint 1) (fmul (fint 2) i)))).
(** [n * invln * (1. + invln * (1. + invln * c))], lines 685, 689 *)
Definition pi_s2c (c : f64) (x : Z) : f64 :=
  let n := fint x in let i := frecip (ln n) in
  fmul (fmul n i) (fadd (fint 1) (fmul i (fadd (fint 1) (fmul i c)))).
(** [n * invln * (1. + invln * (1. + invln * (2. + invln * 7.59)))], lines 683, 702 *)
Definition pi_s3 (c : f64) (x : Z) : f64 :=
  let n := fint x in let i := frecip (ln n) in
  fmul (fmul n i) (fadd (fint 1) (fmul i (fadd (fint 1) (fmul i (fadd (fint 2) (fmul i c)))))).
(** [1.25506 * n * invln], line 695 *)
Definition pi_s0c (c : f64) (x : Z) : f64 :=
  let n := fint x in let i := frecip (ln n) in fmul (fmul c n) i.
(** lines 666-678 (and 701) *)
Definition pi_lo (x : Z) : f64 :=
  if 468049 <=? x then pi_q x
  else if 88789 <=? x then pi_s2 x
  else if 5393 <=? x then pi_r (fint 1) x
  else if 599 <=? x then pi_s1 x
  else pi_s0 x.
(** lines 679-696 (and 702) *)
Definition pi_hi (x : Z) : f64 :=
  if 7398600000 <=? x then pi_s3 (flit 759 100) x
  else if 2953652287 <=? x then pi_s2c (flit 2334 1000) x
  else if 467345 <=? x then pi_qc (flit 12311 10000) x
  else if 29927 <=? x then pi_s2c (flit 253816 100000) x
  else if 5668 <=? x then pi_r (flit 1112 1000) x
  else if 148 <=? x then pi_s1c (flit 12762 10000) x
  else pi_s0c (flit 125506 100000) x.
(** lines 697, 703: [(T::from_f64(lo).unwrap(), T::from_f64(hi).unwrap())]; None stands for the panic *)
Definition pi_float (t : ity) (x : Z) : option (Z * Z) :=
  match from_f64 t (pi_lo x) with
  | None => None
  | Some lo => match from_f64 t (pi_hi x) with None => None | Some hi => Some (lo, hi) end
  end.

(** ** src/nt_funcs.rs:980-1000 prime_pi_est with big-table: Gram's series.
    [zeta] is ZETA_LOG_TABLE, below. *)
Context (zeta : list f64).
(** one step of the loop 985-999; the state is (total, lnp, lnfac) *)
Definition gram_step (lnln : f64) (k : Z) (s : f64 * f64 * f64) : (f64 * f64 * f64) * bool :=
  let '(total, lnp, lnfac) := s in
  let lnp := fadd lnp lnln in
  let lnk := ln (fint k) in
  let lnfac := fadd lnfac lnk in
  let lnzeta := if 64 <? k then fint 0 else nth (Z.to_nat (k - 1)) zeta (fint 0) in
  let t := fsub (fsub (fsub lnp lnk) lnfac) lnzeta in
  if flt t (fint (-4)) then ((total, lnp, lnfac), true)
  else ((fadd total (exp t), lnp, lnfac), false).
Fixpoint gram_loop (lnln : f64) (ks : list Z) (s : f64 * f64 * f64) : f64 :=
  match ks with
  | [] => let '(total, _, _) := s in total
  | k :: ks =>
      let '(s', stop) := gram_step lnln k s in
      if stop then (let '(total, _, _) := s' in total) else gram_loop lnln ks s'
  end.
Definition gram (t : ity) (x : Z) : option Z :=
  let lnln := ln (ln (fint x)) in
  from_f64 t (fadd (gram_loop lnln (map Z.of_nat (seq 1 99)) (fint 0, fint 0, fint 0)) (fint 1)).
End Float.

(** src/tables.rs:2987-3054 ZETA_LOG_TABLE (the comment there says ζ(i-2), the numbers are ln ζ(i+2)):
    the literals, (d, k) for d / 10^k, and the floats nearest to them, (m, e) for m / 2^e *)
Definition ZETA_LOG_DECIMALS : list (Z * Z) := [
  (4977003024707453704422733, 25); (1840341753914914169065753, 25);
  (7910987306733563428906564, 26); (3626225964922791950018066, 26);
  (1719438760265828980422498, 26); (8314614969275204922616318, 27);
  (4069066307412954990041509, 27); (2006378701528290387640086, 27);
  (9940808656690607904293788, 28); (4940665331469770151992527, 28);
  (2460562789788238511994034, 28); (1227058189115578395490813, 28);
  (6124625946826462580263595, 29); (3058776849645994703411761, 29);
  (1528214263611525392016002, 29); (7637168474654366096660528, 30);
  (3817285979154446217526640, 30); (1908210895918369244355067, 30);
  (9539615788513043827126850, 31); (4769328730553057084173103, 31);
  (2384504742984163710492051, 31); (1192199188586162536606321, 31);
  (5960818727469145156012688, 32); (2980350307052787786014558, 32);
  (1490155471733687385350177, 32); (7450711762078876717827681, 33);
  (3725334017849400424712395, 33); (1862659721778298369227706, 33);
  (9313274319859827471326702, 34); (4656629063949574247211838, 34);
  (2328311833405453758759852, 34); (1164155017202289036848590, 34);
  (5820772087733293568249733, 35); (2910385044454747711695271, 35);
  (1455192189093610577568052, 35); (7275959835031012016668332, 36);
  (3637979547372033417761987, 36); (1818989650305411709490059, 36);
  (9094947840259752504178820, 37); (4547473783041120242576761, 37);
  (2273736845824393946183985, 37); (1136868407680163290842639, 37);
  (5684341987627423858168184, 38); (2842170976889261614354352, 38);
  (1421085482803150734740459, 38); (7105427395210827461615018, 39);
  (3552713691337107622981434, 39); (1776356843579118836645811, 39);
  (8881784210930812248514214, 40); (4440892103143812146018826, 40);
  (2220446050798041906634718, 40); (1110223025141066149019450, 40);
  (5551115124845480986572498, 41); (2775557562136123907111332, 41);
  (1387778780972523194213624, 41); (6938893904544153439927978, 42);
  (3469446952165922542917276, 42); (1734723476047576545776400, 42);
  (8673617380119933001297893, 43); (4336808690020650566764225, 43);
  (2168404344997219811593044, 43); (1084202172494241415200165, 43);
  (5421010862456645841915045, 44); (2710505431223468975644559, 44)].
Definition ZETA_LOG_FLOATS : list (Z * Z) := [
  (8965771586997728, 54); (6630529949732458, 55); (5700467117878080, 56); (5225942369404001, 57);
  (4955944806412528, 58); (4793049200301691, 59); (4691314049487571, 60); (4626394302754257, 61);
  (4584388829392202, 62); (4556959446173611, 63); (4538937206051643, 64); (4527045675632914, 65);
  (4519176295532352, 66); (4513957897920578, 67); (4510492385701490, 68); (4508188553592059, 69);
  (4506655840871798, 70); (4505635588565782, 71); (4504956185912808, 72); (4504503628590198, 73);
  (4504202110604845, 74); (4504001191266945, 75); (4503867291049917, 76); (4503778047115629, 77);
  (4503718562547181, 78); (4503678911841782, 79); (4503652480866846, 80); (4503634861627973, 81);
  (4503623116172968, 82); (4503615286221234, 83); (4503610066429005, 84); (4503606586655232, 85);
  (4503604266849874, 86); (4503602720334867, 87); (4503601689335807, 88); (4503601002008570, 89);
  (4503600543793145, 90); (4503600238317563, 91); (4503600034667857, 92); (4503599898901729, 93);
  (4503599808391147, 94); (4503599748050845, 95); (4503599707824019, 96); (4503599681006157, 97);
  (4503599663127593, 98); (4503599651208555, 99); (4503599643262533, 100); (4503599637965186, 101);
  (4503599634433622, 102); (4503599632079246, 103); (4503599630509663, 104); (4503599629463274, 105);
  (4503599628765681, 106); (4503599628300619, 107); (4503599627990578, 108); (4503599627783884, 109);
  (4503599627646088, 110); (4503599627554224, 111); (4503599627492981, 112); (4503599627452153, 113);
  (4503599627424934, 114); (4503599627406788, 115); (4503599627394691, 116); (4503599627386626, 117)].
Definition ZETA_LOG_TABLE : list f64 := map (fun '(m, e) => binary_normalize 53 1024 _ _ mode_NE m (- e) false) ZETA_LOG_FLOATS.
(** the compiler's reading of the literals is right: nothing is nearer *)
Definition nearest_float (x y : Z * Z) : bool :=
  let '(d, k) := x in let '(m, e) := y in
  (2 ^ 52 <=? m) && (m <? 2 ^ 53) && (2 * Z.abs (d * 2 ^ e - m * 10 ^ k) <=? 10 ^ k).
