(** Texts of numbers: the conversions [%.pf], [%.pg] and [%d] of doubles, as used by [np.savetxt]
    (class_Vs_profile.py:676-714, class_ground_motion.py:1117-1151, class_parameters.py:504-533,
    class_simulation_results.py:444-480) and by the [__repr__] methods, and the reading of a number
    from a text ([np.genfromtxt]).  Python prints the exact binary value correctly rounded, ties to
    even; here this is integer arithmetic. *)
From Coq Require Import ZArith List Bool String Ascii Reals.
From Flocq Require Import Core IEEE754.BinarySingleNaN.
From Verif Require Import Base M_float.
Import ListNotations.
Open Scope string_scope.
Open Scope Z_scope.

(** [a / b] rounded to an integer, ties to even. *)
Definition rdiv (a b : Z) : Z :=
  let q := a / b in let r := a mod b in
  if 2 * r <? b then q else if b <? 2 * r then q + 1 else if Z.even q then q else q + 1.
(** Mantissa and exponent (base 2) of the size of a double; its sign. *)
Definition mant (x : f64) : Z := match x with B754_finite _ m _ _ => Zpos m | _ => 0 end.
Definition expo (x : f64) : Z := match x with B754_finite _ _ e _ => e | _ => 0 end.
Definition neg (x : f64) : bool := match x with B754_zero s => s | B754_infinity s => s | B754_finite s _ _ _ => s | _ => false end.
(** The size of [x] times [10^k], rounded. *)
Definition scaled (x : f64) (k : Z) : Z :=
  rdiv (mant x * 2 ^ Z.max (expo x) 0 * 10 ^ Z.max k 0) (2 ^ Z.max (- expo x) 0 * 10 ^ Z.max (- k) 0).

(** Decimal digits. *)
Definition digit_char (d : Z) : ascii := nth (Z.to_nat d) ["0"; "1"; "2"; "3"; "4"; "5"; "6"; "7"; "8"; "9"]%char "0"%char.
Fixpoint dig (w : nat) (n : Z) : string :=
  match w with O => "" | S w' => dig w' (n / 10) ++ String (digit_char (n mod 10)) "" end.
Fixpoint ndig_go (fuel : nat) (n : Z) : nat :=
  match fuel with O => 1%nat | S f => if n <? 10 then 1%nat else S (ndig_go f (n / 10)) end.
Definition ndig (n : Z) : nat := ndig_go (Z.to_nat (Z.log2 n)) n.
Definition nat_text (n : Z) : string := dig (ndig n) n.
(** [q] decimals without trailing zeros. *)
Fixpoint strip (q : nat) (n : Z) : string :=
  match q with O => "" | S q' => if n mod 10 =? 0 then strip q' (n / 10) else dig q n end.
Definition after_point (f : string) : string := match f with "" => "" | _ => "." ++ f end.

Definition sign_text (s : bool) : string := if s then "-" else "".
Definition special (x : f64) (body : string) : string :=
  match x with
  | B754_nan => "nan"
  | B754_infinity s => sign_text s ++ "inf"
  | _ => sign_text (neg x) ++ body
  end.
(** ['%.pf' % x]. *)
Definition fmt_f (p : nat) (x : f64) : string :=
  let n := scaled x (Z.of_nat p) in
  special x (nat_text (n / 10 ^ Z.of_nat p) ++ after_point (dig p (n mod 10 ^ Z.of_nat p))).

(** Decimal exponent of a nonzero size: the [E] with [10^E <= |x| < 10^(E+1)]. *)
Definition exp10 (x : f64) : Z :=
  if 0 <=? expo x then Z.of_nat (ndig (mant x * 2 ^ expo x)) - 1
  else let k := Z.of_nat (ndig (2 ^ (- expo x))) in Z.of_nat (ndig (mant x * 10 ^ k / 2 ^ (- expo x))) - 1 - k.
(** [p] significant digits (an integer of [p] digits) and the exponent of the first. *)
Definition sci (p : nat) (x : f64) : Z * Z :=
  let e := exp10 x in
  let n := scaled x (Z.of_nat p - 1 - e) in
  if n =? 10 ^ Z.of_nat p then (10 ^ (Z.of_nat p - 1), e + 1) else (n, e).
Definition exp_text (e : Z) : string :=
  "e" ++ (if e <? 0 then "-" else "+") ++ (if Z.abs e <? 10 then dig 2 (Z.abs e) else nat_text (Z.abs e)).
Definition point (q : nat) (n : Z) : string := nat_text (n / 10 ^ Z.of_nat q) ++ after_point (strip q (n mod 10 ^ Z.of_nat q)).
(** ['%.pg' % x] and ['{:.pg}'.format(x)], for [p >= 1]. *)
Definition fmt_g (p : nat) (x : f64) : string :=
  special x
    (if mant x =? 0 then "0"
     else let '(n, e) := sci p x in
          if ((e <? -4) || (Z.of_nat p <=? e))%bool then point (p - 1) n ++ exp_text e
          else point (Z.to_nat (Z.of_nat p - 1 - e)) n).
(** ['%d' % x]: truncated towards zero; NaN raises ValueError, infinities OverflowError. *)
Definition fmt_d (x : f64) : res string :=
  match x with
  | B754_nan => Err ValueError
  | B754_infinity _ => Err OverflowError
  | _ => let n := mant x * 2 ^ Z.max (expo x) 0 / 2 ^ Z.max (- expo x) 0 in
         Ok (sign_text (neg x && negb (n =? 0)) ++ nat_text n)
  end.

(** Reading a number: sign, digits, decimals, exponent; [None] is a text that is no finite number. *)
Definition digit_val (c : ascii) : option Z :=
  match c with
  | "0"%char => Some 0 | "1"%char => Some 1 | "2"%char => Some 2 | "3"%char => Some 3 | "4"%char => Some 4
  | "5"%char => Some 5 | "6"%char => Some 6 | "7"%char => Some 7 | "8"%char => Some 8 | "9"%char => Some 9
  | _ => None
  end.
Fixpoint take (acc : Z) (c : Z) (s : string) : Z * Z * string :=
  match s with
  | String a s' => match digit_val a with Some d => take (10 * acc + d) (c + 1) s' | None => (acc, c, s) end
  | "" => (acc, c, "")
  end.
Definition take_sign (s : string) : bool * string :=
  match s with String "-"%char s' => (true, s') | String "+"%char s' => (false, s') | _ => (false, s) end.
(** Mantissa and decimal exponent of the number read. *)
Definition read_dec (s : string) : option (Z * Z) :=
  let '(sg, s1) := take_sign s in
  let '(n1, c1, s2) := take 0 0 s1 in
  let '(n2, c2, s3) := match s2 with String "."%char s2' => take n1 0 s2' | _ => (n1, 0, s2) end in
  if c1 + c2 =? 0 then None
  else
    let m := if sg then - n2 else n2 in
    match s3 with
    | "" => Some (m, - c2)
    | String "e"%char s4 =>
        let '(sg', s5) := take_sign s4 in
        let '(e, ce, s6) := take 0 0 s5 in
        match s6 with
        | "" => if ce =? 0 then None else Some (m, (if sg' then - e else e) - c2)
        | _ => None
        end
    | _ => None
    end.
Definition radix10 : radix := Build_radix 10 eq_refl.
(** The number a text denotes, and the nearest double, which is what is stored when it is read. *)
Definition text_value (s : string) : option R :=
  match read_dec s with Some (m, k) => Some (IZR m * bpow radix10 k)%R | None => None end.
Definition rnd64 (r : R) : R := round radix2 (SpecFloat.fexp 53 1024) ZnearestE r.
Definition read_double (s : string) : option R :=
  match text_value s with Some v => Some (rnd64 v) | None => None end.
