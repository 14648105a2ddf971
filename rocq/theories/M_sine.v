(** Model of [sine_smooth], helper_signal_processing.py:914-989. *)
From Coq Require Import Reals List Bool ZArith Lia Lra.
From Verif Require Import Base M_motion.
Import ListNotations.
Open Scope R_scope.

(** A zero-initialised work array as a function of the index. *)
Definition arr := nat -> R.
Definition aset (a : arr) (i : nat) (v : R) : arr := fun j => if Nat.eqb j i then v else a j.

(** Line 934 [udf] and lines 939-942: the window weights. *)
Definition udf_of (span df : R) : R := 1854305 / 1000000 / span * df.
Definition sine_weight (udf : R) (l : nat) : R :=
  let w0 := 75 / 100 * udf in
  match l with
  | O => w0
  | _ => let dif := 1570796 / 1000000 * INR l * udf in w0 * (sin dif / dif) ^ 4
  end.

(** Lines 944-948: the power at bin [k]; the first and last bins are not doubled. *)
Definition power (x : list R) (T : R) (k : nat) : R :=
  if Nat.eqb k 0 || Nat.eqb k (length x - 1) then nth k x 0 ^ 2 / T else 2 * nth k x 0 ^ 2 / T.

(** Lines 962-963: the powers shifted by [ll - 1]. *)
Definition shifted (x : list R) (T : R) (ll : nat) : arr :=
  fun i => if Nat.leb (ll - 1) i && Nat.ltb (i - (ll - 1)) (length x) then power x T (i - (ll - 1)) else 0.

(** Lines 965-970: the convolution, for [lmax - 1 <= k < le]; lines 972-973 zero the
    rest up to [ln + lmax]. *)
Definition spread_power (w : nat -> R) (g1 : arr) (lmax le : nat) : arr :=
  fun k => if Nat.leb (lmax - 1) k && Nat.ltb k le
           then w 0%nat * g1 k + rsum (map (fun l => w l * (g1 (k - l)%nat + g1 (k + l)%nat)) (seq 1 (lmax - 1)))
           else 0.

(** Lines 975-977: one step of the folding loop. *)
Definition fold_step (ll ln : nat) (g2 : arr) (l : nat) : arr :=
  let a := aset g2 (ll + l - 1) (g2 (ll + l - 1)%nat + g2 (ll - l - 2)%nat) in
  aset a (ln - l - 2) (a (ll - l - 2)%nat + a (ln + l + 1)%nat).

(** The whole function.  A frequency step that is not positive is outside this model
    except that fewer than two rows raise.  All indices stay below [ln + lmax], which is
    the one that can pass the end of the work arrays (lines 957-960, 972, 977). *)
Definition sine_smooth (s : signal) (span : R) : res (list R) :=
  let! df := first_step s in
  if Reqb span 0 then Err ZeroDivisionError
  else
    let x := vals s in
    let nfold := length x in
    let T := 1 / df in
    let udf := udf_of span df in
    let lz := (Int_part (2 / udf) + 1)%Z in
    if (lz <? 0)%Z then Err ValueError
    else if (lz =? 0)%Z then Err IndexError
    else
      let lmax := Z.to_nat lz in
      let ll := (lmax * 2 - 1)%nat in
      let ln := (ll - 1 + nfold)%nat in
      let lt := ((ll - 1) * 2 + nfold)%nat in
      let le := (lt - lmax + 1)%nat in
      let size := if Nat.ltb 4497 lt then lt else 4497%nat in
      if Nat.leb size (ln + lmax) then Err IndexError
      else
        let g2 := fold_left (fold_step ll ln) (seq 1 (lmax - 1)) (spread_power (sine_weight udf) (shifted x T ll) lmax le) in
        Ok (map (fun k => let g := g2 (ll - 1 + k)%nat in
                          if Nat.eqb k 0 || Nat.eqb k (nfold - 1) then sqrt (g * T) else sqrt (g * T / 2)) (seq 0 nfold)).
