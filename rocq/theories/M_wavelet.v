(** Model of the wavelet baseline correction of helper_gof_scores.py:490-537 and
    905-1015, and of the two small helpers of lines 540-588.

    [pywt.Wavelet] is an argument: it maps a name to the decomposition filters, or
    raises.  Arithmetic is over the reals. *)
From Coq Require Import Reals List Bool ZArith String.
From Verif Require Import Base M_generic M_motion.
Import ListNotations.
Open Scope list_scope.
Open Scope R_scope.

(** The sample that [mode='wrap'] finds at index [z]. *)
Definition ext (x : list R) (z : Z) : R := nth (Z.to_nat (z mod Z.of_nat (List.length x))) x 0.

(** [sum_k w[k] v[z + k]] *)
Fixpoint corr (w : list R) (v : Z -> R) (z : Z) : R :=
  match w with [] => 0 | c :: w' => c * v z + corr w' v (z + 1)%Z end.

(** [scipy.ndimage.convolve1d(x, ker, mode='wrap', origin=origin)]: the weights are
    reversed, the origin changes sign (and moves by one for an even List.length), and
    the correlation checks that the origin lies within the weights.  Used for a
    non-empty [x]; an empty list of weights (RuntimeError) is not modelled. *)
Definition convolve1d (x ker : list R) (origin : Z) : res (list R) :=
  let L := Z.of_nat (List.length ker) in
  let o := (- origin - (if Z.even L then 1 else 0))%Z in
  assert! Z.leb 0 (L / 2 + o) && Z.ltb (L / 2 + o) L else ValueError in
  Ok (map (fun l => corr (rev ker) (ext x) (Z.of_nat l - L / 2 - o)%Z) (seq 0 (List.length x))).

(** Sum of two lists, the shorter one padded with zeros. *)
Fixpoint padd (a b : list R) : list R :=
  match a, b with [], _ => b | _, [] => a | x :: a', y :: b' => (x + y) :: padd a' b' end.
(** [np.convolve] (full): polynomial multiplication. *)
Fixpoint npconvolve (a b : list R) : list R :=
  match a with [] => [] | x :: a' => padd (map (Rmult x) b) (0 :: npconvolve a' b) end.

(** helper_gof_scores.py:905-915 [upArrow_op]: [2^(j-1) - 1] zeros between the
    elements; [[1]] for j = 0. *)
Fixpoint up_list (s : nat) (l : list R) : list R :=
  match l with [] => [] | x :: l' => match l' with [] => [x] | _ => x :: repeat 0 (s - 1) ++ up_list s l' end end.
Definition upArrow_op (l : list R) (j : nat) : list R := match j with O => [1] | S j' => up_list (2 ^ j') l end.

(** Lines 918-931 [period_list]: pad to the next multiple of N (a full period when
    already a multiple), then add the periods up. *)
Fixpoint add_rows (N k : nat) (l : list R) : list R :=
  match k with O => [] | S k' => padd (firstn N l) (add_rows N k' (skipn N l)) end.
Definition period_list (l : list R) (N : nat) : list R :=
  let l' := l ++ repeat 0 (N - List.length l mod N) in
  if Nat.ltb (List.length l') (2 * N) then l' else add_rows N (List.length l' / N) l'.

(** Lines 934-938 [circular_convolve_mra]. *)
Definition circular_convolve_mra (h_o w : list R) : res (list R) :=
  convolve1d w (rev h_o) ((Z.of_nat (List.length h_o) - 1) / 2)%Z.

(** Lines 941-952 [circular_convolve_d]: the kernel has [2^(j-1) - 1] zeros after
    each element, the last included. *)
Definition ker_list (s : nat) (h : list R) : list R := List.concat (map (fun x => x :: repeat 0 (s - 1)) h).
Definition circular_convolve_d (h_t v : list R) (j : nat) : res (list R) :=
  let ker := ker_list (2 ^ (j - 1)) h_t in
  convolve1d v ker ((- Z.of_nat (List.length ker)) / 2)%Z.

(** Lines 955-975 [modwt]: rows from level [j] on. *)
Fixpoint modwt_from (h_t g_t v : list R) (j n : nat) : res (list (list R)) :=
  match n with
  | O => Ok [v]
  | S n' => let! w := circular_convolve_d h_t v (j + 1) in
            let! v' := circular_convolve_d g_t v (j + 1) in
            let! r := modwt_from h_t g_t v' (j + 1) n' in Ok (w :: r)
  end.
Definition scaled (c : R) (l : list R) : list R := map (fun x => x / c) l.
Section Wavelet.
Variable Wavelet : string -> res (list R * list R).
(** The pair is [(dec_hi, dec_lo)]; a negative level runs no loop. *)
Definition modwt (x : list R) (name : string) (level : Z) : res (list (list R)) :=
  let! f := Wavelet name in modwt_from (scaled (sqrt 2) (fst f)) (scaled (sqrt 2) (snd f)) x 0 (Z.to_nat level).

(** Lines 978-1015 [modwtmra]; [2 ** (k / 2.0)] is written [sqrt 2 ^ k]. *)
Fixpoint mra_from (h g part : list R) (rows : list (list R)) (j : nat) (N : nat) : res (list (list R)) :=
  match rows with
  | [] => Err ValueError (* not reached: there is always a last row *)
  | [v] => let g_j := npconvolve part (upArrow_op g j) in
           let! s := circular_convolve_mra (period_list (scaled (sqrt 2 ^ j) g_j) N) v in Ok [s]
  | w :: rows' =>
      let part' := npconvolve part (upArrow_op g j) in
      let h_j := npconvolve part' (upArrow_op h (j + 1)) in
      let h_t := if Nat.eqb j 0 then scaled (sqrt 2) h else scaled (sqrt 2 ^ (j + 1)) h_j in
      let! d := circular_convolve_mra (period_list h_t N) w in
      let! r := mra_from h g part' rows' (j + 1) N in Ok (d :: r)
  end.
Definition modwtmra (w : list (list R)) (name : string) : res (list (list R)) :=
  let! f := Wavelet name in mra_from (fst f) (snd f) [1] w 0 (List.length (hd [] w)).

(** [np.sum(mra, axis=0)] *)
Definition sum_rows (N : nat) (rows : list (list R)) : list R :=
  fold_right (fun r acc => map (fun p => fst p + snd p) (combine r acc)) (repeat 0 N) rows.
(** Line 531 [mra[-1, :] = zeros]. *)
Definition clear_last (rows : list (list R)) : list (list R) := removelast rows ++ [map (fun _ => 0) (last rows [])].

(** Lines 490-537 [baseline_wavelet]; an empty signal is not modelled. *)
Definition baseline_wavelet (sg : signal) (level : Z) (name : string) : res signal :=
  let x := vals sg in
  let! c := modwt x name level in
  let! m := modwtmra c name in
  Ok (combine (map fst sg) (sum_rows (List.length x) (clear_last m))).
End Wavelet.

(** Lines 564-588 [getAbsPeak] of an array with one, two or more columns. *)
Definition getAbsPeak (rows : list (list R)) (ncol : nat) : res R :=
  let peak l := match l with [] => Err ValueError | _ => Ok (fold_right Rmax 0 (map Rabs l)) end in
  if Nat.eqb ncol 1 then peak (List.concat rows)
  else if Nat.eqb ncol 2 then peak (map (fun r => nth 1 r 0) rows)
  else Err TypeError.
