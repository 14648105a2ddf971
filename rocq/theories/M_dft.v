(** Model of the discrete Fourier transform: [scipy.fftpack.fft] and [ifft] as used
    by helper_signal_processing.py:538, helper_site_response.py:1591-1626 and
    helper_simulations.py.  The FFT is an algorithm for these sums; its rounding is
    not modelled. *)
From Coq Require Import Reals List Bool ZArith Lia Lra.
From Coquelicot Require Import Complex.
From Coq Require Import List.
Import ListNotations.
Open Scope R_scope.

(** e^{i t} *)
Definition cis (t : R) : C := (cos t, sin t).

(** [sum_{k < n} f k] *)
Fixpoint csum (n : nat) (f : nat -> C) : C :=
  match n with O => RtoC 0 | S n' => Cplus (csum n' f) (f n') end.

(** The angle [2 pi k n / N]. *)
Definition angle (N k n : nat) : R := 2 * PI * (INR k * INR n) / INR N.

(** [fft(x)[k] = sum_n x[n] exp(-2 pi i k n / N)] *)
Definition dft (x : list C) : list C :=
  map (fun k => csum (length x) (fun n => Cmult (nth n x (RtoC 0)) (cis (- angle (length x) k n)))) (seq 0 (length x)).

(** [ifft(X)[n] = 1/N sum_k X[k] exp(2 pi i k n / N)] *)
Definition idft (X : list C) : list C :=
  map (fun n => Cmult (RtoC (/ INR (length X))) (csum (length X) (fun k => Cmult (nth k X (RtoC 0)) (cis (angle (length X) k n))))) (seq 0 (length X)).
