(** Model of the spectra and scalar getters of class_Vs_profile.py. *)
From Coq Require Import Reals List Bool ZArith.
From Coquelicot Require Import Complex.
From Coq Require Import List.
From Verif Require Import Base M_generic M_profile M_vs_profile M_motion M_linear M_freqspec.
Import ListNotations.
Open Scope list_scope.
Open Scope R_scope.

(** [np.column_stack((freq, values))] handed to [Frequency_Spectrum] without options; a real
    column is a complex one without imaginary parts. *)
Definition stacked (f : list R) (v : list C) : res fspec := fs_init (CD2 (combine f v)) None None.

(** class_Vs_profile.py:274-315 [get_ampl_function] (no figure): outcrop, borehole, incident. *)
Definition get_ampl_function (h : heap) (p : vsobj) (freq_resolution fmax : R) : res (fspec * fspec * fspec) :=
  let! r := linear_tf (tbl h (o_tbl p)) freq_resolution fmax in
  let! ro := stacked (lr_freq r) (map RtoC (lr_AF_ro r)) in
  let! bh := stacked (lr_freq r) (map RtoC (lr_AF_bh r)) in
  let! inc := stacked (lr_freq r) (map RtoC (lr_AF_in r)) in
  Ok (ro, bh, inc).

(** class_Vs_profile.py:317-349 [get_transfer_function] (no figure). *)
Definition get_transfer_function (h : heap) (p : vsobj) (freq_resolution fmax : R) : res (fspec * fspec * fspec) :=
  let! r := linear_tf (tbl h (o_tbl p)) freq_resolution fmax in
  let! ro := stacked (lr_freq r) (lr_TF_ro r) in
  let! bh := stacked (lr_freq r) (lr_TF_bh r) in
  let! inc := stacked (lr_freq r) (lr_TF_in r) in
  Ok (ro, bh, inc).

(** class_Vs_profile.py:351-371 [get_f0_RO], [get_f0_BH]: the defaults 0.05 and 30 of
    lines 277-278. *)
Definition get_f0_RO (h : heap) (p : vsobj) : res R :=
  let! s := get_ampl_function h p (5 / 100) 30 in get_f0 (fst (fst s)).
Definition get_f0_BH (h : heap) (p : vsobj) : res R :=
  let! s := get_ampl_function h p (5 / 100) 30 in get_f0 (snd (fst s)).

(** class_Vs_profile.py:613-631 [get_basin_depth] and 633-642 [get_z1]: the first two columns
    of the stored table. *)
Definition layers (t : table) : list layer := map (fun r => (cell 0 r, cell 1 r)) (t_rows t).
Definition get_basin_depth (h : heap) (p : vsobj) (bedrock_Vs : R) : res R := calc_basin_depth (layers (tbl h (o_tbl p))) bedrock_Vs.
Definition get_z1 (h : heap) (p : vsobj) : res R := calc_z1 (layers (tbl h (o_tbl p))).
