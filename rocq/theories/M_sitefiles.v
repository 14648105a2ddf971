(** Generated by tools/gen_sitefiles.py: the names of the average tables and axes
    in the two data directories of /repo/PySeismoSoil/data (the directory listing;
    the unused [_std] files are left out). *)
From Coq Require Import List String.
Import ListNotations.
Open Scope string_scope.

(** /repo/PySeismoSoil/data/amplification/ *)
Definition amplif_files : list string := [
  "175_008_af_fs_eq_hh_avg.csv"; "175_008_af_fs_nl_hh_avg.csv"; "175_008_af_rs_eq_hh_avg.csv"; "175_008_af_rs_nl_hh_avg.csv";
  "175_008_freq.csv"; "175_008_period.csv"; "175_016_af_fs_eq_hh_avg.csv"; "175_016_af_fs_nl_hh_avg.csv";
  "175_016_af_rs_eq_hh_avg.csv"; "175_016_af_rs_nl_hh_avg.csv"; "175_016_freq.csv"; "175_016_period.csv";
  "175_024_af_fs_eq_hh_avg.csv"; "175_024_af_fs_nl_hh_avg.csv"; "175_024_af_rs_eq_hh_avg.csv"; "175_024_af_rs_nl_hh_avg.csv";
  "175_024_freq.csv"; "175_024_period.csv"; "175_036_af_fs_eq_hh_avg.csv"; "175_036_af_fs_nl_hh_avg.csv";
  "175_036_af_rs_eq_hh_avg.csv"; "175_036_af_rs_nl_hh_avg.csv"; "175_036_freq.csv"; "175_036_period.csv";
  "175_075_af_fs_eq_hh_avg.csv"; "175_075_af_fs_nl_hh_avg.csv"; "175_075_af_rs_eq_hh_avg.csv"; "175_075_af_rs_nl_hh_avg.csv";
  "175_075_freq.csv"; "175_075_period.csv"; "175_150_af_fs_eq_hh_avg.csv"; "175_150_af_fs_nl_hh_avg.csv";
  "175_150_af_rs_eq_hh_avg.csv"; "175_150_af_rs_nl_hh_avg.csv"; "175_150_freq.csv"; "175_150_period.csv";
  "175_300_af_fs_eq_hh_avg.csv"; "175_300_af_fs_nl_hh_avg.csv"; "175_300_af_rs_eq_hh_avg.csv"; "175_300_af_rs_nl_hh_avg.csv";
  "175_300_freq.csv"; "175_300_period.csv"; "175_450_af_fs_eq_hh_avg.csv"; "175_450_af_fs_nl_hh_avg.csv";
  "175_450_af_rs_eq_hh_avg.csv"; "175_450_af_rs_nl_hh_avg.csv"; "175_450_freq.csv"; "175_450_period.csv";
  "175_600_af_fs_eq_hh_avg.csv"; "175_600_af_fs_nl_hh_avg.csv"; "175_600_af_rs_eq_hh_avg.csv"; "175_600_af_rs_nl_hh_avg.csv";
  "175_600_freq.csv"; "175_600_period.csv"; "175_900_af_fs_eq_hh_avg.csv"; "175_900_af_fs_nl_hh_avg.csv";
  "175_900_af_rs_eq_hh_avg.csv"; "175_900_af_rs_nl_hh_avg.csv"; "175_900_freq.csv"; "175_900_period.csv";
  "200_008_af_fs_eq_hh_avg.csv"; "200_008_af_fs_nl_hh_avg.csv"; "200_008_af_rs_eq_hh_avg.csv"; "200_008_af_rs_nl_hh_avg.csv";
  "200_008_freq.csv"; "200_008_period.csv"; "200_016_af_fs_eq_hh_avg.csv"; "200_016_af_fs_nl_hh_avg.csv";
  "200_016_af_rs_eq_hh_avg.csv"; "200_016_af_rs_nl_hh_avg.csv"; "200_016_freq.csv"; "200_016_period.csv";
  "200_024_af_fs_eq_hh_avg.csv"; "200_024_af_fs_nl_hh_avg.csv"; "200_024_af_rs_eq_hh_avg.csv"; "200_024_af_rs_nl_hh_avg.csv";
  "200_024_freq.csv"; "200_024_period.csv"; "200_036_af_fs_eq_hh_avg.csv"; "200_036_af_fs_nl_hh_avg.csv";
  "200_036_af_rs_eq_hh_avg.csv"; "200_036_af_rs_nl_hh_avg.csv"; "200_036_freq.csv"; "200_036_period.csv";
  "200_075_af_fs_eq_hh_avg.csv"; "200_075_af_fs_nl_hh_avg.csv"; "200_075_af_rs_eq_hh_avg.csv"; "200_075_af_rs_nl_hh_avg.csv";
  "200_075_freq.csv"; "200_075_period.csv"; "200_150_af_fs_eq_hh_avg.csv"; "200_150_af_fs_nl_hh_avg.csv";
  "200_150_af_rs_eq_hh_avg.csv"; "200_150_af_rs_nl_hh_avg.csv"; "200_150_freq.csv"; "200_150_period.csv";
  "200_300_af_fs_eq_hh_avg.csv"; "200_300_af_fs_nl_hh_avg.csv"; "200_300_af_rs_eq_hh_avg.csv"; "200_300_af_rs_nl_hh_avg.csv";
  "200_300_freq.csv"; "200_300_period.csv"; "200_450_af_fs_eq_hh_avg.csv"; "200_450_af_fs_nl_hh_avg.csv";
  "200_450_af_rs_eq_hh_avg.csv"; "200_450_af_rs_nl_hh_avg.csv"; "200_450_freq.csv"; "200_450_period.csv";
  "200_600_af_fs_eq_hh_avg.csv"; "200_600_af_fs_nl_hh_avg.csv"; "200_600_af_rs_eq_hh_avg.csv"; "200_600_af_rs_nl_hh_avg.csv";
  "200_600_freq.csv"; "200_600_period.csv"; "200_900_af_fs_eq_hh_avg.csv"; "200_900_af_fs_nl_hh_avg.csv";
  "200_900_af_rs_eq_hh_avg.csv"; "200_900_af_rs_nl_hh_avg.csv"; "200_900_freq.csv"; "200_900_period.csv";
  "250_008_af_fs_eq_hh_avg.csv"; "250_008_af_fs_nl_hh_avg.csv"; "250_008_af_rs_eq_hh_avg.csv"; "250_008_af_rs_nl_hh_avg.csv";
  "250_008_freq.csv"; "250_008_period.csv"; "250_016_af_fs_eq_hh_avg.csv"; "250_016_af_fs_nl_hh_avg.csv";
  "250_016_af_rs_eq_hh_avg.csv"; "250_016_af_rs_nl_hh_avg.csv"; "250_016_freq.csv"; "250_016_period.csv";
  "250_024_af_fs_eq_hh_avg.csv"; "250_024_af_fs_nl_hh_avg.csv"; "250_024_af_rs_eq_hh_avg.csv"; "250_024_af_rs_nl_hh_avg.csv";
  "250_024_freq.csv"; "250_024_period.csv"; "250_036_af_fs_eq_hh_avg.csv"; "250_036_af_fs_nl_hh_avg.csv";
  "250_036_af_rs_eq_hh_avg.csv"; "250_036_af_rs_nl_hh_avg.csv"; "250_036_freq.csv"; "250_036_period.csv";
  "250_075_af_fs_eq_hh_avg.csv"; "250_075_af_fs_nl_hh_avg.csv"; "250_075_af_rs_eq_hh_avg.csv"; "250_075_af_rs_nl_hh_avg.csv";
  "250_075_freq.csv"; "250_075_period.csv"; "250_150_af_fs_eq_hh_avg.csv"; "250_150_af_fs_nl_hh_avg.csv";
  "250_150_af_rs_eq_hh_avg.csv"; "250_150_af_rs_nl_hh_avg.csv"; "250_150_freq.csv"; "250_150_period.csv";
  "250_300_af_fs_eq_hh_avg.csv"; "250_300_af_fs_nl_hh_avg.csv"; "250_300_af_rs_eq_hh_avg.csv"; "250_300_af_rs_nl_hh_avg.csv";
  "250_300_freq.csv"; "250_300_period.csv"; "250_450_af_fs_eq_hh_avg.csv"; "250_450_af_fs_nl_hh_avg.csv";
  "250_450_af_rs_eq_hh_avg.csv"; "250_450_af_rs_nl_hh_avg.csv"; "250_450_freq.csv"; "250_450_period.csv";
  "250_600_af_fs_eq_hh_avg.csv"; "250_600_af_fs_nl_hh_avg.csv"; "250_600_af_rs_eq_hh_avg.csv"; "250_600_af_rs_nl_hh_avg.csv";
  "250_600_freq.csv"; "250_600_period.csv"; "250_900_af_fs_eq_hh_avg.csv"; "250_900_af_fs_nl_hh_avg.csv";
  "250_900_af_rs_eq_hh_avg.csv"; "250_900_af_rs_nl_hh_avg.csv"; "250_900_freq.csv"; "250_900_period.csv";
  "300_008_af_fs_eq_hh_avg.csv"; "300_008_af_fs_nl_hh_avg.csv"; "300_008_af_rs_eq_hh_avg.csv"; "300_008_af_rs_nl_hh_avg.csv";
  "300_008_freq.csv"; "300_008_period.csv"; "300_016_af_fs_eq_hh_avg.csv"; "300_016_af_fs_nl_hh_avg.csv";
  "300_016_af_rs_eq_hh_avg.csv"; "300_016_af_rs_nl_hh_avg.csv"; "300_016_freq.csv"; "300_016_period.csv";
  "300_024_af_fs_eq_hh_avg.csv"; "300_024_af_fs_nl_hh_avg.csv"; "300_024_af_rs_eq_hh_avg.csv"; "300_024_af_rs_nl_hh_avg.csv";
  "300_024_freq.csv"; "300_024_period.csv"; "300_036_af_fs_eq_hh_avg.csv"; "300_036_af_fs_nl_hh_avg.csv";
  "300_036_af_rs_eq_hh_avg.csv"; "300_036_af_rs_nl_hh_avg.csv"; "300_036_freq.csv"; "300_036_period.csv";
  "300_075_af_fs_eq_hh_avg.csv"; "300_075_af_fs_nl_hh_avg.csv"; "300_075_af_rs_eq_hh_avg.csv"; "300_075_af_rs_nl_hh_avg.csv";
  "300_075_freq.csv"; "300_075_period.csv"; "300_150_af_fs_eq_hh_avg.csv"; "300_150_af_fs_nl_hh_avg.csv";
  "300_150_af_rs_eq_hh_avg.csv"; "300_150_af_rs_nl_hh_avg.csv"; "300_150_freq.csv"; "300_150_period.csv";
  "300_300_af_fs_eq_hh_avg.csv"; "300_300_af_fs_nl_hh_avg.csv"; "300_300_af_rs_eq_hh_avg.csv"; "300_300_af_rs_nl_hh_avg.csv";
  "300_300_freq.csv"; "300_300_period.csv"; "300_450_af_fs_eq_hh_avg.csv"; "300_450_af_fs_nl_hh_avg.csv";
  "300_450_af_rs_eq_hh_avg.csv"; "300_450_af_rs_nl_hh_avg.csv"; "300_450_freq.csv"; "300_450_period.csv";
  "300_600_af_fs_eq_hh_avg.csv"; "300_600_af_fs_nl_hh_avg.csv"; "300_600_af_rs_eq_hh_avg.csv"; "300_600_af_rs_nl_hh_avg.csv";
  "300_600_freq.csv"; "300_600_period.csv"; "300_900_af_fs_eq_hh_avg.csv"; "300_900_af_fs_nl_hh_avg.csv";
  "300_900_af_rs_eq_hh_avg.csv"; "300_900_af_rs_nl_hh_avg.csv"; "300_900_freq.csv"; "300_900_period.csv";
  "350_008_af_fs_eq_hh_avg.csv"; "350_008_af_fs_nl_hh_avg.csv"; "350_008_af_rs_eq_hh_avg.csv"; "350_008_af_rs_nl_hh_avg.csv";
  "350_008_freq.csv"; "350_008_period.csv"; "350_016_af_fs_eq_hh_avg.csv"; "350_016_af_fs_nl_hh_avg.csv";
  "350_016_af_rs_eq_hh_avg.csv"; "350_016_af_rs_nl_hh_avg.csv"; "350_016_freq.csv"; "350_016_period.csv";
  "350_024_af_fs_eq_hh_avg.csv"; "350_024_af_fs_nl_hh_avg.csv"; "350_024_af_rs_eq_hh_avg.csv"; "350_024_af_rs_nl_hh_avg.csv";
  "350_024_freq.csv"; "350_024_period.csv"; "350_036_af_fs_eq_hh_avg.csv"; "350_036_af_fs_nl_hh_avg.csv";
  "350_036_af_rs_eq_hh_avg.csv"; "350_036_af_rs_nl_hh_avg.csv"; "350_036_freq.csv"; "350_036_period.csv";
  "350_075_af_fs_eq_hh_avg.csv"; "350_075_af_fs_nl_hh_avg.csv"; "350_075_af_rs_eq_hh_avg.csv"; "350_075_af_rs_nl_hh_avg.csv";
  "350_075_freq.csv"; "350_075_period.csv"; "350_150_af_fs_eq_hh_avg.csv"; "350_150_af_fs_nl_hh_avg.csv";
  "350_150_af_rs_eq_hh_avg.csv"; "350_150_af_rs_nl_hh_avg.csv"; "350_150_freq.csv"; "350_150_period.csv";
  "350_300_af_fs_eq_hh_avg.csv"; "350_300_af_fs_nl_hh_avg.csv"; "350_300_af_rs_eq_hh_avg.csv"; "350_300_af_rs_nl_hh_avg.csv";
  "350_300_freq.csv"; "350_300_period.csv"; "350_450_af_fs_eq_hh_avg.csv"; "350_450_af_fs_nl_hh_avg.csv";
  "350_450_af_rs_eq_hh_avg.csv"; "350_450_af_rs_nl_hh_avg.csv"; "350_450_freq.csv"; "350_450_period.csv";
  "350_600_af_fs_eq_hh_avg.csv"; "350_600_af_fs_nl_hh_avg.csv"; "350_600_af_rs_eq_hh_avg.csv"; "350_600_af_rs_nl_hh_avg.csv";
  "350_600_freq.csv"; "350_600_period.csv"; "350_900_af_fs_eq_hh_avg.csv"; "350_900_af_fs_nl_hh_avg.csv";
  "350_900_af_rs_eq_hh_avg.csv"; "350_900_af_rs_nl_hh_avg.csv"; "350_900_freq.csv"; "350_900_period.csv";
  "400_008_af_fs_eq_hh_avg.csv"; "400_008_af_fs_nl_hh_avg.csv"; "400_008_af_rs_eq_hh_avg.csv"; "400_008_af_rs_nl_hh_avg.csv";
  "400_008_freq.csv"; "400_008_period.csv"; "400_016_af_fs_eq_hh_avg.csv"; "400_016_af_fs_nl_hh_avg.csv";
  "400_016_af_rs_eq_hh_avg.csv"; "400_016_af_rs_nl_hh_avg.csv"; "400_016_freq.csv"; "400_016_period.csv";
  "400_024_af_fs_eq_hh_avg.csv"; "400_024_af_fs_nl_hh_avg.csv"; "400_024_af_rs_eq_hh_avg.csv"; "400_024_af_rs_nl_hh_avg.csv";
  "400_024_freq.csv"; "400_024_period.csv"; "400_036_af_fs_eq_hh_avg.csv"; "400_036_af_fs_nl_hh_avg.csv";
  "400_036_af_rs_eq_hh_avg.csv"; "400_036_af_rs_nl_hh_avg.csv"; "400_036_freq.csv"; "400_036_period.csv";
  "400_075_af_fs_eq_hh_avg.csv"; "400_075_af_fs_nl_hh_avg.csv"; "400_075_af_rs_eq_hh_avg.csv"; "400_075_af_rs_nl_hh_avg.csv";
  "400_075_freq.csv"; "400_075_period.csv"; "400_150_af_fs_eq_hh_avg.csv"; "400_150_af_fs_nl_hh_avg.csv";
  "400_150_af_rs_eq_hh_avg.csv"; "400_150_af_rs_nl_hh_avg.csv"; "400_150_freq.csv"; "400_150_period.csv";
  "400_300_af_fs_eq_hh_avg.csv"; "400_300_af_fs_nl_hh_avg.csv"; "400_300_af_rs_eq_hh_avg.csv"; "400_300_af_rs_nl_hh_avg.csv";
  "400_300_freq.csv"; "400_300_period.csv"; "400_450_af_fs_eq_hh_avg.csv"; "400_450_af_fs_nl_hh_avg.csv";
  "400_450_af_rs_eq_hh_avg.csv"; "400_450_af_rs_nl_hh_avg.csv"; "400_450_freq.csv"; "400_450_period.csv";
  "400_600_af_fs_eq_hh_avg.csv"; "400_600_af_fs_nl_hh_avg.csv"; "400_600_af_rs_eq_hh_avg.csv"; "400_600_af_rs_nl_hh_avg.csv";
  "400_600_freq.csv"; "400_600_period.csv"; "400_900_af_fs_eq_hh_avg.csv"; "400_900_af_fs_nl_hh_avg.csv";
  "400_900_af_rs_eq_hh_avg.csv"; "400_900_af_rs_nl_hh_avg.csv"; "400_900_freq.csv"; "400_900_period.csv";
  "450_008_af_fs_eq_hh_avg.csv"; "450_008_af_fs_nl_hh_avg.csv"; "450_008_af_rs_eq_hh_avg.csv"; "450_008_af_rs_nl_hh_avg.csv";
  "450_008_freq.csv"; "450_008_period.csv"; "450_016_af_fs_eq_hh_avg.csv"; "450_016_af_fs_nl_hh_avg.csv";
  "450_016_af_rs_eq_hh_avg.csv"; "450_016_af_rs_nl_hh_avg.csv"; "450_016_freq.csv"; "450_016_period.csv";
  "450_024_af_fs_eq_hh_avg.csv"; "450_024_af_fs_nl_hh_avg.csv"; "450_024_af_rs_eq_hh_avg.csv"; "450_024_af_rs_nl_hh_avg.csv";
  "450_024_freq.csv"; "450_024_period.csv"; "450_036_af_fs_eq_hh_avg.csv"; "450_036_af_fs_nl_hh_avg.csv";
  "450_036_af_rs_eq_hh_avg.csv"; "450_036_af_rs_nl_hh_avg.csv"; "450_036_freq.csv"; "450_036_period.csv";
  "450_075_af_fs_eq_hh_avg.csv"; "450_075_af_fs_nl_hh_avg.csv"; "450_075_af_rs_eq_hh_avg.csv"; "450_075_af_rs_nl_hh_avg.csv";
  "450_075_freq.csv"; "450_075_period.csv"; "450_150_af_fs_eq_hh_avg.csv"; "450_150_af_fs_nl_hh_avg.csv";
  "450_150_af_rs_eq_hh_avg.csv"; "450_150_af_rs_nl_hh_avg.csv"; "450_150_freq.csv"; "450_150_period.csv";
  "450_300_af_fs_eq_hh_avg.csv"; "450_300_af_fs_nl_hh_avg.csv"; "450_300_af_rs_eq_hh_avg.csv"; "450_300_af_rs_nl_hh_avg.csv";
  "450_300_freq.csv"; "450_300_period.csv"; "450_450_af_fs_eq_hh_avg.csv"; "450_450_af_fs_nl_hh_avg.csv";
  "450_450_af_rs_eq_hh_avg.csv"; "450_450_af_rs_nl_hh_avg.csv"; "450_450_freq.csv"; "450_450_period.csv";
  "450_600_af_fs_eq_hh_avg.csv"; "450_600_af_fs_nl_hh_avg.csv"; "450_600_af_rs_eq_hh_avg.csv"; "450_600_af_rs_nl_hh_avg.csv";
  "450_600_freq.csv"; "450_600_period.csv"; "450_900_af_fs_eq_hh_avg.csv"; "450_900_af_fs_nl_hh_avg.csv";
  "450_900_af_rs_eq_hh_avg.csv"; "450_900_af_rs_nl_hh_avg.csv"; "450_900_freq.csv"; "450_900_period.csv";
  "500_008_af_fs_eq_hh_avg.csv"; "500_008_af_fs_nl_hh_avg.csv"; "500_008_af_rs_eq_hh_avg.csv"; "500_008_af_rs_nl_hh_avg.csv";
  "500_008_freq.csv"; "500_008_period.csv"; "500_016_af_fs_eq_hh_avg.csv"; "500_016_af_fs_nl_hh_avg.csv";
  "500_016_af_rs_eq_hh_avg.csv"; "500_016_af_rs_nl_hh_avg.csv"; "500_016_freq.csv"; "500_016_period.csv";
  "500_024_af_fs_eq_hh_avg.csv"; "500_024_af_fs_nl_hh_avg.csv"; "500_024_af_rs_eq_hh_avg.csv"; "500_024_af_rs_nl_hh_avg.csv";
  "500_024_freq.csv"; "500_024_period.csv"; "500_036_af_fs_eq_hh_avg.csv"; "500_036_af_fs_nl_hh_avg.csv";
  "500_036_af_rs_eq_hh_avg.csv"; "500_036_af_rs_nl_hh_avg.csv"; "500_036_freq.csv"; "500_036_period.csv";
  "500_075_af_fs_eq_hh_avg.csv"; "500_075_af_fs_nl_hh_avg.csv"; "500_075_af_rs_eq_hh_avg.csv"; "500_075_af_rs_nl_hh_avg.csv";
  "500_075_freq.csv"; "500_075_period.csv"; "500_150_af_fs_eq_hh_avg.csv"; "500_150_af_fs_nl_hh_avg.csv";
  "500_150_af_rs_eq_hh_avg.csv"; "500_150_af_rs_nl_hh_avg.csv"; "500_150_freq.csv"; "500_150_period.csv";
  "500_300_af_fs_eq_hh_avg.csv"; "500_300_af_fs_nl_hh_avg.csv"; "500_300_af_rs_eq_hh_avg.csv"; "500_300_af_rs_nl_hh_avg.csv";
  "500_300_freq.csv"; "500_300_period.csv"; "500_450_af_fs_eq_hh_avg.csv"; "500_450_af_fs_nl_hh_avg.csv";
  "500_450_af_rs_eq_hh_avg.csv"; "500_450_af_rs_nl_hh_avg.csv"; "500_450_freq.csv"; "500_450_period.csv";
  "500_600_af_fs_eq_hh_avg.csv"; "500_600_af_fs_nl_hh_avg.csv"; "500_600_af_rs_eq_hh_avg.csv"; "500_600_af_rs_nl_hh_avg.csv";
  "500_600_freq.csv"; "500_600_period.csv"; "550_008_af_fs_eq_hh_avg.csv"; "550_008_af_fs_nl_hh_avg.csv";
  "550_008_af_rs_eq_hh_avg.csv"; "550_008_af_rs_nl_hh_avg.csv"; "550_008_freq.csv"; "550_008_period.csv";
  "550_016_af_fs_eq_hh_avg.csv"; "550_016_af_fs_nl_hh_avg.csv"; "550_016_af_rs_eq_hh_avg.csv"; "550_016_af_rs_nl_hh_avg.csv";
  "550_016_freq.csv"; "550_016_period.csv"; "550_024_af_fs_eq_hh_avg.csv"; "550_024_af_fs_nl_hh_avg.csv";
  "550_024_af_rs_eq_hh_avg.csv"; "550_024_af_rs_nl_hh_avg.csv"; "550_024_freq.csv"; "550_024_period.csv";
  "550_036_af_fs_eq_hh_avg.csv"; "550_036_af_fs_nl_hh_avg.csv"; "550_036_af_rs_eq_hh_avg.csv"; "550_036_af_rs_nl_hh_avg.csv";
  "550_036_freq.csv"; "550_036_period.csv"; "550_075_af_fs_eq_hh_avg.csv"; "550_075_af_fs_nl_hh_avg.csv";
  "550_075_af_rs_eq_hh_avg.csv"; "550_075_af_rs_nl_hh_avg.csv"; "550_075_freq.csv"; "550_075_period.csv";
  "550_150_af_fs_eq_hh_avg.csv"; "550_150_af_fs_nl_hh_avg.csv"; "550_150_af_rs_eq_hh_avg.csv"; "550_150_af_rs_nl_hh_avg.csv";
  "550_150_freq.csv"; "550_150_period.csv"; "550_300_af_fs_eq_hh_avg.csv"; "550_300_af_fs_nl_hh_avg.csv";
  "550_300_af_rs_eq_hh_avg.csv"; "550_300_af_rs_nl_hh_avg.csv"; "550_300_freq.csv"; "550_300_period.csv";
  "550_450_af_fs_eq_hh_avg.csv"; "550_450_af_fs_nl_hh_avg.csv"; "550_450_af_rs_eq_hh_avg.csv"; "550_450_af_rs_nl_hh_avg.csv";
  "550_450_freq.csv"; "550_450_period.csv"; "550_600_af_fs_eq_hh_avg.csv"; "550_600_af_fs_nl_hh_avg.csv";
  "550_600_af_rs_eq_hh_avg.csv"; "550_600_af_rs_nl_hh_avg.csv"; "550_600_freq.csv"; "550_600_period.csv";
  "600_008_af_fs_eq_hh_avg.csv"; "600_008_af_fs_nl_hh_avg.csv"; "600_008_af_rs_eq_hh_avg.csv"; "600_008_af_rs_nl_hh_avg.csv";
  "600_008_freq.csv"; "600_008_period.csv"; "600_016_af_fs_eq_hh_avg.csv"; "600_016_af_fs_nl_hh_avg.csv";
  "600_016_af_rs_eq_hh_avg.csv"; "600_016_af_rs_nl_hh_avg.csv"; "600_016_freq.csv"; "600_016_period.csv";
  "600_024_af_fs_eq_hh_avg.csv"; "600_024_af_fs_nl_hh_avg.csv"; "600_024_af_rs_eq_hh_avg.csv"; "600_024_af_rs_nl_hh_avg.csv";
  "600_024_freq.csv"; "600_024_period.csv"; "600_036_af_fs_eq_hh_avg.csv"; "600_036_af_fs_nl_hh_avg.csv";
  "600_036_af_rs_eq_hh_avg.csv"; "600_036_af_rs_nl_hh_avg.csv"; "600_036_freq.csv"; "600_036_period.csv";
  "600_075_af_fs_eq_hh_avg.csv"; "600_075_af_fs_nl_hh_avg.csv"; "600_075_af_rs_eq_hh_avg.csv"; "600_075_af_rs_nl_hh_avg.csv";
  "600_075_freq.csv"; "600_075_period.csv"; "600_150_af_fs_eq_hh_avg.csv"; "600_150_af_fs_nl_hh_avg.csv";
  "600_150_af_rs_eq_hh_avg.csv"; "600_150_af_rs_nl_hh_avg.csv"; "600_150_freq.csv"; "600_150_period.csv";
  "600_300_af_fs_eq_hh_avg.csv"; "600_300_af_fs_nl_hh_avg.csv"; "600_300_af_rs_eq_hh_avg.csv"; "600_300_af_rs_nl_hh_avg.csv";
  "600_300_freq.csv"; "600_300_period.csv"; "600_450_af_fs_eq_hh_avg.csv"; "600_450_af_fs_nl_hh_avg.csv";
  "600_450_af_rs_eq_hh_avg.csv"; "600_450_af_rs_nl_hh_avg.csv"; "600_450_freq.csv"; "600_450_period.csv";
  "650_008_af_fs_eq_hh_avg.csv"; "650_008_af_fs_nl_hh_avg.csv"; "650_008_af_rs_eq_hh_avg.csv"; "650_008_af_rs_nl_hh_avg.csv";
  "650_008_freq.csv"; "650_008_period.csv"; "650_016_af_fs_eq_hh_avg.csv"; "650_016_af_fs_nl_hh_avg.csv";
  "650_016_af_rs_eq_hh_avg.csv"; "650_016_af_rs_nl_hh_avg.csv"; "650_016_freq.csv"; "650_016_period.csv";
  "650_024_af_fs_eq_hh_avg.csv"; "650_024_af_fs_nl_hh_avg.csv"; "650_024_af_rs_eq_hh_avg.csv"; "650_024_af_rs_nl_hh_avg.csv";
  "650_024_freq.csv"; "650_024_period.csv"; "650_036_af_fs_eq_hh_avg.csv"; "650_036_af_fs_nl_hh_avg.csv";
  "650_036_af_rs_eq_hh_avg.csv"; "650_036_af_rs_nl_hh_avg.csv"; "650_036_freq.csv"; "650_036_period.csv";
  "650_075_af_fs_eq_hh_avg.csv"; "650_075_af_fs_nl_hh_avg.csv"; "650_075_af_rs_eq_hh_avg.csv"; "650_075_af_rs_nl_hh_avg.csv";
  "650_075_freq.csv"; "650_075_period.csv"; "650_150_af_fs_eq_hh_avg.csv"; "650_150_af_fs_nl_hh_avg.csv";
  "650_150_af_rs_eq_hh_avg.csv"; "650_150_af_rs_nl_hh_avg.csv"; "650_150_freq.csv"; "650_150_period.csv";
  "650_300_af_fs_eq_hh_avg.csv"; "650_300_af_fs_nl_hh_avg.csv"; "650_300_af_rs_eq_hh_avg.csv"; "650_300_af_rs_nl_hh_avg.csv";
  "650_300_freq.csv"; "650_300_period.csv"; "700_008_af_fs_eq_hh_avg.csv"; "700_008_af_fs_nl_hh_avg.csv";
  "700_008_af_rs_eq_hh_avg.csv"; "700_008_af_rs_nl_hh_avg.csv"; "700_008_freq.csv"; "700_008_period.csv";
  "700_016_af_fs_eq_hh_avg.csv"; "700_016_af_fs_nl_hh_avg.csv"; "700_016_af_rs_eq_hh_avg.csv"; "700_016_af_rs_nl_hh_avg.csv";
  "700_016_freq.csv"; "700_016_period.csv"; "700_024_af_fs_eq_hh_avg.csv"; "700_024_af_fs_nl_hh_avg.csv";
  "700_024_af_rs_eq_hh_avg.csv"; "700_024_af_rs_nl_hh_avg.csv"; "700_024_freq.csv"; "700_024_period.csv";
  "700_036_af_fs_eq_hh_avg.csv"; "700_036_af_fs_nl_hh_avg.csv"; "700_036_af_rs_eq_hh_avg.csv"; "700_036_af_rs_nl_hh_avg.csv";
  "700_036_freq.csv"; "700_036_period.csv"; "700_075_af_fs_eq_hh_avg.csv"; "700_075_af_fs_nl_hh_avg.csv";
  "700_075_af_rs_eq_hh_avg.csv"; "700_075_af_rs_nl_hh_avg.csv"; "700_075_freq.csv"; "700_075_period.csv";
  "700_150_af_fs_eq_hh_avg.csv"; "700_150_af_fs_nl_hh_avg.csv"; "700_150_af_rs_eq_hh_avg.csv"; "700_150_af_rs_nl_hh_avg.csv";
  "700_150_freq.csv"; "700_150_period.csv"; "750_008_af_fs_eq_hh_avg.csv"; "750_008_af_fs_nl_hh_avg.csv";
  "750_008_af_rs_eq_hh_avg.csv"; "750_008_af_rs_nl_hh_avg.csv"; "750_008_freq.csv"; "750_008_period.csv";
  "750_016_af_fs_eq_hh_avg.csv"; "750_016_af_fs_nl_hh_avg.csv"; "750_016_af_rs_eq_hh_avg.csv"; "750_016_af_rs_nl_hh_avg.csv";
  "750_016_freq.csv"; "750_016_period.csv"; "750_024_af_fs_eq_hh_avg.csv"; "750_024_af_fs_nl_hh_avg.csv";
  "750_024_af_rs_eq_hh_avg.csv"; "750_024_af_rs_nl_hh_avg.csv"; "750_024_freq.csv"; "750_024_period.csv";
  "750_036_af_fs_eq_hh_avg.csv"; "750_036_af_fs_nl_hh_avg.csv"; "750_036_af_rs_eq_hh_avg.csv"; "750_036_af_rs_nl_hh_avg.csv";
  "750_036_freq.csv"; "750_036_period.csv"; "750_075_af_fs_eq_hh_avg.csv"; "750_075_af_fs_nl_hh_avg.csv";
  "750_075_af_rs_eq_hh_avg.csv"; "750_075_af_rs_nl_hh_avg.csv"; "750_075_freq.csv"; "750_075_period.csv";
  "750_150_af_fs_eq_hh_avg.csv"; "750_150_af_fs_nl_hh_avg.csv"; "750_150_af_rs_eq_hh_avg.csv"; "750_150_af_rs_nl_hh_avg.csv";
  "750_150_freq.csv"; "750_150_period.csv"; "800_008_af_fs_eq_hh_avg.csv"; "800_008_af_fs_nl_hh_avg.csv";
  "800_008_af_rs_eq_hh_avg.csv"; "800_008_af_rs_nl_hh_avg.csv"; "800_008_freq.csv"; "800_008_period.csv";
  "800_016_af_fs_eq_hh_avg.csv"; "800_016_af_fs_nl_hh_avg.csv"; "800_016_af_rs_eq_hh_avg.csv"; "800_016_af_rs_nl_hh_avg.csv";
  "800_016_freq.csv"; "800_016_period.csv"; "800_024_af_fs_eq_hh_avg.csv"; "800_024_af_fs_nl_hh_avg.csv";
  "800_024_af_rs_eq_hh_avg.csv"; "800_024_af_rs_nl_hh_avg.csv"; "800_024_freq.csv"; "800_024_period.csv";
  "800_036_af_fs_eq_hh_avg.csv"; "800_036_af_fs_nl_hh_avg.csv"; "800_036_af_rs_eq_hh_avg.csv"; "800_036_af_rs_nl_hh_avg.csv";
  "800_036_freq.csv"; "800_036_period.csv"; "800_075_af_fs_eq_hh_avg.csv"; "800_075_af_fs_nl_hh_avg.csv";
  "800_075_af_rs_eq_hh_avg.csv"; "800_075_af_rs_nl_hh_avg.csv"; "800_075_freq.csv"; "800_075_period.csv";
  "850_008_af_fs_eq_hh_avg.csv"; "850_008_af_fs_nl_hh_avg.csv"; "850_008_af_rs_eq_hh_avg.csv"; "850_008_af_rs_nl_hh_avg.csv";
  "850_008_freq.csv"; "850_008_period.csv"; "850_016_af_fs_eq_hh_avg.csv"; "850_016_af_fs_nl_hh_avg.csv";
  "850_016_af_rs_eq_hh_avg.csv"; "850_016_af_rs_nl_hh_avg.csv"; "850_016_freq.csv"; "850_016_period.csv";
  "850_024_af_fs_eq_hh_avg.csv"; "850_024_af_fs_nl_hh_avg.csv"; "850_024_af_rs_eq_hh_avg.csv"; "850_024_af_rs_nl_hh_avg.csv";
  "850_024_freq.csv"; "850_024_period.csv"; "850_036_af_fs_eq_hh_avg.csv"; "850_036_af_fs_nl_hh_avg.csv";
  "850_036_af_rs_eq_hh_avg.csv"; "850_036_af_rs_nl_hh_avg.csv"; "850_036_freq.csv"; "850_036_period.csv";
  "900_008_af_fs_eq_hh_avg.csv"; "900_008_af_fs_nl_hh_avg.csv"; "900_008_af_rs_eq_hh_avg.csv"; "900_008_af_rs_nl_hh_avg.csv";
  "900_008_freq.csv"; "900_008_period.csv"; "900_016_af_fs_eq_hh_avg.csv"; "900_016_af_fs_nl_hh_avg.csv";
  "900_016_af_rs_eq_hh_avg.csv"; "900_016_af_rs_nl_hh_avg.csv"; "900_016_freq.csv"; "900_016_period.csv";
  "950_008_af_fs_eq_hh_avg.csv"; "950_008_af_fs_nl_hh_avg.csv"; "950_008_af_rs_eq_hh_avg.csv"; "950_008_af_rs_nl_hh_avg.csv";
  "950_008_freq.csv"; "950_008_period.csv"; "950_016_af_fs_eq_hh_avg.csv"; "950_016_af_fs_nl_hh_avg.csv";
  "950_016_af_rs_eq_hh_avg.csv"; "950_016_af_rs_nl_hh_avg.csv"; "950_016_freq.csv"; "950_016_period.csv"
].

(** /repo/PySeismoSoil/data/phase/ *)
Definition phase_files : list string := [
  "175_008_freq.csv"; "175_008_phase_shift_eq_hh_avg.csv"; "175_016_freq.csv"; "175_016_phase_shift_eq_hh_avg.csv";
  "175_024_freq.csv"; "175_024_phase_shift_eq_hh_avg.csv"; "175_036_freq.csv"; "175_036_phase_shift_eq_hh_avg.csv";
  "175_075_freq.csv"; "175_075_phase_shift_eq_hh_avg.csv"; "175_150_freq.csv"; "175_150_phase_shift_eq_hh_avg.csv";
  "175_300_freq.csv"; "175_300_phase_shift_eq_hh_avg.csv"; "175_450_freq.csv"; "175_450_phase_shift_eq_hh_avg.csv";
  "175_600_freq.csv"; "175_600_phase_shift_eq_hh_avg.csv"; "175_900_freq.csv"; "175_900_phase_shift_eq_hh_avg.csv";
  "200_008_freq.csv"; "200_008_phase_shift_eq_hh_avg.csv"; "200_016_freq.csv"; "200_016_phase_shift_eq_hh_avg.csv";
  "200_024_freq.csv"; "200_024_phase_shift_eq_hh_avg.csv"; "200_036_freq.csv"; "200_036_phase_shift_eq_hh_avg.csv";
  "200_075_freq.csv"; "200_075_phase_shift_eq_hh_avg.csv"; "200_150_freq.csv"; "200_150_phase_shift_eq_hh_avg.csv";
  "200_300_freq.csv"; "200_300_phase_shift_eq_hh_avg.csv"; "200_450_freq.csv"; "200_450_phase_shift_eq_hh_avg.csv";
  "200_600_freq.csv"; "200_600_phase_shift_eq_hh_avg.csv"; "200_900_freq.csv"; "200_900_phase_shift_eq_hh_avg.csv";
  "250_008_freq.csv"; "250_008_phase_shift_eq_hh_avg.csv"; "250_016_freq.csv"; "250_016_phase_shift_eq_hh_avg.csv";
  "250_024_freq.csv"; "250_024_phase_shift_eq_hh_avg.csv"; "250_036_freq.csv"; "250_036_phase_shift_eq_hh_avg.csv";
  "250_075_freq.csv"; "250_075_phase_shift_eq_hh_avg.csv"; "250_150_freq.csv"; "250_150_phase_shift_eq_hh_avg.csv";
  "250_300_freq.csv"; "250_300_phase_shift_eq_hh_avg.csv"; "250_450_freq.csv"; "250_450_phase_shift_eq_hh_avg.csv";
  "250_600_freq.csv"; "250_600_phase_shift_eq_hh_avg.csv"; "250_900_freq.csv"; "250_900_phase_shift_eq_hh_avg.csv";
  "300_008_freq.csv"; "300_008_phase_shift_eq_hh_avg.csv"; "300_016_freq.csv"; "300_016_phase_shift_eq_hh_avg.csv";
  "300_024_freq.csv"; "300_024_phase_shift_eq_hh_avg.csv"; "300_036_freq.csv"; "300_036_phase_shift_eq_hh_avg.csv";
  "300_075_freq.csv"; "300_075_phase_shift_eq_hh_avg.csv"; "300_150_freq.csv"; "300_150_phase_shift_eq_hh_avg.csv";
  "300_300_freq.csv"; "300_300_phase_shift_eq_hh_avg.csv"; "300_450_freq.csv"; "300_450_phase_shift_eq_hh_avg.csv";
  "300_600_freq.csv"; "300_600_phase_shift_eq_hh_avg.csv"; "300_900_freq.csv"; "300_900_phase_shift_eq_hh_avg.csv";
  "350_008_freq.csv"; "350_008_phase_shift_eq_hh_avg.csv"; "350_016_freq.csv"; "350_016_phase_shift_eq_hh_avg.csv";
  "350_024_freq.csv"; "350_024_phase_shift_eq_hh_avg.csv"; "350_036_freq.csv"; "350_036_phase_shift_eq_hh_avg.csv";
  "350_075_freq.csv"; "350_075_phase_shift_eq_hh_avg.csv"; "350_150_freq.csv"; "350_150_phase_shift_eq_hh_avg.csv";
  "350_300_freq.csv"; "350_300_phase_shift_eq_hh_avg.csv"; "350_450_freq.csv"; "350_450_phase_shift_eq_hh_avg.csv";
  "350_600_freq.csv"; "350_600_phase_shift_eq_hh_avg.csv"; "350_900_freq.csv"; "350_900_phase_shift_eq_hh_avg.csv";
  "400_008_freq.csv"; "400_008_phase_shift_eq_hh_avg.csv"; "400_016_freq.csv"; "400_016_phase_shift_eq_hh_avg.csv";
  "400_024_freq.csv"; "400_024_phase_shift_eq_hh_avg.csv"; "400_036_freq.csv"; "400_036_phase_shift_eq_hh_avg.csv";
  "400_075_freq.csv"; "400_075_phase_shift_eq_hh_avg.csv"; "400_150_freq.csv"; "400_150_phase_shift_eq_hh_avg.csv";
  "400_300_freq.csv"; "400_300_phase_shift_eq_hh_avg.csv"; "400_450_freq.csv"; "400_450_phase_shift_eq_hh_avg.csv";
  "400_600_freq.csv"; "400_600_phase_shift_eq_hh_avg.csv"; "400_900_freq.csv"; "400_900_phase_shift_eq_hh_avg.csv";
  "450_008_freq.csv"; "450_008_phase_shift_eq_hh_avg.csv"; "450_016_freq.csv"; "450_016_phase_shift_eq_hh_avg.csv";
  "450_024_freq.csv"; "450_024_phase_shift_eq_hh_avg.csv"; "450_036_freq.csv"; "450_036_phase_shift_eq_hh_avg.csv";
  "450_075_freq.csv"; "450_075_phase_shift_eq_hh_avg.csv"; "450_150_freq.csv"; "450_150_phase_shift_eq_hh_avg.csv";
  "450_300_freq.csv"; "450_300_phase_shift_eq_hh_avg.csv"; "450_450_freq.csv"; "450_450_phase_shift_eq_hh_avg.csv";
  "450_600_freq.csv"; "450_600_phase_shift_eq_hh_avg.csv"; "450_900_freq.csv"; "450_900_phase_shift_eq_hh_avg.csv";
  "500_008_freq.csv"; "500_008_phase_shift_eq_hh_avg.csv"; "500_016_freq.csv"; "500_016_phase_shift_eq_hh_avg.csv";
  "500_024_freq.csv"; "500_024_phase_shift_eq_hh_avg.csv"; "500_036_freq.csv"; "500_036_phase_shift_eq_hh_avg.csv";
  "500_075_freq.csv"; "500_075_phase_shift_eq_hh_avg.csv"; "500_150_freq.csv"; "500_150_phase_shift_eq_hh_avg.csv";
  "500_300_freq.csv"; "500_300_phase_shift_eq_hh_avg.csv"; "500_450_freq.csv"; "500_450_phase_shift_eq_hh_avg.csv";
  "500_600_freq.csv"; "500_600_phase_shift_eq_hh_avg.csv"; "550_008_freq.csv"; "550_008_phase_shift_eq_hh_avg.csv";
  "550_016_freq.csv"; "550_016_phase_shift_eq_hh_avg.csv"; "550_024_freq.csv"; "550_024_phase_shift_eq_hh_avg.csv";
  "550_036_freq.csv"; "550_036_phase_shift_eq_hh_avg.csv"; "550_075_freq.csv"; "550_075_phase_shift_eq_hh_avg.csv";
  "550_150_freq.csv"; "550_150_phase_shift_eq_hh_avg.csv"; "550_300_freq.csv"; "550_300_phase_shift_eq_hh_avg.csv";
  "550_450_freq.csv"; "550_450_phase_shift_eq_hh_avg.csv"; "550_600_freq.csv"; "550_600_phase_shift_eq_hh_avg.csv";
  "600_008_freq.csv"; "600_008_phase_shift_eq_hh_avg.csv"; "600_016_freq.csv"; "600_016_phase_shift_eq_hh_avg.csv";
  "600_024_freq.csv"; "600_024_phase_shift_eq_hh_avg.csv"; "600_036_freq.csv"; "600_036_phase_shift_eq_hh_avg.csv";
  "600_075_freq.csv"; "600_075_phase_shift_eq_hh_avg.csv"; "600_150_freq.csv"; "600_150_phase_shift_eq_hh_avg.csv";
  "600_300_freq.csv"; "600_300_phase_shift_eq_hh_avg.csv"; "600_450_freq.csv"; "600_450_phase_shift_eq_hh_avg.csv";
  "650_008_freq.csv"; "650_008_phase_shift_eq_hh_avg.csv"; "650_016_freq.csv"; "650_016_phase_shift_eq_hh_avg.csv";
  "650_024_freq.csv"; "650_024_phase_shift_eq_hh_avg.csv"; "650_036_freq.csv"; "650_036_phase_shift_eq_hh_avg.csv";
  "650_075_freq.csv"; "650_075_phase_shift_eq_hh_avg.csv"; "650_150_freq.csv"; "650_150_phase_shift_eq_hh_avg.csv";
  "650_300_freq.csv"; "650_300_phase_shift_eq_hh_avg.csv"; "700_008_freq.csv"; "700_008_phase_shift_eq_hh_avg.csv";
  "700_016_freq.csv"; "700_016_phase_shift_eq_hh_avg.csv"; "700_024_freq.csv"; "700_024_phase_shift_eq_hh_avg.csv";
  "700_036_freq.csv"; "700_036_phase_shift_eq_hh_avg.csv"; "700_075_freq.csv"; "700_075_phase_shift_eq_hh_avg.csv";
  "700_150_freq.csv"; "700_150_phase_shift_eq_hh_avg.csv"; "750_008_freq.csv"; "750_008_phase_shift_eq_hh_avg.csv";
  "750_016_freq.csv"; "750_016_phase_shift_eq_hh_avg.csv"; "750_024_freq.csv"; "750_024_phase_shift_eq_hh_avg.csv";
  "750_036_freq.csv"; "750_036_phase_shift_eq_hh_avg.csv"; "750_075_freq.csv"; "750_075_phase_shift_eq_hh_avg.csv";
  "750_150_freq.csv"; "750_150_phase_shift_eq_hh_avg.csv"; "800_008_freq.csv"; "800_008_phase_shift_eq_hh_avg.csv";
  "800_016_freq.csv"; "800_016_phase_shift_eq_hh_avg.csv"; "800_024_freq.csv"; "800_024_phase_shift_eq_hh_avg.csv";
  "800_036_freq.csv"; "800_036_phase_shift_eq_hh_avg.csv"; "800_075_freq.csv"; "800_075_phase_shift_eq_hh_avg.csv";
  "850_008_freq.csv"; "850_008_phase_shift_eq_hh_avg.csv"; "850_016_freq.csv"; "850_016_phase_shift_eq_hh_avg.csv";
  "850_024_freq.csv"; "850_024_phase_shift_eq_hh_avg.csv"; "850_036_freq.csv"; "850_036_phase_shift_eq_hh_avg.csv";
  "900_008_freq.csv"; "900_008_phase_shift_eq_hh_avg.csv"; "900_016_freq.csv"; "900_016_phase_shift_eq_hh_avg.csv";
  "950_008_freq.csv"; "950_008_phase_shift_eq_hh_avg.csv"; "950_016_freq.csv"; "950_016_phase_shift_eq_hh_avg.csv"
].
