(** The real value of a binary64 number, and of a vector of them. *)
From Coq Require Import Reals Floats.SpecFloat.
From Flocq Require Import Core IEEE754.BinarySingleNaN.
From Verif Require Import Vec SagFloatModel.
Definition exact (x : f64) : R := SF2R radix2 x.
Definition exact_vec (v : fvec) : vec3 := V3 (exact (fx v)) (exact (fy v)) (exact (fz v)).
