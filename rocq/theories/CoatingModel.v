(** Multilayer coatings as the materials of surfaces. *)
From Coq Require Import Reals List Bool ZArith.
From Coquelicot Require Import Coquelicot.
From Verif Require Import Vec Num ComplexModel ProfileModel LayerModel RayModel SurfaceModel.
Open Scope R_scope.

(** _multilayers.py:795-805, [AbstractMultilayerMaterial]: index and attenuation are those of the
    ray; 830-868, [AbstractMultilayerFilm].  NaN in the direction or the normal gives NaN. *)
Definition film (l : alayer) : material :=
  mkMaterial r_index r_attenuation
    (fun r n => obind (r_direction r) (fun d => obind n (fun n =>
       film_efficiency l (r_wavelength r) (r_attenuation r) (r_index r) d n))) false.
(** 902-937, [AbstractMultilayerMirror]; [is_mirror] from [AbstractMirror]. *)
Definition coated (l : alayer) (substrate : option layer) : material :=
  mkMaterial r_index r_attenuation
    (fun r n => obind (r_direction r) (fun d => obind n (fun n =>
       mirror_efficiency l substrate (r_wavelength r) (r_attenuation r) (r_index r) d n))) true.
