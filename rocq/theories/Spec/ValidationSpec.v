(** Vocabulary for the validation of camera intrinsics. *)
From Coq Require Import Reals String List.
From Verif.Base Require Import Geom Outcome.
From Verif.Model Require Import Pose HandEye Pnp IntrinsicValidation.
Import ListNotations.
Local Open Scope R_scope.

(** The PnP fit of a group of correspondences returned [r]. *)
Definition fitted (run : pnp_run) (k : intrinsics) (guess : iso) (cs : list (correspondence vec2)) (r : pnp_result) : Prop :=
  optimizePnP (run_u run) (run_solve run) (run_cov run) (PnP2 k cs guess "camera_to_target") = Ok r.
(** The fit converged and its cost per observation does not exceed the threshold. *)
Definition good_fit (threshold : R) (r : pnp_result) : Prop :=
  pnp_converged r = true /\ pnp_final_cost_per_obs r <= threshold.
(** All observations have the same number of correspondences. *)
Definition equal_sizes (os : list (observation vec2)) : Prop :=
  forall o o', In o os -> In o' os -> List.length (correspondence_set o) = List.length (correspondence_set o').
(** The transforms of the results that converged. *)
Definition solutions (rs : list pnp_result) : list iso := map pnp_camera_to_target (filter pnp_converged rs).
