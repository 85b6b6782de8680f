(** C24: a perfect planar observation has zero homography error. The linear solver is any one that
    returns a solution whenever the equations have one. *)
From Coq Require Import Reals Arith List.
From Verif.Base Require Import Geom Outcome.
From Verif.Model Require Import Pose HandEye Homography.
From Verif.Spec Require Import PinHole HomographySpec.
From Verif.Proofs Require Import HomographyProofs.
Import ListNotations.
Local Open Scope R_scope.

Theorem C24_perfect_observation :
  forall lu cs l es, exact_solver lu -> calculateHomographyError lu cs l = Ok es ->
  forall H c1 c2 c3 c4 i1 i2 i3 i4, det H <> 0 -> m22 H <> 0 ->
  (forall c, In c cs -> related H c) ->
  incl [i1; i2; i3; i4] l -> nth_error cs i1 = Some c1 -> nth_error cs i2 = Some c2 ->
  nth_error cs i3 = Some c3 -> nth_error cs i4 = Some c4 ->
  general_position (in_target c1) (in_target c2) (in_target c3) (in_target c4) ->
  forall e, In e es -> e = 0.
Proof. exact perfect_zero. Qed.
Print Assumptions C24_perfect_observation.

(** In particular for a flat target seen by a pin-hole camera, or by a sensor that measures points,
    from outside the target's plane. *)
Theorem C24_perfect_camera :
  forall lu cs l es k T c1 c2 c3 c4 i1 i2 i3 i4, exact_solver lu ->
  calculateHomographyError lu cs l = Ok es ->
  fx k <> 0 -> fy k <> 0 -> rigid T -> dot (col2 (lin T)) (tr T) <> 0 -> vz (tr T) <> 0 ->
  (forall c, In c cs -> seen_by_camera k T c) ->
  incl [i1; i2; i3; i4] l -> nth_error cs i1 = Some c1 -> nth_error cs i2 = Some c2 ->
  nth_error cs i3 = Some c3 -> nth_error cs i4 = Some c4 ->
  general_position (in_target c1) (in_target c2) (in_target c3) (in_target c4) ->
  forall e, In e es -> e = 0.
Proof. exact camera_zero. Qed.
Print Assumptions C24_perfect_camera.

Theorem C24_perfect_sensor :
  forall lu cs l es T c1 c2 c3 c4 i1 i2 i3 i4, exact_solver lu ->
  calculateHomographyError3D lu cs l = Ok es ->
  rigid T -> dot (col2 (lin T)) (tr T) <> 0 -> vz (tr T) <> 0 ->
  (forall c, In c cs -> seen_by_sensor T c) ->
  incl [i1; i2; i3; i4] l -> nth_error cs i1 = Some c1 -> nth_error cs i2 = Some c2 ->
  nth_error cs i3 = Some c3 -> nth_error cs i4 = Some c4 ->
  general_position (in_target c1) (in_target c2) (in_target c3) (in_target c4) ->
  forall e, In e es -> e = 0.
Proof. exact sensor_zero. Qed.
Print Assumptions C24_perfect_sensor.

(** If some homography is consistent with the sampled correspondences, the errors are the distances
    to what one such homography predicts, and the sampled ones are zero. *)
Theorem C24_sampled_have_zero_error :
  forall lu cs l es, exact_solver lu -> calculateHomographyError lu cs l = Ok es ->
  (exists H0, m22 H0 = 1 /\ forall i c, In i l -> nth_error cs i = Some c -> fits H0 c) ->
  exists H, m22 H = 1 /\ es = map (transfer_error H) cs /\
    (forall i c, In i l -> nth_error cs i = Some c -> fits H c) /\
    (forall i c, In i l -> nth_error cs i = Some c -> vz (mvec H (plane_point (in_target c))) <> 0 ->
       nth_error es i = Some 0).
Proof. exact sampled_zero. Qed.
Print Assumptions C24_sampled_have_zero_error.

(** Why the origin of the target must have an image ([m22 H <> 0] above): otherwise no homography
    of the form the code looks for is consistent with the samples. *)
Theorem C24_origin_must_be_seen :
  forall H H' cs l c1 c2 c3 c4 i1 i2 i3 i4, det H <> 0 -> m22 H = 0 ->
  (forall c, In c cs -> related H c) ->
  incl [i1; i2; i3; i4] l -> nth_error cs i1 = Some c1 -> nth_error cs i2 = Some c2 ->
  nth_error cs i3 = Some c3 -> nth_error cs i4 = Some c4 ->
  general_position (in_target c1) (in_target c2) (in_target c3) (in_target c4) ->
  m22 H' = 1 -> ~ (forall i c, In i l -> nth_error cs i = Some c -> fits H' c).
Proof. exact origin_unseen. Qed.
Print Assumptions C24_origin_must_be_seen.

(** The 3D variant scales each error with the depth of the observed point. *)
Theorem C24_sensor_errors_scaled :
  forall lu cs l es, calculateHomographyError3D lu cs l = Ok es ->
  exists e2, calculateHomographyError lu
      (map (fun c => Corr (V2 (vx (in_image c) / vz (in_image c)) (vy (in_image c) / vz (in_image c))) (in_target c)) cs) l = Ok e2 /\
    List.length es = List.length cs /\
    forall i c, nth_error cs i = Some c -> exists e, nth_error e2 i = Some e /\ nth_error es i = Some (e * vz (in_image c)).
Proof. exact sensor_scaled. Qed.
Print Assumptions C24_sensor_errors_scaled.

Theorem C24_too_few_throws :
  forall lu cs l, calculateHomographyError lu cs l = Throw RuntimeError <-> (List.length cs < 2 * List.length l)%nat.
Proof. exact homography_throws. Qed.
Print Assumptions C24_too_few_throws.

Theorem C24_returns_one_error_each :
  forall lu cs l,
  (exists es, calculateHomographyError lu cs l = Ok es /\ List.length es = List.length cs) <->
  (2 * List.length l <= List.length cs)%nat /\ Forall (fun i => i < List.length cs)%nat l.
Proof. exact homography_returns. Qed.
Print Assumptions C24_returns_one_error_each.

(** An exact solver exists (Gaussian elimination), and a camera in front of a 2 x 4 grid meets the hypotheses. *)
Example C24_exact_solver : exact_solver (gauss 8).
Proof. exact gauss_exact. Qed.
Example C24_grid_seen : forall c, In c ex_grid -> seen_by_camera (Intr 500 400 320 240) (Iso I3 (V3 0 0 1)) c.
Proof. exact ex_grid_seen. Qed.
Example C24_grid_corners : gridSample 2 4 1 = Ok [0; 3; 4; 7]%nat /\
  general_position (V3 0 0 0) (V3 3 0 0) (V3 0 1 0) (V3 3 1 0) /\
  exists es, calculateHomographyError (gauss 8) ex_grid [0; 3; 4; 7]%nat = Ok es.
Proof. exact ex_grid_corners. Qed.
Example C24_grid_zero : forall es, calculateHomographyError (gauss 8) ex_grid [0; 3; 4; 7]%nat = Ok es -> forall e, In e es -> e = 0.
Proof. exact ex_grid_zero. Qed.
