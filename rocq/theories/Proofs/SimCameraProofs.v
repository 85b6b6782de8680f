(** The field of view of the simulated camera, for C86. *)
From Coq Require Import Reals Lra ZArith.
From Verif.Base Require Import Geom.
From Verif.Model Require Import Pose Simulation.
From Verif.Spec Require Import PinHole SimulationSpec.
Local Open Scope R_scope.

Lemma kinect_axis f c n x z : 0 < f -> 0 < z -> n = 2 * c ->
  0 <= f * (x / z) + c <= n <-> Rabs x <= c / f * z.
Proof.
  intros Hf Hz ->.
  assert (E : f * (x / z) + c = f / z * (x + c / f * z)) by (field; lra).
  assert (F : 2 * c - (f * (x / z) + c) = f / z * (c / f * z - x)) by (field; lra).
  assert (P : 0 < f / z) by (apply Rdiv_lt_0_compat; assumption). set (w := c / f * z) in *.
  split.
  - intros [H1 H2]. assert (0 <= x + w) by (apply (Rmult_le_reg_l (f / z)); lra).
    assert (0 <= w - x) by (apply (Rmult_le_reg_l (f / z)); lra). apply Rabs_le. lra.
  - intros H. assert (-w <= x <= w) by (revert H; unfold Rabs; destruct (Rcase_abs x); lra).
    assert (0 <= f / z * (x + w)) by (apply Rmult_le_pos; lra). assert (0 <= f / z * (w - x)) by (apply Rmult_le_pos; lra). lra.
Qed.
Lemma kinect_view p : visible makeKinectCamera p <->
  0 < vz p /\ Rabs (vx p) <= 32 / 55 * vz p /\ Rabs (vy p) <= 24 / 55 * vz p.
Proof.
  unfold visible, makeKinectCamera, pinhole. cbn [sim_intr sim_width sim_height fx fy cx cy px py].
  assert (X : 32 / 55 = 320 / 550) by field. assert (Y : 24 / 55 = 240 / 550) by field. rewrite X, Y.
  split; intros (Z & A & B); (split; [ exact Z | ]).
  - split; [ apply (kinect_axis 550 320 640) in A | apply (kinect_axis 550 240 480) in B ]; auto; lra.
  - split; [ apply (kinect_axis 550 320 640) | apply (kinect_axis 550 240 480) ]; auto; lra.
Qed.
