(** C48: the parameter blocks of kinematic calibration. *)
From Coq Require Import Reals ZArith String List.
From Verif.Base Require Import Geom Outcome Matrix.
From Verif.Model Require Import Pose Covariance Solver HandEye DhChain LocalParam Kinematic.
From Verif.Spec Require Import FreezeSpec KinSpec KinReport.
From Verif.Proofs Require Import HandEyeProofs DhProofs KinematicProofs KinematicCall MoreExamples.
Import ListNotations.
Local Open Scope R_scope.

(** The four helpers describe the same eight blocks in the same order. *)
Theorem C48_same_blocks :
  forall p0 p1 p2 p3 p4 p5 p6 p7 (cl tl : list (list string)) l2 l3 l4 l5 l6 l7 masks,
  NoDup [p0; p1; p2; p3; p4; p5; p6; p7] -> length masks = 8%nat ->
  (forall l, In l cl -> length l = 4%nat) -> (forall l, In l tl -> length l = 4%nat) ->
  let ps := constructParameters p0 p1 p2 p3 p4 p5 p6 p7 in
  exists labels pmasks names,
    constructParameterLabels ps cl tl l2 l3 l4 l5 l6 l7 = Ok labels /\
    constructParameterMasks ps masks = Ok pmasks /\ constructParameterNames ps = Ok names /\
    keys labels = ps /\ keys pmasks = ps /\ keys names = ps /\
    map snd pmasks = masks /\ map (fun x => length (snd x)) labels =
      [length cl * 4; length tl * 4; length l2; length l3; length l4; length l5; length l6; length l7]%nat /\
    map snd names =
      ["Camera DH Parameters"; "Target DH Parameters";
       "Camera Mount to Camera Position Parameters"; "Camera Mount to Camera Orientation Parameters";
       "Target Mount to Target Position Parameters"; "Target Mount to Target Orientation Parameters";
       "Camera Chain Base to Target Chain Base Position Parameters";
       "Camera Chain Base to Target Chain Base Orientation Parameters"]%string.
Proof. exact pointers_line_up. Qed.
Print Assumptions C48_same_blocks.

(** The solver is given the right problem ([right_problem]: block sizes, constant elements, residuals
    and priors), started at the guesses, and the result is read from the blocks it returns. *)
Theorem C48_solver_problem_2d3d :
  forall cov params, lists_blocks cov -> masks_fit (k2_common params) ->
  exists residuals p,
  right_problem (k2_common params)
    (fun e => map (reproject (k2_intr params) (k2_common params) e) (kin_pairs (k2_observations params))) residuals p /\
  forall u solve m s r, solve residuals p (kin_memory0 (k2_common params)) = (m, s) ->
    kin_optimize2D3D u solve cov params = Ok r ->
    same_estimate (result_estimate r) (stored_estimate (k2_common params) m) /\ kr_converged r = term_convergence s /\
    exists vs, mapM (fun f : kin_residual => f (kin_memory0 (k2_common params))) residuals = Ok vs /\
      let n := INR (length (concat vs)) in
      kr_initial_cost_per_obs r = initial_cost s / n /\ kr_final_cost_per_obs r = final_cost s / n.
Proof. exact kin2_right. Qed.
Print Assumptions C48_solver_problem_2d3d.

Theorem C48_solver_problem_pose :
  forall cov params w, lists_blocks cov -> masks_fit (k6_common params) ->
  exists residuals p,
  right_problem (k6_common params)
    (fun e => map (pose_error w (k6_common params) e) (k6_observations params)) residuals p /\
  forall u solve m s r, solve residuals p (kin_memory0 (k6_common params)) = (m, s) ->
    kin_optimizePose6D u solve cov params w = Ok r ->
    same_estimate (result_estimate r) (stored_estimate (k6_common params) m) /\ kr_converged r = term_convergence s /\
    exists vs, mapM (fun f : kin_residual => f (kin_memory0 (k6_common params))) residuals = Ok vs /\
      let n := INR (length (concat vs)) in
      kr_initial_cost_per_obs r = initial_cost s / n /\ kr_final_cost_per_obs r = final_cost s / n.
Proof. exact kin6_right. Qed.
Print Assumptions C48_solver_problem_pose.

(** The start stores exactly the guesses and no offsets. *)
Theorem C48_starts_at_guesses :
  forall com, guesses_plain com -> same_estimate (stored_estimate com (kin_memory0 com)) (guess_estimate com).
Proof. exact start_estimate. Qed.
Print Assumptions C48_starts_at_guesses.

(** Masked offsets stay zero and masked poses stay at their guesses, for every solver that leaves
    constant parameters alone; [kin_optimize] is the common body of the two optimizations. *)
Theorem C48_common_body :
  (forall u solve cov params, exists blocks,
     kin_optimize2D3D u solve cov params = kin_optimize u solve cov (k2_common params) blocks) /\
  (forall u solve cov params w, exists blocks,
     kin_optimizePose6D u solve cov params w = kin_optimize u solve cov (k6_common params) blocks).
Proof. exact (conj (fun u s c p => ex_intro _ _ (kin2_eq u s c p)) (fun u s c p w => ex_intro _ _ (kin6_eq u s c p w))). Qed.
Print Assumptions C48_common_body.

Theorem C48_masked_offsets_zero :
  forall u solve cov com blocks r cm tm, lists_blocks cov -> masks_fit com -> keeps_frozen solve ->
  nth 0 (kc_mask com) [] = createDHMask (dof (kc_camera_chain com)) cm ->
  nth 1 (kc_mask com) [] = createDHMask (dof (kc_target_chain com)) tm ->
  kin_optimize u solve cov com blocks = Ok r ->
  (forall i j, (i < dof (kc_camera_chain com))%nat -> (j < 4)%nat -> cm i j = true ->
     ent (kr_camera_chain_dh_offsets r) i j = 0) /\
  (forall i j, (i < dof (kc_target_chain com))%nat -> (j < 4)%nat -> tm i j = true ->
     ent (kr_target_chain_dh_offsets r) i j = 0).
Proof. exact dh_masked_zero. Qed.
Print Assumptions C48_masked_offsets_zero.

Theorem C48_masked_poses_kept :
  forall u solve cov com blocks r, lists_blocks cov -> masks_fit com -> keeps_frozen solve -> guesses_plain com ->
  kin_optimize u solve cov com blocks = Ok r ->
  ((forall k i, k = 2%nat \/ k = 3%nat -> (i < 3)%nat -> masked com k i) ->
     kr_camera_mount_to_camera r = kc_camera_mount_to_camera_guess com) /\
  ((forall k i, k = 4%nat \/ k = 5%nat -> (i < 3)%nat -> masked com k i) ->
     kr_target_mount_to_target r = kc_target_mount_to_target_guess com) /\
  ((forall k i, k = 6%nat \/ k = 7%nat -> (i < 3)%nat -> masked com k i) ->
     kr_camera_base_to_target_base r = kc_camera_base_to_target_base_guess com).
Proof. exact masked_pose_kept. Qed.
Print Assumptions C48_masked_poses_kept.

(** Calls succeed if there is something to fit and the solver's covariance computation works ... *)
Theorem C48_succeeds_2d3d :
  forall u solve cov params, lists_blocks cov -> masks_fit (k2_common params) ->
  (forall b, co_compute cov b = true) -> (forall b, co_get cov b = true) ->
  (forall b i c j, co_cov cov b i c j = co_cov cov c j b i) ->
  kin_pairs (k2_observations params) <> [] ->
  (forall oc, In oc (kin_pairs (k2_observations params)) ->
     (length (ko_camera_chain_joints (fst oc)) <= dof (kc_camera_chain (k2_common params)))%nat /\
     known_types (kc_camera_chain (k2_common params)) (length (ko_camera_chain_joints (fst oc))) /\
     (length (ko_target_chain_joints (fst oc)) <= dof (kc_target_chain (k2_common params)))%nat /\
     known_types (kc_target_chain (k2_common params)) (length (ko_target_chain_joints (fst oc)))) ->
  exists r, kin_optimize2D3D u solve cov params = Ok r.
Proof. exact kin2_succeeds. Qed.
Print Assumptions C48_succeeds_2d3d.

Theorem C48_succeeds_pose :
  forall u solve cov params w, lists_blocks cov -> masks_fit (k6_common params) ->
  (forall b, co_compute cov b = true) -> (forall b, co_get cov b = true) ->
  (forall b i c j, co_cov cov b i c j = co_cov cov c j b i) ->
  k6_observations params <> [] ->
  (forall o, In o (k6_observations params) ->
     (length (km_camera_chain_joints o) <= dof (kc_camera_chain (k6_common params)))%nat /\
     known_types (kc_camera_chain (k6_common params)) (length (km_camera_chain_joints o)) /\
     (length (km_target_chain_joints o) <= dof (kc_target_chain (k6_common params)))%nat /\
     known_types (kc_target_chain (k6_common params)) (length (km_target_chain_joints o))) ->
  exists r, kin_optimizePose6D u solve cov params w = Ok r.
Proof. exact kin6_succeeds. Qed.
Print Assumptions C48_succeeds_pose.

(** ... and abort the process if there is no correspondence at all. *)
Theorem C48_empty_aborts :
  forall u solve cov params, lists_blocks cov -> length (kc_mask (k2_common params)) = 8%nat ->
  kin_pairs (k2_observations params) = [] -> kin_optimize2D3D u solve cov params = UB.
Proof. exact kin2_empty. Qed.
Print Assumptions C48_empty_aborts.

(** Two problems, one with two jointed chains and one with a fixed camera. *)
Example C48_example : forall u solve w,
  (exists r, kin_optimizePose6D u solve ex_cov_oracle (ex_kin ex_chain [3; 5]%Z [1; 1/2]) w = Ok r) /\
  (exists r, kin_optimizePose6D u solve ex_cov_oracle (ex_kin fixed_chain [] []) w = Ok r).
Proof. exact ex_kin_ok. Qed.
Example C48_example_masks : masks_fit (ex_kin_common ex_chain [3; 5]%Z).
Proof. exact (ex_kin_masks ex_chain [3; 5]%Z ltac:(cbn; intros z [<-|[<-|[]]]; split; [ discriminate | reflexivity | discriminate | reflexivity ])). Qed.
Example C48_example_guesses : guesses_plain (ex_kin_common ex_chain [3; 5]%Z).
Proof. exact (ex_kin_guesses ex_chain [3; 5]%Z). Qed.
Example C48_example_oracle : lists_blocks ex_cov_oracle.
Proof. exact ex_oracle_lists. Qed.
(** A problem on pictures, and a solver that leaves everything alone *)
Example C48_example_2d3d : forall u solve, exists r, kin_optimize2D3D u solve ex_cov_oracle ex_kin2 = Ok r.
Proof. exact ex_kin2_ok. Qed.
Example C48_example_2d3d_masks : masks_fit (k2_common ex_kin2).
Proof. exact ex_kin2_masks. Qed.
Example C48_example_held : exists r, kin_optimize2D3D (fun _ _ => 0) (KinematicExample.run_solve KinRunProofs.still_run) ex_cov_oracle ex_kin2 = Ok r /\
  keeps_frozen (KinematicExample.run_solve KinRunProofs.still_run) /\
  nth 0 (kc_mask (k2_common ex_kin2)) [] = createDHMask (dof (kc_camera_chain (k2_common ex_kin2))) last_row /\
  (forall k i, k = 2%nat \/ k = 3%nat -> (i < 3)%nat -> masked (k2_common ex_kin2) k i).
Proof. exact ex_kin2_held. Qed.
