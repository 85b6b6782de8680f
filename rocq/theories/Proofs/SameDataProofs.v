(** Proofs about one set of hand-eye measurements described in two ways. *)
From Coq Require Import Reals List Permutation Lra Lia.
From Verif.Base Require Import Geom Outcome.
From Verif.Model Require Import Pose Covariance Solver HandEye Pnp.
From Verif.Spec Require Import Frames PinHole PnpSpec UniqueSpec SameDataSpec.
From Verif.Proofs Require Import GeomLemmas HandEyeProofs PnpProofs UniqueProofs ProjectionProofs PoseProofs.
Import ListNotations.
Local Open Scope R_scope.

(** ** Units *)
Lemma in_unit_mul s S T : in_unit s (iso_mul S T) = iso_mul (in_unit s S) (in_unit s T).
Proof. apply iso_ext; [ reflexivity | ]. unfold in_unit, iso_mul, vscale, vadd, mvec. cbn. apply vec3_ext; cbn; ring. Qed.
Lemma in_unit_inv s T : in_unit s (iso_inv T) = iso_inv (in_unit s T).
Proof. apply iso_ext; [ reflexivity | ]. unfold in_unit, iso_inv, vscale, vneg, mvec. cbn. apply vec3_ext; cbn; ring. Qed.
Lemma in_unit_app s T v : iso_app (in_unit s T) (vscale s v) = vscale s (iso_app T v).
Proof. unfold in_unit, iso_app, vscale, vadd, mvec. cbn. apply vec3_ext; cbn; ring. Qed.
Lemma in_unit_rigid s T : rigid T -> rigid (in_unit s T).
Proof. intros H. exact H. Qed.
Lemma in_unit_back s T : s <> 0 -> in_unit s (in_unit (/ s) T) = T.
Proof. intros H. apply iso_ext; [ reflexivity | ]. unfold in_unit, vscale. cbn. apply vec3_ext; cbn; field; exact H. Qed.
Lemma vscale_back s v : s <> 0 -> vscale s (vscale (/ s) v) = v.
Proof. intros H. unfold vscale. apply vec3_ext; cbn; field; exact H. Qed.

Lemma scaled_front s v : 0 < s -> (0 < vz (vscale s v) <-> 0 < vz v).
Proof. intros Hs. unfold vscale. cbn [vz]. split; intros H; [ apply (Rmult_lt_reg_l s); lra | apply Rmult_lt_0_compat; assumption ]. Qed.

(** ** Places *)
Lemma inv_cancel A B : rigid A -> iso_mul A (iso_mul (iso_inv A) B) = B.
Proof. intros H. rewrite <- iso_mul_assoc, iso_inv_r, iso_mul_id_l by exact H. reflexivity. Qed.
Lemma inv_cancel' A B : rigid A -> iso_mul (iso_inv A) (iso_mul A B) = B.
Proof. intros H. rewrite <- iso_mul_assoc, iso_inv_l, iso_mul_id_l by exact H. reflexivity. Qed.
Lemma new_camera_rigid h X : sensible h -> rigid X -> rigid (new_camera h X).
Proof. intros (_ & HC & _) HX. apply rigid_mul; [ apply rigid_inv, HC | apply in_unit_rigid, HX ]. Qed.
Lemma new_target_rigid h Z : sensible h -> rigid Z -> rigid (new_target h Z).
Proof.
  intros (_ & _ & HT & HG) HZ. apply rigid_mul; [ apply rigid_mul; [ apply rigid_inv, HT | apply in_unit_rigid, HZ ] | exact HG ].
Qed.
Lemma seen_same {I J} h (a : sighting I) (b : sighting J) X Z : sensible h -> same_place h a b ->
  rigid X -> rigid (camera_mount a) ->
  seen_at (new_camera h X) (new_target h Z) b = vscale (unit_of_length h) (seen_at X Z a).
Proof.
  intros (Hs & HC & HT & HG) ((B & HB & Ec & Et) & Ep) HX HM. unfold seen_at, target_in_camera.
  rewrite Ec, Et, Ep, <- in_unit_app.
  transitivity (iso_app (iso_mul (in_unit (unit_of_length h) (iso_mul (iso_inv (iso_mul (camera_mount a) X)) (iso_mul (target_mount a) Z)))
    (target_frame h)) (iso_app (iso_inv (target_frame h)) (vscale (unit_of_length h) (point a)))).
  2:{ rewrite iso_app_mul, iso_app_inv_r by exact HG. reflexivity. }
  f_equal. unfold new_camera, new_target. rewrite !iso_mul_assoc, !inv_cancel by assumption.
  rewrite (iso_inv_mul B) by exact HB. rewrite !iso_mul_assoc, inv_cancel' by exact HB.
  rewrite in_unit_mul, in_unit_inv, !in_unit_mul, !iso_mul_assoc. reflexivity.
Qed.
(** Every calibration in the new frames is one of the old frames. *)
Definition old_camera h X := in_unit (/ unit_of_length h) (iso_mul (mount_c h) X).
Definition old_target h Z := in_unit (/ unit_of_length h) (iso_mul (iso_mul (mount_t h) Z) (iso_inv (target_frame h))).
Lemma old_camera_rigid h X : sensible h -> rigid X -> rigid (old_camera h X).
Proof. intros (_ & HC & _) HX. apply in_unit_rigid, rigid_mul; assumption. Qed.
Lemma old_target_rigid h Z : sensible h -> rigid Z -> rigid (old_target h Z).
Proof. intros (_ & _ & HT & HG) HZ. apply in_unit_rigid, rigid_mul; [ apply rigid_mul; assumption | apply rigid_inv, HG ]. Qed.
Lemma new_old_camera h X : sensible h -> new_camera h (old_camera h X) = X.
Proof.
  intros (Hs & HC & _). unfold new_camera, old_camera. rewrite in_unit_back by lra. apply inv_cancel', HC.
Qed.
Lemma new_old_target h Z : sensible h -> new_target h (old_target h Z) = Z.
Proof.
  intros (Hs & _ & HT & HG). unfold new_target, old_target. rewrite in_unit_back by lra.
  rewrite !iso_mul_assoc, iso_inv_l, iso_mul_id_r by exact HG. apply inv_cancel', HT.
Qed.

(** ** Sums of squares *)
Lemma half_squares_app l l' : half_squares (l ++ l') = half_squares l + half_squares l'.
Proof. unfold half_squares. induction l as [|x l IH]; cbn; [ ring | ]. rewrite <- (Rmult_plus_distr_l (/2)) in *. lra. Qed.
Lemma half_squares_perm {A} (f : A -> list R) l l' : Permutation l l' ->
  half_squares (flat_map f l) = half_squares (flat_map f l').
Proof.
  induction 1; cbn; rewrite ?half_squares_app; [ reflexivity | lra | lra | congruence ].
Qed.
Lemma half_squares_scaled {A B} (P : A -> B -> Prop) (f : A -> list R) (g : B -> list R) q l l' :
  Forall2 P l l' -> (forall a b, In a l -> P a b -> half_squares (g b) = q * half_squares (f a)) ->
  half_squares (flat_map g l') = q * half_squares (flat_map f l).
Proof.
  induction 1 as [|a b l l' Pab F IH]; intros H; [ unfold half_squares; cbn; ring | ].
  cbn. rewrite !half_squares_app, IH by (intros; apply H; [ right; assumption | assumption ]).
  rewrite (H a b); [ ring | left; reflexivity | exact Pab ].
Qed.
Lemma half2 a b : half_squares [a; b] = / 2 * (a * a + b * b).
Proof. unfold half_squares. cbn. ring. Qed.
Lemma half3 a b c : half_squares [a; b; c] = / 2 * (a * a + b * b + c * c).
Proof. unfold half_squares. cbn. ring. Qed.

Definition mounted {I} (ss : list (sighting I)) : Prop := forall s, In s ss -> rigid (camera_mount s).

(** ** Images *)
Lemma pinhole_scaled k s m d p : 0 < s -> 0 < vz p ->
  pinhole (resized_camera m d k) (vscale s p) = resized m d (pinhole k p).
Proof.
  intros Hs Hz. unfold pinhole, resized, resized_camera, vscale. cbn. apply vec2_ext; cbn; field; split; lra.
Qed.
Lemma in_view_same h m d ss ss' X Z : sensible h -> mounted ss -> same_images h m d ss ss' ->
  (in_view ss' (new_camera h X) (new_target h Z) /\ rigid X /\ rigid Z <-> in_view ss X Z).
Proof.
  intros Hh Hm (l & Pl & F). split.
  - intros ((_ & _ & V) & HX & HZ). split; [ exact HX | split; [ exact HZ | ] ]. intros a Ia.
    apply In_nth_error in Ia as [n Hn].
    assert (exists b, nth_error l n = Some b /\ same_place h a b) as (b & Hb & Sb).
    { clear - F Hn. revert n Hn. induction F as [|x y l l' [P _] F IH]; intros [|n] Hn; cbn in *; try discriminate; eauto.
      injection Hn as <-. eauto. }
    specialize (V b (Permutation_in _ Pl (nth_error_In _ _ Hb))).
    rewrite (seen_same h a b) in V; try assumption; [ | apply Hm, (nth_error_In _ _ Hn) ].
    apply scaled_front in V; [ exact V | apply Hh ].
  - intros (HX & HZ & V). split; [ | auto ].
    split; [ apply new_camera_rigid; assumption | split; [ apply new_target_rigid; assumption | ] ].
    intros b Ib. apply (Permutation_in _ (Permutation_sym Pl)), In_nth_error in Ib as [n Hn].
    assert (exists a, nth_error ss n = Some a /\ same_place h a b) as (a & Ha & Sb).
    { clear - F Hn. revert n Hn. induction F as [|x y l l' [P _] F IH]; intros [|n] Hn; cbn in *; try discriminate; eauto.
      injection Hn as <-. eauto. }
    rewrite (seen_same h a b); try assumption; [ | apply Hm, (nth_error_In _ _ Ha) ].
    apply scaled_front; [ apply Hh | apply V, (nth_error_In _ _ Ha) ].
Qed.
Lemma image_error_same h m d k ss ss' X Z : sensible h -> mounted ss -> same_images h m d ss ss' -> in_view ss X Z ->
  image_error (resized_camera m d k) ss' (new_camera h X) (new_target h Z) = m * m * image_error k ss X Z.
Proof.
  intros Hh Hm (l & Pl & F) (HX & HZ & V). unfold image_error.
  rewrite <- (half_squares_perm _ _ _ Pl). apply (half_squares_scaled _ _ _ _ _ _ F).
  intros a b Ia (Sp & Em). cbv zeta. rewrite (seen_same h a b); try assumption; [ | apply Hm, Ia ].
  rewrite pinhole_scaled by (apply Hh || apply V, Ia). rewrite Em, !half2. unfold resized. cbn [px py]. field.
Qed.
Lemma best_images_same h m d k ss ss' X Z : sensible h -> mounted ss -> same_images h m d ss ss' ->
  best_for_images k ss X Z -> best_for_images (resized_camera m d k) ss' (new_camera h X) (new_target h Z).
Proof.
  intros Hh Hm S (V & B). split; [ apply (in_view_same h m d ss ss' X Z Hh Hm S), V | ].
  intros X' Z' V'. rewrite <- (new_old_camera h X' Hh), <- (new_old_target h Z' Hh) in V' |- *.
  assert (V0 : in_view ss (old_camera h X') (old_target h Z')).
  { apply (in_view_same h m d ss ss' _ _ Hh Hm S). split; [ exact V' | ].
    rewrite new_old_camera, new_old_target in V' by exact Hh. destruct V' as (RX & RZ & _).
    split; [ apply old_camera_rigid | apply old_target_rigid ]; assumption. }
  rewrite !(image_error_same h m d k ss ss') by assumption. apply Rmult_le_compat_l; [ nra | ]. apply B, V0.
Qed.

(** ** Measured points *)
Lemma moved_back K s p q : rigid K ->
  let a := iso_app (iso_inv K) (vscale s p) in let b := iso_app (iso_inv K) (vscale s q) in
  / 2 * ((vx a - vx b) * (vx a - vx b) + (vy a - vy b) * (vy a - vy b) + (vz a - vz b) * (vz a - vz b)) =
  s * s * (/ 2 * ((vx p - vx q) * (vx p - vx q) + (vy p - vy q) * (vy p - vy q) + (vz p - vz q) * (vz p - vz q))).
Proof.
  intros HK a b.
  assert (D : dot (vsub a b) (vsub a b) = dot (vsub (vscale s p) (vscale s q)) (vsub (vscale s p) (vscale s q))).
  { unfold a, b. rewrite <- !norm_sq, (rigid_dist _ _ _ (rigid_inv _ HK)). reflexivity. }
  unfold dot, vsub in D. cbn [vx vy vz] in D. rewrite D. unfold vscale. cbn [vx vy vz]. ring.
Qed.
Lemma space_error_same h K ss ss' X Z : sensible h -> rigid K -> mounted ss -> same_points h K ss ss' -> rigid X ->
  space_error ss' (iso_mul (new_camera h X) K) (new_target h Z) = unit_of_length h * unit_of_length h * space_error ss X Z.
Proof.
  intros Hh HK Hm (l & Pl & F) HX. unfold space_error.
  rewrite <- (half_squares_perm _ _ _ Pl). apply (half_squares_scaled _ _ _ _ _ _ F).
  intros a b Ia (Sp & Em). cbv zeta.
  assert (E : seen_at (iso_mul (new_camera h X) K) (new_target h Z) b =
              iso_app (iso_inv K) (vscale (unit_of_length h) (seen_at X Z a))).
  { rewrite <- (seen_same h a b) by (try assumption; apply Hm, Ia). unfold seen_at, target_in_camera.
    destruct Sp as ((B & HB & Ec & _) & _).
    assert (HM : rigid (camera_mount b)).
    { rewrite Ec. apply rigid_mul; [ apply rigid_mul; [ exact HB | apply in_unit_rigid, Hm, Ia ] | apply Hh ]. }
    rewrite <- iso_app_mul, <- (iso_mul_assoc (iso_inv K)). do 2 f_equal. rewrite <- iso_mul_assoc.
    apply iso_inv_mul, rigid_mul; [ exact HM | apply new_camera_rigid; assumption ]. }
  rewrite E, Em, !half3. apply moved_back, HK.
Qed.
Lemma best_space_same h K ss ss' X Z : sensible h -> rigid K -> mounted ss -> same_points h K ss ss' ->
  best_in_space ss X Z -> best_in_space ss' (iso_mul (new_camera h X) K) (new_target h Z).
Proof.
  intros Hh HK Hm S (HX & HZ & B).
  split; [ apply rigid_mul; [ apply new_camera_rigid; assumption | exact HK ] | split; [ apply new_target_rigid; assumption | ] ].
  intros X' Z' RX RZ.
  assert (E : X' = iso_mul (new_camera h (old_camera h (iso_mul X' (iso_inv K)))) K).
  { rewrite new_old_camera, iso_mul_assoc, iso_inv_l, iso_mul_id_r by assumption. reflexivity. }
  assert (RO : rigid (old_camera h (iso_mul X' (iso_inv K)))).
  { apply old_camera_rigid; [ exact Hh | ]. apply rigid_mul; [ exact RX | apply rigid_inv, HK ]. }
  rewrite E, <- (new_old_target h Z' Hh), !(space_error_same h K ss ss') by assumption.
  apply Rmult_le_compat_l; [ destruct Hh; nra | ]. apply B; [ exact RO | apply old_target_rigid; assumption ].
Qed.

(** ** The results of the program *)
Lemma sightings_pairs {I} (os : list (observation I)) : sightings os =
  map (fun oc => Sighting (to_camera_mount (fst oc)) (to_target_mount (fst oc)) (in_target (snd oc)) (in_image (snd oc))) (all_pairs os).
Proof.
  unfold sightings, all_pairs. induction os as [|o os IH]; cbn; [ reflexivity | ].
  rewrite map_app, map_map, IH. reflexivity.
Qed.
Lemma plain_mounted {I} (os : list (observation I)) : plain_obs os -> mounted (sightings os).
Proof.
  intros H s Is. rewrite sightings_pairs in Is. apply in_map_iff in Is as ([o c] & <- & Hin). cbn.
  apply in_all_pairs in Hin as [Io _]. apply plain_rigid, H, Io.
Qed.
Lemma flat_map_map {A B C} (f : B -> list C) (g : A -> B) l : flat_map f (map g l) = flat_map (fun x => f (g x)) l.
Proof. induction l as [|x l IH]; cbn; [ reflexivity | f_equal; exact IH ]. Qed.
Lemma flat_map_same {A B} (f g : A -> list B) l : (forall x, In x l -> f x = g x) -> flat_map f l = flat_map g l.
Proof. induction l as [|x l IH]; intros H; cbn; [ reflexivity | ]. rewrite H, IH; firstorder. Qed.
Lemma he_error2 u solve cov p r : honest solve -> optimize2D3D u solve cov p = Ok r -> plain_obs (h2_observations p) ->
  in_view (sightings (h2_observations p)) (he_camera_mount_to_camera r) (he_target_mount_to_target r) ->
  he_final_cost_per_obs r =
  image_error (h2_intr p) (sightings (h2_observations p)) (he_camera_mount_to_camera r) (he_target_mount_to_target r) /
  INR (2 * List.length (sightings (h2_observations p))).
Proof.
  intros Ho E PO (RX & RZ & V). rewrite optimize2D3D_unfold in E. destruct (forallb _ _); [ | discriminate ].
  destruct (he_finish_fields _ _ _ _ _ _ _ E) as (xf & s & Es & _ & Ht & Hm & _ & Hf).
  assert (RC : rigid (poseCalToEigen (fst xf))) by (apply rigid_of_inv; rewrite <- Hm; exact RX).
  rewrite (num_residuals_const _ 2) in Hf by (intros [? ?]; reflexivity). rewrite Hf.
  specialize (Ho (map (blk2 (h2_intr p)) (all_pairs (h2_observations p)))
    (poseEigenToCal (iso_inv (h2_camera_guess p)), poseEigenToCal (h2_target_guess p))). rewrite Es in Ho. rewrite Ho.
  rewrite sightings_pairs, map_length. f_equal. unfold image_error. rewrite !flat_map_map. f_equal.
  apply flat_map_same. intros [o c] Hin. pose proof Hin as Hin'. apply in_all_pairs in Hin as [Io Ic]. unfold blk2, seen_at. cbn [fst snd camera_mount target_mount point measured].
  destruct (PO o Io) as [P1 P2].
  assert (Vz : 0 < vz (iso_app (target_in_camera (he_camera_mount_to_camera r) (to_camera_mount o) (to_target_mount o) (he_target_mount_to_target r)) (in_target c))).
  { apply (V (Sighting (to_camera_mount o) (to_target_mount o) (in_target c) (in_image c))). rewrite sightings_pairs.
    apply (in_map (fun oc => Sighting (to_camera_mount (fst oc)) (to_target_mount (fst oc)) (in_target (snd oc)) (in_image (snd oc))) _ (o, c)), Hin'. }
  destruct xf as [pc pt]. cbn [fst snd] in *.
  rewrite (cost2D3D_physical _ _ _ _ _ (he_camera_mount_to_camera r)); try assumption.
  2:{ rewrite Hm, iso_inv_inv by exact RC. reflexivity. }
  rewrite <- Ht, arr_pinhole by lra. reflexivity.
Qed.
Lemma he_error3 u solve cov p r : honest solve -> optimize3D3D u solve cov p = Ok r -> plain_obs (h3_observations p) ->
  rigid (he_camera_mount_to_camera r) ->
  he_final_cost_per_obs r =
  space_error (sightings (h3_observations p)) (he_camera_mount_to_camera r) (he_target_mount_to_target r) /
  INR (3 * List.length (sightings (h3_observations p))).
Proof.
  intros Ho E PO RX. rewrite optimize3D3D_unfold in E.
  destruct (he_finish_fields _ _ _ _ _ _ _ E) as (xf & s & Es & _ & Ht & Hm & _ & Hf).
  assert (RC : rigid (poseCalToEigen (fst xf))) by (apply rigid_of_inv; rewrite <- Hm; exact RX).
  rewrite (num_residuals_const _ 3) in Hf by (intros [? ?]; reflexivity). rewrite Hf.
  specialize (Ho (map blk3 (all_pairs (h3_observations p)))
    (poseEigenToCal (iso_inv (h3_camera_guess p)), poseEigenToCal (h3_target_guess p))). rewrite Es in Ho. rewrite Ho.
  rewrite sightings_pairs, map_length. f_equal. unfold space_error. rewrite !flat_map_map. f_equal.
  apply flat_map_same. intros [o c] Hin. apply in_all_pairs in Hin as [Io Ic]. unfold blk3, seen_at. cbn [fst snd camera_mount target_mount point measured].
  destruct (PO o Io) as [P1 P2]. destruct xf as [pc pt]. cbn [fst snd] in *.
  rewrite (cost3D3D_physical _ _ _ _ (he_camera_mount_to_camera r)); try assumption.
  2:{ rewrite Hm, iso_inv_inv by exact RC. reflexivity. }
  rewrite <- Ht. reflexivity.
Qed.
Lemma same_length {A} (P : A -> A -> Prop) l l' : (exists m, Permutation m l' /\ Forall2 P l m) -> List.length l = List.length l'.
Proof.
  intros (m & Pm & F). rewrite <- (Permutation_length Pm). clear Pm. induction F; cbn; congruence.
Qed.

Lemma best_images_error k ss X Z X' Z' : best_for_images k ss X Z -> best_for_images k ss X' Z' ->
  image_error k ss X Z = image_error k ss X' Z'.
Proof. intros (V & B) (V' & B'). apply Rle_antisym; [ apply B, V' | apply B', V ]. Qed.
Lemma best_space_error ss X Z X' Z' : best_in_space ss X Z -> best_in_space ss X' Z' ->
  space_error ss X Z = space_error ss X' Z'.
Proof. intros (HX & HZ & B) (HX' & HZ' & B'). apply Rle_antisym; [ apply B | apply B' ]; assumption. Qed.

Lemma he_same_images u solve cov p r u' solve' cov' p' r' h m d :
  honest solve -> honest solve' ->
  optimize2D3D u solve cov p = Ok r -> optimize2D3D u' solve' cov' p' = Ok r' ->
  plain_obs (h2_observations p) -> plain_obs (h2_observations p') ->
  sensible h -> h2_intr p' = resized_camera m d (h2_intr p) ->
  same_images h m d (sightings (h2_observations p)) (sightings (h2_observations p')) ->
  best_for_images (h2_intr p) (sightings (h2_observations p)) (he_camera_mount_to_camera r) (he_target_mount_to_target r) ->
  best_for_images (h2_intr p') (sightings (h2_observations p')) (he_camera_mount_to_camera r') (he_target_mount_to_target r') ->
  he_final_cost_per_obs r' = m * m * he_final_cost_per_obs r /\
  best_for_images (h2_intr p') (sightings (h2_observations p'))
    (new_camera h (he_camera_mount_to_camera r)) (new_target h (he_target_mount_to_target r)).
Proof.
  intros Ho Ho' E E' PO PO' Hh Ek S B B'.
  pose proof (plain_mounted _ PO) as Hm.
  assert (N : best_for_images (h2_intr p') (sightings (h2_observations p'))
    (new_camera h (he_camera_mount_to_camera r)) (new_target h (he_target_mount_to_target r))).
  { rewrite Ek. apply (best_images_same h m d _ _ _ _ _ Hh Hm S B). }
  split; [ | exact N ].
  rewrite (he_error2 _ _ _ _ _ Ho E PO (proj1 B)), (he_error2 _ _ _ _ _ Ho' E' PO' (proj1 B')).
  rewrite (best_images_error _ _ _ _ _ _ B' N), Ek, (image_error_same h m d _ _ _ _ _ Hh Hm S (proj1 B)).
  rewrite (same_length _ _ _ S). unfold Rdiv. ring.
Qed.
Lemma he_same_points u solve cov p r u' solve' cov' p' r' h K :
  honest solve -> honest solve' ->
  optimize3D3D u solve cov p = Ok r -> optimize3D3D u' solve' cov' p' = Ok r' ->
  plain_obs (h3_observations p) -> plain_obs (h3_observations p') ->
  sensible h -> rigid K ->
  same_points h K (sightings (h3_observations p)) (sightings (h3_observations p')) ->
  best_in_space (sightings (h3_observations p)) (he_camera_mount_to_camera r) (he_target_mount_to_target r) ->
  best_in_space (sightings (h3_observations p')) (he_camera_mount_to_camera r') (he_target_mount_to_target r') ->
  he_final_cost_per_obs r' = unit_of_length h * unit_of_length h * he_final_cost_per_obs r /\
  best_in_space (sightings (h3_observations p'))
    (iso_mul (new_camera h (he_camera_mount_to_camera r)) K) (new_target h (he_target_mount_to_target r)).
Proof.
  intros Ho Ho' E E' PO PO' Hh HK S B B'.
  pose proof (plain_mounted _ PO) as Hm. pose proof (best_space_same h K _ _ _ _ Hh HK Hm S B) as N.
  split; [ | exact N ].
  rewrite (he_error3 _ _ _ _ _ Ho E PO (proj1 B)), (he_error3 _ _ _ _ _ Ho' E' PO' (proj1 B')).
  rewrite (best_space_error _ _ _ _ _ B' N), (space_error_same h K _ _ _ _ Hh HK Hm S (proj1 B)).
  rewrite (same_length _ _ _ S). unfold Rdiv. ring.
Qed.

(** A guess is rejected in both descriptions or in none. *)
Lemma behind_sightings os X Z :
  ((exists o c, In o os /\ In c (correspondence_set o) /\
      vz (iso_app (target_in_camera X (to_camera_mount o) (to_target_mount o) Z) (in_target c)) <= 0) <->
   exists s, In s (@sightings vec2 os) /\ vz (seen_at X Z s) <= 0).
Proof.
  split.
  - intros (o & c & Io & Ic & H). exists (Sighting (to_camera_mount o) (to_target_mount o) (in_target c) (in_image c)).
    split; [ | exact H ]. apply in_flat_map. exists o. split; [ exact Io | ]. apply in_map_iff. exists c. auto.
  - intros (s & Is & H). apply in_flat_map in Is as (o & Io & Is). apply in_map_iff in Is as (c & <- & Ic).
    exists o, c. split; [ exact Io | split; [ exact Ic | exact H ] ].
Qed.
Lemma forall2_in_l {A B} (P : A -> B -> Prop) l l' a : Forall2 P l l' -> In a l -> exists b, In b l' /\ P a b.
Proof. induction 1 as [|x y l l' H F IH]; intros []; [ subst; exists y; split; [ left | ]; auto | destruct (IH H0) as (b & Ib & Pb); exists b; split; [ right | ]; auto ]. Qed.
Lemma forall2_in_r {A B} (P : A -> B -> Prop) l l' b : Forall2 P l l' -> In b l' -> exists a, In a l /\ P a b.
Proof. induction 1 as [|x y l l' H F IH]; intros []; [ subst; exists x; split; [ left | ]; auto | destruct (IH H0) as (a & Ia & Pa); exists a; split; [ right | ]; auto ]. Qed.
Lemma he_same_rejection u solve cov p u' solve' cov' p' h m d :
  (forall l, Permutation l (co_order cov l)) -> (forall l, Permutation l (co_order cov' l)) ->
  plain_obs (h2_observations p) -> plain_obs (h2_observations p') ->
  plain_pose (h2_camera_guess p) -> plain_pose (h2_target_guess p) ->
  plain_pose (h2_camera_guess p') -> plain_pose (h2_target_guess p') ->
  sensible h -> same_images h m d (sightings (h2_observations p)) (sightings (h2_observations p')) ->
  h2_camera_guess p' = new_camera h (h2_camera_guess p) -> h2_target_guess p' = new_target h (h2_target_guess p) ->
  (optimize2D3D u solve cov p = Throw RuntimeError <-> optimize2D3D u' solve' cov' p' = Throw RuntimeError).
Proof.
  intros L L' PO PO' G1 G2 G1' G2' Hh (l & Pl & F) E1 E2. pose proof (plain_mounted _ PO) as Hm.
  rewrite !reject_iff, !behind_sightings by assumption.
  assert (Q : forall (a b : sighting vec2), In a (sightings (h2_observations p)) -> same_place h a b ->
    (vz (seen_at (h2_camera_guess p') (h2_target_guess p') b) <= 0 <-> vz (seen_at (h2_camera_guess p) (h2_target_guess p) a) <= 0)).
  { intros a b Ia Sp. rewrite E1, E2, (seen_same h a b); try assumption; [ | apply plain_rigid, G1 | apply Hm, Ia ].
    pose proof (scaled_front (unit_of_length h) (seen_at (h2_camera_guess p) (h2_target_guess p) a) (proj1 Hh)).
    split; intros; apply Rnot_lt_le; intros C; apply H in C; lra. }
  split.
  - intros (a & Ia & H). destruct (forall2_in_l _ _ _ _ F Ia) as (b & Ib & Sp & _). exists b.
    split; [ apply (Permutation_in _ Pl), Ib | apply (Q a b Ia Sp), H ].
  - intros (b & Ib & H). apply (Permutation_in _ (Permutation_sym Pl)) in Ib.
    destruct (forall2_in_r _ _ _ _ F Ib) as (a & Ia & Sp & _). exists a. split; [ exact Ia | apply (Q a b Ia Sp), H ].
Qed.

(** ** One picture *)
Lemma pose_seen s G T v : rigid G -> iso_app (iso_mul (in_unit s T) G) (iso_app (iso_inv G) (vscale s v)) = vscale s (iso_app T v).
Proof. intros HG. rewrite iso_app_mul, iso_app_inv_r, in_unit_app by exact HG. reflexivity. Qed.
Lemma new_old_pose s G T : s <> 0 -> rigid G -> iso_mul (in_unit s (in_unit (/ s) (iso_mul T (iso_inv G)))) G = T.
Proof. intros Hs HG. rewrite in_unit_back, iso_mul_assoc, iso_inv_l, iso_mul_id_r by assumption. reflexivity. Qed.
Lemma pose_front_same s G m d cs cs' T : 0 < s -> rigid G -> same_picture s G m d cs cs' ->
  ((forall c, In c cs' -> 0 < vz (iso_app (iso_mul (in_unit s T) G) (in_target c))) <->
   forall c, In c cs -> 0 < vz (iso_app T (in_target c))).
Proof.
  intros Hs HG (l & Pl & F). split; intros V.
  - intros a Ia. destruct (forall2_in_l _ _ _ _ F Ia) as (b & Ib & E & _).
    specialize (V b (Permutation_in _ Pl Ib)). rewrite E, pose_seen in V by exact HG.
    apply scaled_front in V; assumption.
  - intros b Ib. apply (Permutation_in _ (Permutation_sym Pl)) in Ib.
    destruct (forall2_in_r _ _ _ _ F Ib) as (a & Ia & E & _). rewrite E, pose_seen by exact HG.
    apply scaled_front; [ exact Hs | apply V, Ia ].
Qed.
Lemma pose_error_same s G m d k cs cs' T : 0 < s -> rigid G -> same_picture s G m d cs cs' ->
  (forall c, In c cs -> 0 < vz (iso_app T (in_target c))) ->
  pose_error (resized_camera m d k) cs' (iso_mul (in_unit s T) G) = m * m * pose_error k cs T.
Proof.
  intros Hs HG (l & Pl & F) V. unfold pose_error. rewrite <- (half_squares_perm _ _ _ Pl).
  apply (half_squares_scaled _ _ _ _ _ _ F). intros a b Ia (E & Em). unfold pixel_error. cbv zeta.
  rewrite E, pose_seen, pinhole_scaled, Em, !half2 by (assumption || apply V, Ia). unfold resized. cbn [px py]. field.
Qed.
Lemma best_pose_same s G m d k cs cs' T : 0 < s -> rigid G -> same_picture s G m d cs cs' ->
  best_pose k cs T -> best_pose (resized_camera m d k) cs' (iso_mul (in_unit s T) G).
Proof.
  intros Hs HG S (HT & V & B). split; [ apply rigid_mul; [ apply in_unit_rigid, HT | exact HG ] | split ].
  - apply (pose_front_same s G m d cs cs' T Hs HG S), V.
  - intros T' HT' V'. assert (Hs' : s <> 0) by lra. rewrite <- (new_old_pose s G T' Hs' HG) in V' |- *.
    pose proof (proj1 (pose_front_same s G m d cs cs' _ Hs HG S) V') as V0.
    rewrite !(pose_error_same s G m d k cs cs') by assumption. apply Rmult_le_compat_l; [ nra | ].
    apply B; [ | exact V0 ]. apply in_unit_rigid, rigid_mul; [ exact HT' | apply rigid_inv, HG ].
Qed.
Lemma pose_error3_same s G K cs cs' T : rigid G -> rigid K -> same_cloud s G K cs cs' ->
  pose_error3 cs' (iso_mul (iso_inv K) (iso_mul (in_unit s T) G)) = s * s * pose_error3 cs T.
Proof.
  intros HG HK (l & Pl & F). unfold pose_error3. rewrite <- (half_squares_perm _ _ _ Pl).
  apply (half_squares_scaled _ _ _ _ _ _ F). intros a b Ia (E & Em). unfold point_error. cbv zeta.
  rewrite E, iso_app_mul, pose_seen, Em, !half3 by exact HG. apply moved_back, HK.
Qed.
Lemma best_pose3_same s G K cs cs' T : 0 < s -> rigid G -> rigid K -> same_cloud s G K cs cs' ->
  best_pose3 cs T -> best_pose3 cs' (iso_mul (iso_inv K) (iso_mul (in_unit s T) G)).
Proof.
  intros Hs HG HK S (HT & B).
  split; [ apply rigid_mul; [ apply rigid_inv, HK | apply rigid_mul; [ apply in_unit_rigid, HT | exact HG ] ] | ].
  intros T' HT'. assert (Hs' : s <> 0) by lra.
  assert (E : T' = iso_mul (iso_inv K) (iso_mul (in_unit s (in_unit (/ s) (iso_mul (iso_mul K T') (iso_inv G)))) G)).
  { rewrite new_old_pose, inv_cancel' by assumption. reflexivity. }
  rewrite E, !(pose_error3_same s G K cs cs') by assumption. apply Rmult_le_compat_l; [ nra | ].
  apply B. apply in_unit_rigid, rigid_mul; [ apply rigid_mul; assumption | apply rigid_inv, HG ].
Qed.
Lemma pnp_error2 u solve cov p r : honest solve -> optimizePnP u solve cov p = Ok r ->
  all_in_front (pnp_camera_to_target r) (pnp_correspondences p) ->
  pnp_final_cost_per_obs r = pose_error (pnp_intr p) (pnp_correspondences p) (pnp_camera_to_target r) /
                             INR (2 * List.length (pnp_correspondences p)).
Proof.
  intros Ho E AF. rewrite optimizePnP_unfold in E.
  destruct (pnp_finish_fields _ _ _ _ _ _ _ E) as (x & s & Es & _ & Ht & _ & Hf).
  rewrite (num_residuals_const _ 2) in Hf by reflexivity. rewrite Hf. f_equal.
  specialize (Ho (map (fun c => pnp_cost (pnp_intr p) (in_target c) (in_image c)) (pnp_correspondences p)) (pnp_start (pnp_guess p))).
  rewrite Es in Ho. rewrite Ho. unfold pose_error. rewrite flat_map_map. f_equal. apply flat_map_same. intros c Hc.
  rewrite Ht. apply pnp_cost_pinhole. rewrite <- Ht. apply AF, Hc.
Qed.
Lemma pnp_error3 u solve cov p r : honest solve -> optimizePnP3D u solve cov p = Ok r ->
  pnp_final_cost_per_obs r = pose_error3 (pnp3_correspondences p) (pnp_camera_to_target r) /
                             INR (3 * List.length (pnp3_correspondences p)).
Proof.
  intros Ho E. rewrite optimizePnP3D_unfold in E.
  destruct (pnp_finish_fields _ _ _ _ _ _ _ E) as (x & s & Es & _ & Ht & _ & Hf).
  rewrite (num_residuals_const _ 3) in Hf by reflexivity. rewrite Hf. f_equal.
  specialize (Ho (map (fun c => pnp_cost3D (in_target c) (in_image c)) (pnp3_correspondences p)) (pnp_start (pnp3_guess p))).
  rewrite Es in Ho. rewrite Ho. unfold pose_error3. rewrite flat_map_map. f_equal. apply flat_map_same. intros c Hc.
  rewrite Ht. reflexivity.
Qed.
Lemma pnp_same_picture u solve cov p r u' solve' cov' p' r' s G m d :
  honest solve -> honest solve' -> optimizePnP u solve cov p = Ok r -> optimizePnP u' solve' cov' p' = Ok r' ->
  all_in_front (pnp_camera_to_target r) (pnp_correspondences p) ->
  all_in_front (pnp_camera_to_target r') (pnp_correspondences p') ->
  0 < s -> rigid G -> pnp_intr p' = resized_camera m d (pnp_intr p) ->
  same_picture s G m d (pnp_correspondences p) (pnp_correspondences p') ->
  best_pose (pnp_intr p) (pnp_correspondences p) (pnp_camera_to_target r) ->
  best_pose (pnp_intr p') (pnp_correspondences p') (pnp_camera_to_target r') ->
  pnp_final_cost_per_obs r' = m * m * pnp_final_cost_per_obs r /\
  best_pose (pnp_intr p') (pnp_correspondences p') (iso_mul (in_unit s (pnp_camera_to_target r)) G).
Proof.
  intros Ho Ho' E E' AF AF' Hs HG Ek S B B'.
  assert (N : best_pose (pnp_intr p') (pnp_correspondences p') (iso_mul (in_unit s (pnp_camera_to_target r)) G)).
  { rewrite Ek. apply (best_pose_same s G m d _ _ _ _ Hs HG S B). }
  split; [ | exact N ]. rewrite (pnp_error2 _ _ _ _ _ Ho E AF), (pnp_error2 _ _ _ _ _ Ho' E' AF').
  replace (pose_error (pnp_intr p') (pnp_correspondences p') (pnp_camera_to_target r'))
    with (m * m * pose_error (pnp_intr p) (pnp_correspondences p) (pnp_camera_to_target r)).
  - rewrite (same_length _ _ _ S). unfold Rdiv. ring.
  - rewrite <- (pose_error_same s G m d _ _ _ _ Hs HG S (proj1 (proj2 B))), <- Ek.
    destruct N as (N1 & N2 & N3), B' as (B1 & B2 & B3). apply Rle_antisym; [ apply N3 | apply B3 ]; assumption.
Qed.
Lemma pnp_same_cloud u solve cov p r u' solve' cov' p' r' s G K :
  honest solve -> honest solve' -> optimizePnP3D u solve cov p = Ok r -> optimizePnP3D u' solve' cov' p' = Ok r' ->
  0 < s -> rigid G -> rigid K ->
  same_cloud s G K (pnp3_correspondences p) (pnp3_correspondences p') ->
  best_pose3 (pnp3_correspondences p) (pnp_camera_to_target r) ->
  best_pose3 (pnp3_correspondences p') (pnp_camera_to_target r') ->
  pnp_final_cost_per_obs r' = s * s * pnp_final_cost_per_obs r /\
  best_pose3 (pnp3_correspondences p') (iso_mul (iso_inv K) (iso_mul (in_unit s (pnp_camera_to_target r)) G)).
Proof.
  intros Ho Ho' E E' Hs HG HK S B B'.
  pose proof (best_pose3_same s G K _ _ _ Hs HG HK S B) as N.
  split; [ | exact N ]. rewrite (pnp_error3 _ _ _ _ _ Ho E), (pnp_error3 _ _ _ _ _ Ho' E').
  replace (pose_error3 (pnp3_correspondences p') (pnp_camera_to_target r'))
    with (s * s * pose_error3 (pnp3_correspondences p) (pnp_camera_to_target r)).
  - rewrite (same_length _ _ _ S). unfold Rdiv. ring.
  - rewrite <- (pose_error3_same s G K _ _ _ HG HK S).
    destruct N as (N1 & N3), B' as (B1 & B3). apply Rle_antisym; [ apply N3 | apply B3 ]; assumption.
Qed.
Lemma unit_matters : exists k v, 0 < vz v /\ projectPoint_eig k v <> projectPoint_eig k (vscale 10 v).
Proof.
  exists (Intr 1 1 0 0), (V3 1 0 (1 / 10 ^ 10)). assert (P : 0 < 1 / 10 ^ 10) by lra.
  assert (P1 : 1 / 10 ^ 10 < 1) by (apply (Rmult_lt_reg_r (10 ^ 10)); [ lra | field_simplify; lra ]).
  split; [ exact P | ].
  unfold projectPoint_eig, vscale. cbn [vx vy vz fx fy cx cy]. revert P P1. generalize (1 / 10 ^ 10). intros e P P1.
  destruct (Rlt_dec e (e - 0)) as [L|_]; [ lra | ]. destruct (Rlt_dec e (10 * e - 0)) as [_|N]; [ | exfalso; apply N; lra ].
  intros E. apply (f_equal px) in E. cbn in E.
  assert (Q : 10 * 1 / (10 * e) * e = 1) by (field; lra). nra.
Qed.
