(** C128: what the tools say about images. [found], [skipped], [warned], [warnings], [image_by_image], [said], [said_hand_eye]:
    Spec/ImageMessageSpec.v; [sees], [sees_shown], [usable]: Spec/ToolSpec.v. *)
From Coq Require Import Reals Arith String List.
From Verif.Base Require Import Geom Outcome.
From Verif.Model Require Import Pose HandEye Homography Pnp DataSet ExampleTools CheckText ImageText.
From Verif.Spec Require Import ToolSpec ImageMessageSpec.
From Verif.Proofs Require HomographyProofs SceneProofs ImageTextProofs.
Import ListNotations.
Local Open Scope string_scope.

(** The check of intrinsics warns of exactly the images it does not use. *)
Theorem C128_validation :
  forall image features (v : vision image features) size what (ps : list (image * iso)),
  match validationObservations v (data_of ps) with
  | Ok obs => exists ms, validationLogged v size what (data_of ps) = Ok (obs, ms) /\
      image_by_image (fun i p m => said v size (exists cs, sees_shown v p cs) (fst p) i m) ps ms /\
      (warnings ms + List.length obs)%nat = List.length ps
  | Throw e => validationLogged v size what (data_of ps) = Throw e
  | UB => validationLogged v size what (data_of ps) = UB
  end.
Proof. exact @ImageTextProofs.validation_logged. Qed.
Print Assumptions C128_validation.

Example C128_validation_example : exists obs,
  validationLogged SceneProofs.sc_vision (@List.length _) ImageTextProofs.no_text (data_of SceneProofs.sc_data) =
    Ok (obs, [found 12; skipped 1 "Failed to find any target features"; found 12]) /\
  List.length obs = 2%nat.
Proof. exact ImageTextProofs.scene_said. Qed.

(** So does intrinsic calibration. *)
Theorem C128_intrinsic :
  forall image features (v : vision image features) size what (data : data_set image),
  match intrinsicObservations v data with
  | Ok obs => exists ms, intrinsicLogged v size what data = Ok (obs, ms) /\
      image_by_image (fun i img m => said v size (exists cs, sees v img cs) img i m) (ds_images data) ms /\
      (warnings ms + List.length obs)%nat = List.length (ds_images data)
  | Throw e => intrinsicLogged v size what data = Throw e
  | UB => intrinsicLogged v size what data = UB
  end.
Proof. exact @ImageTextProofs.intrinsic_logged. Qed.
Print Assumptions C128_intrinsic.

Example C128_intrinsic_example : exists obs,
  intrinsicLogged SceneProofs.sc_vision (@List.length _) ImageTextProofs.no_text (data_of SceneProofs.sc_data) =
    Ok (obs, [found 12; skipped 1 "Failed to find any target features"; found 12]) /\
  List.length obs = 2%nat.
Proof. exact ImageTextProofs.scene_said_intrinsic. Qed.

(** The noise tool says of every image what holds for the first one: it warns of all images or of none. *)
Theorem C128_noise :
  forall image features (v : vision image features) size what read k g n0 names,
  match noiseProblems v read k g (n0 :: names) with
  | Ok problems => exists st ms, noiseLogged v size what read k g (n0 :: names) = Ok ((st, problems), ms) /\
      image_by_image (fun i _ m => said v size (exists cs, sees_shown v (read n0, iso_id) cs) (read n0) i m) (n0 :: names) ms /\
      (warnings ms = 0%nat \/ warnings ms = List.length (n0 :: names))
  | Throw e => noiseLogged v size what read k g (n0 :: names) = Throw e
  | UB => noiseLogged v size what read k g (n0 :: names) = UB
  end.
Proof. exact @ImageTextProofs.noise_logged. Qed.
Print Assumptions C128_noise.

(** Only the first of two pictures is blank, and there is a warning for both. *)
Example C128_noise_example : exists st,
  noiseLogged SceneProofs.sc_vision (@List.length _) ImageTextProofs.no_text (fun name => if String.eqb name "a" then None else Some iso_id)
    SceneProofs.sc_intr SceneProofs.sc_target ["a"; "b"]%string =
  Ok (st, [skipped 0 "Failed to find any target features"; skipped 1 "Failed to find any target features"]).
Proof. exact ImageTextProofs.scene_said_noise. Qed.

(** The example program writes a line exactly for the images in which nothing was found. *)
Theorem C128_example_program :
  forall image features (v : vision image features) (ps : list (image * iso)),
  match exampleObservations v (data_of ps) with
  | Ok obs => exists ms, exampleLogged v (data_of ps) = Ok (obs, ms) /\
      image_by_image (fun i p m => ((exists f, find v (fst p) = Ok f) -> m = []) /\
        ((forall f, find v (fst p) <> Ok f) -> m = [Warn ("Unable to find the circle grid in image: " ++ decimal i)])) ps ms
  | Throw e => exampleLogged v (data_of ps) = Throw e
  | UB => exampleLogged v (data_of ps) = UB
  end.
Proof. exact @ImageTextProofs.example_logged. Qed.
Print Assumptions C128_example_program.

Example C128_example_program_example : exists obs,
  exampleLogged (Vision (fun img => match img with Some _ => Ok (SceneProofs.sc_find img) | None => Throw RuntimeError end)
      (none SceneProofs.sc_vision) (create SceneProofs.sc_vision) (show_features SceneProofs.sc_vision) (show_image SceneProofs.sc_vision))
    (data_of SceneProofs.sc_data) = Ok (obs, [Warn "Unable to find the circle grid in image: 1"]) /\ List.length obs = 2%nat.
Proof. exact ImageTextProofs.scene_said_example. Qed.

(** The hand-eye tools do not warn of exactly the images they do not use. *)
Theorem C128_hand_eye_refuted :
  ~ (forall (image features G : Type) (v : vision image features) lu (seeded : nat -> G) uniform_int size what to_s mount t ps obs imgs ms,
     collectLogged v lu seeded uniform_int size what to_s mount t (data_of ps) = Ok ((obs, imgs), ms) ->
     (warnings ms + List.length obs)%nat = List.length ps).
Proof. exact ImageTextProofs.hand_eye_refuted. Qed.
Print Assumptions C128_hand_eye_refuted.

(** They warn of all images that they do not use, and also of those they use but cannot show. *)
Theorem C128_hand_eye_partial :
  forall image features G (v : vision image features) lu (seeded : nat -> G) uniform_int size what to_s mount t (ps : list (image * iso)),
  match collectObservations v lu seeded uniform_int mount t (data_of ps) with
  | Ok (obs, imgs) => exists ms, collectLogged v lu seeded uniform_int size what to_s mount t (data_of ps) = Ok ((obs, imgs), ms) /\
      image_by_image (fun i p m => said_hand_eye v size lu seeded uniform_int to_s t p i m) ps ms
  | Throw e => collectLogged v lu seeded uniform_int size what to_s mount t (data_of ps) = Throw e
  | UB => collectLogged v lu seeded uniform_int size what to_s mount t (data_of ps) = UB
  end.
Proof. exact @ImageTextProofs.hand_eye_logged. Qed.
Print Assumptions C128_hand_eye_partial.

(** If all drawings can be shown, the warnings are for the images that are not used. *)
Theorem C128_hand_eye_count_partial :
  forall image features G (v : vision image features) lu (seeded : nat -> G) uniform_int size what to_s mount t (ps : list (image * iso)) obs imgs ms,
  (forall p f, In p ps -> find v (fst p) = Ok f -> show_features v (fst p) f = Ok tt) ->
  collectLogged v lu seeded uniform_int size what to_s mount t (data_of ps) = Ok ((obs, imgs), ms) ->
  (warnings ms + List.length obs)%nat = List.length ps.
Proof. exact @ImageTextProofs.hand_eye_count. Qed.
Print Assumptions C128_hand_eye_count_partial.

Example C128_hand_eye_example : forall to_s, exists obs imgs ms,
  collectLogged SceneProofs.sc_vision (HomographyProofs.gauss 8) SceneProofs.sc_seed SceneProofs.sc_uniform (@List.length _) ImageTextProofs.no_text to_s on_wrist 0
    (data_of SceneProofs.sc_data) = Ok ((obs, imgs), ms) /\
  List.length obs = 2%nat /\ warnings ms = 1%nat.
Proof. exact ImageTextProofs.scene_said_hand_eye. Qed.
