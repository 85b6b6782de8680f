(** What the tools say about single images: rct_examples/src/tools/camera_on_wrist_extrinsic.cpp [wrist],
    static_camera_extrinsic.cpp [static], intrinsic_calibration.cpp [intr], camera_intrinsic_calibration_validation.cpp [valid] and
    noise_qualification_2d.cpp [noise]; rct_examples/src/examples/camera_on_wrist.cpp [ex]. The loops themselves are in
    ExampleTools.v; here are the lines that their rounds write. A run that an exception ends has no lines here. *)
From Coq Require Import Reals Arith Ascii String List.
From Verif.Base Require Import Geom Outcome.
From Verif.Model Require Import Pose Covariance HandEye Homography Pnp DataSet ExampleTools CheckText.
Import ListNotations.
Local Open Scope string_scope.

(** A loop whose round for [a] does [round] and writes [lines]; [lines] may look at the state before the round. *)
Definition logged {S A} (round : S -> A -> res S) (lines : S -> A -> list message) (l : list A) (s : S) : res (S * list message) :=
  foldM (fun st a => do s' <- round (fst st) a; Ok (s', snd st ++ lines (fst st) a)%list) l (s, []).

Section Lines.
  Context {image features G : Type} (v : vision image features)
          (lu : lu_solver) (seeded : nat -> G) (uniform_int : nat -> nat -> G -> nat * G).
  (** TargetFeatures::size, what() of the exceptions of the finder, the target, the homography and the drawing functions, and
      std::to_string of a double *)
  Variables (size : features -> nat) (what : image -> exn -> string) (to_string_f : R -> string).

  (** [wrist]:93-96, [static]:90-93, [intr]:120-123, [valid]:100-103, [noise]:71-74: the begin of the try block. [rest] is what()
      of the exception in the rest of the block. *)
  Definition tryBlock (img : image) (rest : features -> option string) : list message * option string :=
    match find v img with
    | Ok target_features =>
        if none v target_features then ([], Some "Failed to find any target features")
        else ([Info ("Found " ++ Covariance.to_string (size target_features) ++ " target features")], rest target_features)
    | Throw e => ([], Some (what img e))
    | UB => ([], None)
    end.
  (** [wrist]:126, [static]:120, [intr]:129, [valid]:111, [noise]:82: the handler *)
  Definition roundLines (i : nat) (block : list message * option string) : list message :=
    (fst block ++
     match snd block with Some t => [Warn ("Image " ++ Covariance.to_string i ++ ": '" ++ t ++ "'")] | None => [] end)%list.
  Definition thrown {A} (img : image) (x : res A) : option string := match x with Throw e => Some (what img e) | _ => None end.

  (** [valid]:105-107, [noise]:76-78 *)
  Definition showBlock (img : image) : list message * option string :=
    tryBlock img (fun f => thrown img (show_features v img f)).
  (** [intr]:125 *)
  Definition pairBlock (img : image) : list message * option string := tryBlock img (fun f => thrown img (create v f)).
  (** [wrist]:98-122, [static]:95-116 *)
  Definition handEyeBlock (homography_threshold : R) (img : image) : list message * option string :=
    tryBlock img (fun f =>
      match create v f with
      | Ok cs =>
          match (do random_sampler <- mk_random_sampler (List.length cs) (List.length cs / 3) RANDOM_SEED;
                 do homography_error <- calculateHomographyError lu cs (randomSample seeded uniform_int random_sampler);
                 array_mean homography_error) with
          | Ok mean =>
              if Rlt_dec homography_threshold mean then Some ("Homography error exceeds threshold (" ++ to_string_f mean ++ ")")
              else thrown img (show_features v img f)
          | x => thrown img x
          end
      | x => thrown img x
      end).

  Definition imageLines {S} (block : image -> list message * option string) (images : list image) (_ : S) (i : nat) : list message :=
    match nth_error images i with Some img => roundLines i (block img) | None => [] end.
  (** [wrist]:86-131, [static]:84-125 *)
  Definition collectLogged mount homography_threshold (data : data_set image) :=
    logged (collectObservation v lu seeded uniform_int mount homography_threshold data)
      (imageLines (handEyeBlock homography_threshold) (ds_images data)) (seq 0 (List.length (ds_images data))) ([], []).
  (** [valid]:94-129 *)
  Definition validationLogged (data : data_set image) :=
    logged (validationObservation v data) (imageLines showBlock (ds_images data)) (seq 0 (List.length (ds_images data))) [].
  (** [intr]:112-136 *)
  Definition intrinsicLogged (data : data_set image) :=
    logged (fun st i => do img <- idx (ds_images data) i; intrinsicObservation v st img)
      (imageLines pairBlock (ds_images data)) (seq 0 (List.length (ds_images data))) [].
  (** [noise]:60-97; the rounds are numbered *)
  Definition noiseLogged (read : string -> image) camera camera_to_target_guess (names : list string) :=
    logged (fun st x => noiseProblem v read camera camera_to_target_guess st (snd x))
      (fun st x => roundLines (fst x) (showBlock (match fst st with Some first => first | None => read (snd x) end)))
      (combine (seq 0 (List.length names)) names) (None, []).
  (** [ex]:98-127; the line goes to std::cerr *)
  Definition exampleLogged (data : data_set image) :=
    logged (exampleObservation v data)
      (fun _ i => match nth_error (ds_images data) i with
         | Some img => match find v img with Throw _ => [Warn ("Unable to find the circle grid in image: " ++ Covariance.to_string i)] | _ => [] end
         | None => []
         end) (seq 0 (List.length (ds_images data))) [].
End Lines.
