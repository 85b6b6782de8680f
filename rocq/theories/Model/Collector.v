(** The data collection node: rct_ros_tools/src/command_line_cal.cpp (clc.cpp) *)
From Coq Require Import Reals ZArith String List.
From Verif.Base Require Import Geom Outcome.
From Verif.Model Require Import DataSet.
Import ListNotations.
Local Open Scope string_scope.

(** Exceptions by what can catch them: cv_bridge::Exception is a std::runtime_error; cv::Exception and others
    are std::exceptions only. *)
Inductive err : Type := BridgeError | OtherRuntimeError | CvError | OtherError.
Definition is_bridge (e : err) : bool := match e with BridgeError => true | _ => false end.
Definition is_runtime (e : err) : bool := match e with BridgeError | OtherRuntimeError => true | _ => false end.

(** geometry_msgs::Transform, and tf2::transformToEigen of it *)
Record transform := Tf { tf_translation : vec3; tf_rotation : quat }.
Definition transformToEigen (t : transform) : iso := Iso (q_matrix (tf_rotation t)) (tf_translation t).

(** The libraries: what cv_bridge makes of a message, the conversion of a 16 bit image (clc.cpp:75-76), what the
    target finder, the drawing and the publishing of the drawn image do to the image they are given and how they
    fail (clc.cpp:89-92), and how publishing the original fails (clc.cpp:97). *)
Record camera (message image : Type) := Camera {
  encoding : message -> string;
  toCvCopy : message -> string -> image + err;
  gray_to_bgr : image -> image + err;
  examine : image -> image * option err;
  publish : image -> option err }.
Arguments encoding {message image}. Arguments toCvCopy {message image}. Arguments gray_to_bgr {message image}.
Arguments examine {message image}. Arguments publish {message image}.

(** What the node receives: an image; a request to collect, with the transform that can be looked up then, if
    any; a request to save, with the paths that can be written then. *)
Inductive event (message : Type) : Type := NewImage (m : message) | Trigger (tf : option transform) | Save (can_write : string -> bool).
Arguments NewImage {message}. Arguments Trigger {message}. Arguments Save {message}.

Section Collector.
  Context {message image file : Type} (lib : codec image file) (cam : camera message image) (save_dir : string).

  (** cv::Mat values share buffers: an image is the place of its buffer in [heap]. *)
  Record collection := Coll { heap : list image; last_frame : option nat; poses : list transform; images : list nat; disk : fs file }.
  Definition content (h : list image) (k : nat) : image := nth k h (no_image lib).
  Definition overwrite (h : list image) (k : nat) (i : image) : list image := (firstn k h ++ i :: skipn (S k) h)%list.
  (** Before anything was received (clc.cpp:138-149) *)
  Definition initial (d : fs file) : collection := Coll [] None [] [] d.

  (** clc.cpp:64-105, onNewImage: the exception that leaves it, if any *)
  Definition onNewImage (c : collection) (m : message) : collection * option err :=
    let converted :=
      if String.eqb (encoding cam m) "mono16"
      then match toCvCopy cam m "mono16" with inl temp => gray_to_bgr cam temp | inr e => inr e end
      else toCvCopy cam m "bgr8" in
    let uncaught e := if is_bridge e then None else Some e in
    match converted with
    | inr e => (c, uncaught e)
    | inl i =>
        let cv_ptr := length (heap c) in
        let h := (heap c ++ [i])%list in
        let tmp_image := length h in
        let h := (h ++ [content h cv_ptr])%list in
        let '(after, failure) := examine cam (content h tmp_image) in
        let h := overwrite h tmp_image after in
        let c := Coll h (Some cv_ptr) (poses c) (images c) (disk c) in
        match failure with
        | None => (c, None)
        | Some e =>
            if is_runtime e
            then match publish cam (content h cv_ptr) with None => (c, None) | Some e => (c, uncaught e) end
            else (c, uncaught e)
        end
    end.

  (** clc.cpp:151-169, onTrigger, with clc.cpp:29-44 and 107-115, capture *)
  Definition onTrigger (c : collection) (tf : option transform) : collection * bool :=
    match tf, last_frame c with
    | Some pose, Some image => (Coll (heap c) (last_frame c) (poses c ++ [pose])%list (images c ++ [image])%list (disk c), true)
    | _, _ => (c, false)
    end.

  (** clc.cpp:171-187, onSave *)
  Definition onSave (c : collection) (can_write : string -> bool) : collection * res bool :=
    match
      foldM (fun data i =>
          do image <- idx (images c) i; do msg <- idx (poses c) i;
          Ok (DS (ds_images data ++ [content (heap c) image])%list (ds_tool_poses data ++ [transformToEigen msg])%list))
        (seq 0 (length (poses c))) (DS [] [])
    with
    | Ok data =>
        let '(d, r) := saveToDirectory lib can_write (disk c) save_dir data in
        (Coll (heap c) (last_frame c) (poses c) (images c) d, do _ <- r; Ok true)
    | Throw e => (c, Throw e)
    | UB => (c, UB)
    end.

  (** The node is running, or it ended with an exception. *)
  Inductive node := Running (c : collection) | Ended (e : err) (d : fs file).
  (** The answer to a request, if the event is one *)
  Inductive answer := NoAnswer | Answer (ok : bool) | Undefined.
  (** One event. An exception in the callback of a subscriber leaves ros::spin and ends the program
      (clc.cpp:235-241); one in a service callback is caught by roscpp, which answers that the call failed. *)
  Definition step (n : node) (e : event message) : node * answer :=
    match n with
    | Ended e d => (Ended e d, NoAnswer)
    | Running c =>
        match e with
        | NewImage m => match onNewImage c m with (c', None) => (Running c', NoAnswer) | (c', Some e) => (Ended e (disk c'), NoAnswer) end
        | Trigger tf => let '(c', ok) := onTrigger c tf in (Running c', Answer ok)
        | Save can_write =>
            match onSave c can_write with
            | (c', Ok ok) => (Running c', Answer ok)
            | (c', Throw _) => (Running c', Answer false)
            | (c', UB) => (Running c', Undefined)
            end
        end
    end.
  Fixpoint spin (n : node) (es : list (event message)) : node * list answer :=
    match es with
    | [] => (n, [])
    | e :: r => let '(n', a) := step n e in let '(n'', l) := spin n' r in (n'', a :: l)
    end.
End Collector.
Arguments collection image file : clear implicits. Arguments node image file : clear implicits.
