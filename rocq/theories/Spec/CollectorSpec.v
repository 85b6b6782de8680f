(** What the data collection node should have collected. *)
From Coq Require Import Reals ZArith String List.
From Verif.Base Require Import Geom Outcome.
From Verif.Model Require Import DataSet Collector.
Import ListNotations.
Local Open Scope string_scope.

Section Spec.
  Context {message image file : Type} (lib : codec image file) (cam : camera message image).

  (** The colour image of a message, or how its conversion fails. *)
  Definition colour (m : message) : image + err :=
    if String.eqb (encoding cam m) "mono16"
    then match toCvCopy cam m "mono16" with inl i => gray_to_bgr cam i | inr e => inr e end
    else toCvCopy cam m "bgr8".
  Definition picture (m : message) : option image := match colour m with inl i => Some i | inr _ => None end.
  (** The latest picture after some events, given the latest one before. *)
  Fixpoint latest (last : option image) (es : list (event message)) : option image :=
    match es with
    | [] => last
    | NewImage m :: r => latest (match picture m with Some i => Some i | None => last end) r
    | _ :: r => latest last r
    end.
  (** Each request to collect that finds a transform and a picture adds the pair of them. *)
  Fixpoint collected (last : option image) (es : list (event message)) : list (image * transform) :=
    match es with
    | [] => []
    | NewImage m :: r => collected (match picture m with Some i => Some i | None => last end) r
    | Trigger (Some t) :: r => match last with Some i => (i, t) :: collected last r | None => collected last r end
    | Trigger None :: r => collected last r
    | Save _ :: r => collected last r
    end.
  (** What the node holds. *)
  Definition pairs (c : collection image file) : list (image * transform) :=
    combine (map (content lib (heap c)) (images c)) (poses c).
  Definition with_pose (p : image * transform) : image * iso := (fst p, transformToEigen (snd p)).
  Definition node_disk (n : node image file) : fs file := match n with Running c => disk c | Ended _ d => d end.
  Definition is_save (e : event message) : bool := match e with Save _ => true | _ => false end.
  (** A message ends the node: its conversion fails otherwise than with a cv_bridge exception, or the target
      finder fails with something that is no runtime error, or publishing the picture after that fails otherwise
      than with a cv_bridge exception. *)
  Definition ends (m : message) : Prop :=
    (exists e, colour m = inr e /\ e <> BridgeError) \/
    (exists i e, colour m = inl i /\ snd (examine cam i) = Some e /\
       ((e = CvError \/ e = OtherError) \/ exists e', publish cam i = Some e' /\ e' <> BridgeError)).
End Spec.

(** Images are numbers, messages are images or faulty ones; the finder scribbles over its image. *)
Definition plain_camera : camera (option nat) nat :=
  Camera (option nat) nat (fun _ => "bgr8") (fun m _ => match m with Some i => inl i | None => inr BridgeError end) inl
    (fun i => (99, if Nat.eqb i 3 then Some CvError else if Nat.eqb i 4 then Some OtherRuntimeError else None)) (fun _ => None).
