(** C13: DH masks, labels and parameter storage line up. *)
From Coq Require Import Reals ZArith String List.
From Verif.Base Require Import Outcome Matrix.
From Verif.Model Require Import DhChain Kinematic.
From Verif.Proofs Require Import KinematicProofs KinematicCall.
Import ListNotations.

(** The calibration reads the offset of parameter j of joint i at position j * n + i ... *)
Theorem C13_storage :
  forall m p n i j, ent (map_offsets m p n) i j = m p (j * n + i)%nat.
Proof. exact (fun m p n i j => eq_refl). Qed.
Print Assumptions C13_storage.

(** ... the mask contains that position exactly if the entry (i, j) is true ... *)
Theorem C13_mask_exact :
  forall n mask i j, (i < n)%nat -> (j < 4)%nat ->
  (In (Z.of_nat (j * n + i)) (createDHMask n mask) <-> mask i j = true).
Proof. exact mask_in. Qed.
Print Assumptions C13_mask_exact.

(** ... and contains nothing else, nothing twice ... *)
Theorem C13_mask_range :
  forall n mask z, In z (createDHMask n mask) ->
  exists i j, (i < n)%nat /\ (j < 4)%nat /\ mask i j = true /\ z = Z.of_nat (j * n + i) /\
              (0 <= z < Z.of_nat (n * 4))%Z.
Proof. exact mask_range. Qed.
Print Assumptions C13_mask_range.
Theorem C13_mask_nodup : forall n mask, NoDup (createDHMask n mask).
Proof. exact mask_nodup. Qed.
Print Assumptions C13_mask_nodup.

(** ... and the label at that position names joint i and parameter j. *)
Theorem C13_labels :
  forall c t p0 p1 p2 p3 p4 p5 p6 p7 l2 l3 l4 l5 l6 l7, NoDup [p0; p1; p2; p3; p4; p5; p6; p7] ->
  exists labels cl tl,
    constructParameterLabels (constructParameters p0 p1 p2 p3 p4 p5 p6 p7) (chainParamLabels c) (chainParamLabels t)
      l2 l3 l4 l5 l6 l7 = Ok labels /\
    labels = [(p0, cl); (p1, tl); (p2, l2); (p3, l3); (p4, l4); (p5, l5); (p6, l6); (p7, l7)] /\
    length cl = (dof c * 4)%nat /\ length tl = (dof t * 4)%nat /\
    (forall i j link, nth_error (transforms c) i = Some link -> (j < 4)%nat ->
       nth_error cl (j * dof c + i) =
       Some (String.append (jname link) (nth j ["_d"; "_theta"; "_r"; "_alpha"]%string EmptyString))) /\
    (forall i j link, nth_error (transforms t) i = Some link -> (j < 4)%nat ->
       nth_error tl (j * dof t + i) =
       Some (String.append (jname link) (nth j ["_d"; "_theta"; "_r"; "_alpha"]%string EmptyString))).
Proof. exact labels_line_up. Qed.
Print Assumptions C13_labels.

(** Three joints; theta of the first, d of the second and alpha of the last are masked. *)
Example C13_example :
  createDHMask 3 (fun i j => match i, j with 0, 1 | 1, 0 | 2, 3 => true | _, _ => false end) = [3; 1; 11]%Z.
Proof. exact eq_refl. Qed.
