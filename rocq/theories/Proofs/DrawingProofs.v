(** What the finders draw, and where. *)
From Coq Require Import Reals ZArith Arith String List Lia.
From Verif.Base Require Import Geom Outcome.
From Verif.Model Require Import Pose HandEye CircleDetector Targets FeatureDrawing.
From Verif.Spec Require Import TargetSpec DrawingSpec.
From Verif.Proofs Require Import TargetProofs FilterProofs.
Import ListNotations.

Section Drawn.
Context {image : Type} (paint : mark -> image -> image).

Lemma put_same (h : list image) k i j : nth_error h k = Some i -> nth_error (firstn k h ++ j :: skipn (S k) h) k = Some j.
Proof.
  intros E. assert (k < List.length h)%nat by (apply nth_error_Some; congruence).
  rewrite nth_error_app2; rewrite firstn_length_le by lia; [ | lia ]. rewrite Nat.sub_diag. reflexivity.
Qed.
Lemma put_other (h : list image) k j l : (k < List.length h)%nat -> l <> k -> nth_error (firstn k h ++ j :: skipn (S k) h) l = nth_error h l.
Proof.
  revert k l. induction h as [|a h IH]; intros k l L N; cbn in L; [ lia | ]. destruct k as [|k].
  - destruct l as [|l]; [ congruence | reflexivity ].
  - destruct l as [|l]; [ reflexivity | ]. cbn. apply IH; lia.
Qed.
Lemma put_length (h : list image) k j : (k < List.length h)%nat -> List.length (firstn k h ++ j :: skipn (S k) h) = List.length h.
Proof. intros L. rewrite app_length. cbn [List.length]. rewrite skipn_length, firstn_length_le; lia. Qed.

Lemma draw_into_ok h k m i : nth_error h k = Some i ->
  exists h', draw_into paint h k m = Ok h' /\ only_changed h h' k i (paint m i).
Proof.
  intros E. assert (L : (k < List.length h)%nat) by (apply nth_error_Some; congruence).
  unfold draw_into, idx. rewrite E. cbn [bind]. eexists. split; [ reflexivity | ]. split; [ symmetry; apply put_length, L | ].
  split; [ exact E | ]. split; [ apply (put_same _ _ _ _ E) | ]. intros l N. apply put_other; assumption.
Qed.
Lemma changed_trans (h h' h'' : list image) k i j l : only_changed h h' k i j -> only_changed h' h'' k j l -> only_changed h h'' k i l.
Proof.
  intros (L & A & B & C) (L' & A' & B' & C'). split; [ congruence | ]. split; [ exact A | ]. split; [ exact B' | ].
  intros n N. rewrite C', C; auto.
Qed.
Lemma copy_ok (h : list image) k i : nth_error h k = Some i -> copy h k = Ok ((h ++ [i])%list, List.length h).
Proof. intros E. unfold copy, idx. rewrite E. reflexivity. Qed.
Lemma new_at_end (h : list image) i : nth_error (h ++ [i]) (List.length h) = Some i.
Proof. rewrite nth_error_app2, Nat.sub_diag by lia. reflexivity. Qed.
Lemma kept_new (h h' : list image) i j : only_changed (h ++ [i])%list h' (List.length h) i j -> images_kept h h' /\ List.length h' = S (List.length h) /\ nth_error h' (List.length h) = Some j.
Proof.
  intros (L & A & B & C). rewrite app_length in L. cbn in L. split; [ | split; [ lia | exact B ] ].
  intros k x E. assert (Lk : (k < List.length h)%nat) by (apply nth_error_Some; congruence).
  rewrite C by lia. rewrite nth_error_app1 by exact Lk. exact E.
Qed.
Lemma kept_trans (h h' h'' : list image) : images_kept h h' -> images_kept h' h'' -> images_kept h h''.
Proof. intros A B k i E. apply B, A, E. Qed.

Lemma circles_drawn contours_at p h k i ks : detect contours_at p = Ok ks -> nth_error h k = Some i ->
  exists h', drawDetectedCircles paint contours_at p h k = Ok (h', List.length h) /\
    images_kept h h' /\ List.length h' = S (List.length h) /\ nth_error h' (List.length h) = Some (paint (Keypoints ks) i).
Proof.
  intros D E. unfold drawDetectedCircles. rewrite D. cbn [bind]. rewrite (copy_ok _ _ _ E). cbn [bind].
  destruct (draw_into_ok (h ++ [i]) (List.length h) (Keypoints ks) i (new_at_end h i)) as (h' & -> & C). cbn [bind].
  exists h'. split; [ reflexivity | ]. exact (kept_new _ _ _ _ C).
Qed.

Lemma rendered t h k i points first origin last : nth_error h k = Some i ->
  nth_error points 0 = Some first ->
  nth_error points (Z.to_nat ((Z.of_nat (cg_rows t) * Z.of_nat (cg_cols t) - Z.of_nat (cg_cols t)) mod 2 ^ 32)) = Some origin ->
  nth_error points (List.length points - 1) = Some last ->
  exists h', renderObservations paint h k points t = Ok (h', List.length h) /\ images_kept h h' /\ List.length h' = S (List.length h) /\
    nth_error h' (List.length h) = Some (labelled paint t points first origin last i).
Proof.
  intros E F O L. unfold renderObservations. rewrite (copy_ok _ _ _ E). cbn [bind].
  destruct points as [|a points]; [ discriminate F | ]. cbn [nth_error] in F. injection F as <-. cbn [idx nth_error bind].
  unfold draw_all. cbn [foldM].
  destruct (draw_into_ok (h ++ [i]) (List.length h) (ChessboardCorners (cg_cols t) (cg_rows t) (a :: points)) i (new_at_end h i)) as (h1 & -> & C1). cbn [bind].
  destruct (draw_into_ok h1 (List.length h) (PointLabel "First Point" a) _ (proj1 (proj2 (proj2 C1)))) as (h2 & -> & C2). cbn [bind].
  unfold idx at 1. rewrite O. cbn [bind].
  destruct (draw_into_ok h2 (List.length h) (PointLabel "Origin" origin) _ (proj1 (proj2 (proj2 C2)))) as (h3 & -> & C3). cbn [bind].
  unfold idx at 1. rewrite L. cbn [bind].
  destruct (draw_into_ok h3 (List.length h) (PointLabel "Last Point" last) _ (proj1 (proj2 (proj2 C3)))) as (h4 & -> & C4). cbn [bind].
  exists h4. split; [ reflexivity | ].
  exact (kept_new _ _ _ _ (changed_trans _ _ _ _ _ _ _ (changed_trans _ _ _ _ _ _ _ (changed_trans _ _ _ _ _ _ _ C1 C2) C3) C4)).
Qed.

Lemma origin_index t : (1 <= cg_rows t)%nat -> (Z.of_nat (cg_rows t) * Z.of_nat (cg_cols t) < 2 ^ 32)%Z ->
  Z.to_nat ((Z.of_nat (cg_rows t) * Z.of_nat (cg_cols t) - Z.of_nat (cg_cols t)) mod 2 ^ 32) = ((cg_rows t - 1) * cg_cols t)%nat.
Proof. intros R L. rewrite Z.mod_small by nia. nia. Qed.

Lemma circle_grid_drawn contours_at p t h k i ks fs pts : detect contours_at p = Ok ks -> nth_error h k = Some i ->
  mapM (fun it : nat * list vec2 => at_ (snd it) 0) fs = Ok pts ->
  (1 <= cg_rows t)%nat -> (Z.of_nat (cg_rows t) * Z.of_nat (cg_cols t) < 2 ^ 32)%Z ->
  forall first origin last, nth_error pts 0 = Some first -> nth_error pts ((cg_rows t - 1) * cg_cols t) = Some origin ->
  nth_error pts (List.length pts - 1) = Some last ->
  exists h' k', draw_circle_grid paint contours_at p t h k fs = Ok (h', k') /\ images_kept h h' /\
    new_image h h' k' (labelled paint t pts first origin last (paint (Keypoints ks) i)).
Proof.
  intros D E M R B first origin last F O L. unfold draw_circle_grid.
  destruct (circles_drawn contours_at p h k i ks D E) as (h1 & -> & K1 & L1 & N1). cbn [bind]. rewrite M. cbn [bind].
  rewrite <- (origin_index t R B) in O.
  destruct (rendered t h1 (List.length h) _ pts first origin last N1 F O L) as (h2 & -> & K2 & L2 & N2).
  exists h2, (List.length h1). split; [ reflexivity | ]. split; [ exact (kept_trans _ _ _ K1 K2) | ]. split; [ lia | exact N2 ].
Qed.
Lemma nothing_to_label contours_at p t h k i ks : detect contours_at p = Ok ks -> nth_error h k = Some i ->
  exists h' k', draw_circle_grid paint contours_at p t h k [] = Ok (h', k') /\ images_kept h h' /\ new_image h h' k' (paint (Keypoints ks) i).
Proof.
  intros D E. unfold draw_circle_grid.
  destruct (circles_drawn contours_at p h k i ks D E) as (h1 & -> & K1 & L1 & N1). cbn [bind mapM].
  unfold renderObservations. rewrite (copy_ok _ _ _ N1). cbn [bind]. do 2 eexists. split; [ reflexivity | ].
  split; [ | split; [ | apply new_at_end ] ]; [ | lia ].
  apply (kept_trans _ _ _ K1). intros l x X. rewrite nth_error_app1; [ exact X | apply nth_error_Some; congruence ].
Qed.

(** The features that a finder returns, in order *)
Lemma mapM_first (f : nat * list vec2 -> res vec2) l : (forall it, f it = at_ (snd it) 0) ->
  (forall it, In it l -> snd it <> []) -> exists pts, mapM f l = Ok pts /\ map Some pts = map (fun it => nth_error (snd it) 0) l.
Proof.
  intros F. induction l as [|it l IH]; intros N; [ exists []; auto | ]. destruct IH as (pts & E & Q); [ intros x Hx; apply N; right; exact Hx | ].
  cbn [mapM map]. rewrite F. unfold at_. destruct (snd it) as [|a r] eqn:S; [ exfalso; exact (N it (or_introl eq_refl) S) | ].
  cbn [nth_error bind]. rewrite E. cbn [bind]. exists (a :: pts). cbn [map]. rewrite Q. auto.
Qed.
Lemma mapM_empty l : (exists it, In it l /\ snd it = ([] : list vec2)) -> mapM (fun it : nat * list vec2 => at_ (snd it) 0) l = Throw OutOfRange.
Proof.
  induction l as [|it l IH]; intros (x & Hx & E); [ destruct Hx | ]. cbn [mapM]. unfold at_ at 1.
  destruct (snd it) as [|a r] eqn:S; [ reflexivity | ]. cbn [nth_error bind]. destruct Hx as [<-|Hx]; [ congruence | ]. rewrite IH; [ reflexivity | eauto ].
Qed.

End Drawn.

(** Features as built by the finder *)
Lemma foldM_last {S A} (f : S -> A -> res S) l a s : foldM f (l ++ [a]) s = do s' <- foldM f l s; f s' a.
Proof.
  revert s. induction l as [|b l IH]; intros s; cbn [app foldM].
  - cbn [bind]. destruct (f s a); reflexivity.
  - destruct (f s b); cbn [bind]; auto.
Qed.
Lemma emplace_last {V} k (v : V) m : Forall (fun k' => (k' < k)%nat) (map fst m) -> emplace k v m = (m ++ [(k, v)])%list.
Proof.
  induction m as [|[k' v'] m IH]; intros F; [ reflexivity | ]. inversion F; subst. cbn [emplace app].
  destruct (Nat.ltb_spec k k'); [ cbn in *; lia | ]. destruct (Nat.eqb_spec k k'); [ cbn in *; lia | ]. rewrite IH by assumption. reflexivity.
Qed.
Lemma built_from pts n : (n <= List.length pts)%nat ->
  foldM (fun m i => do pt <- at_ pts i; Ok (emplace i [pt] m)) (seq 0 n) [] = Ok (combine (seq 0 n) (map (fun p : vec2 => [p]) (firstn n pts))).
Proof.
  induction n as [|n IH]; intros L; [ reflexivity | ]. rewrite seq_S, foldM_last, IH by lia. cbn [bind Nat.add].
  destruct (nth_error pts n) as [p|] eqn:E; [ | apply nth_error_None in E; lia ]. unfold at_. rewrite E. cbn [bind].
  assert (F : firstn (S n) pts = (firstn n pts ++ [p])%list).
  { clear - E. revert n E. induction pts as [|a pts IH]; intros n E; destruct n as [|n]; cbn in *; try discriminate; [ congruence | ]. f_equal. apply IH, E. }
  assert (C : forall (A B : Type) (l1 : list A) (l2 : list B) a b, List.length l1 = List.length l2 -> combine (l1 ++ [a]) (l2 ++ [b]) = (combine l1 l2 ++ [(a, b)])%list).
  { clear. induction l1 as [|x l1 IH]; intros [|y l2] a b H; cbn in *; try discriminate; [ reflexivity | ]. f_equal. apply IH. lia. }
  rewrite F, map_app. cbn [map]. rewrite C by (rewrite map_length, seq_length, firstn_length_le; lia). rewrite emplace_last; [ reflexivity | ].
  apply Forall_forall. intros k Hk. apply in_map_iff in Hk as ([a b] & <- & H). apply in_combine_l, in_seq in H. cbn. lia.
Qed.
Lemma found_features pts fs : circle_features pts = Ok fs -> mapM (fun it : nat * list vec2 => at_ (snd it) 0) fs = Ok pts.
Proof.
  unfold circle_features. rewrite built_from by lia. rewrite firstn_all. intros [= <-].
  assert (G : forall n, mapM (fun it : nat * list vec2 => at_ (snd it) 0) (combine (seq n (List.length pts)) (map (fun p : vec2 => [p]) pts)) = Ok pts);
    [ | exact (G 0%nat) ].
  induction pts as [|p pts IH]; intros n; [ reflexivity | ]. cbn [List.length seq map combine mapM snd at_ nth_error bind]. rewrite IH. reflexivity.
Qed.
Lemma last_point t : (1 <= cg_rows t)%nat -> (1 <= cg_cols t)%nat ->
  nth_error (createPoints t) (cg_rows t * cg_cols t - 1) = Some (V3 (INR (cg_cols t - 1) * cg_spacing t) 0 0).
Proof.
  intros R C. replace (cg_rows t * cg_cols t - 1)%nat with ((cg_rows t - 1) * cg_cols t + (cg_cols t - 1))%nat by nia.
  rewrite points_nth by lia. unfold grid_point. replace (cg_rows t - 1 - (cg_rows t - 1))%nat with 0%nat by lia. cbn [INR].
  rewrite Rmult_0_l. reflexivity.
Qed.
Lemma first_point t : (1 <= cg_rows t)%nat -> (1 <= cg_cols t)%nat ->
  nth_error (createPoints t) 0 = Some (V3 0 (INR (cg_rows t - 1) * cg_spacing t) 0).
Proof.
  intros R C. change 0%nat with (0 * cg_cols t + 0)%nat at 1. rewrite points_nth by lia. unfold grid_point. rewrite Nat.sub_0_r. cbn [INR].
  rewrite Rmult_0_l. reflexivity.
Qed.

Lemma labels_right {image} (paint : mark -> image -> image) contours_at p t pts fs cs h k i ks :
  (1 <= cg_rows t)%nat -> (1 <= cg_cols t)%nat -> (Z.of_nat (cg_rows t) * Z.of_nat (cg_cols t) < 2 ^ 32)%Z ->
  List.length pts = (cg_rows t * cg_cols t)%nat -> circle_features pts = Ok fs -> circle_correspondences t fs = Ok cs ->
  detect contours_at p = Ok ks -> nth_error h k = Some i ->
  exists h' k' first origin last, draw_circle_grid paint contours_at p t h k fs = Ok (h', k') /\ images_kept h h' /\
    In first cs /\ in_target first = V3 0 (INR (cg_rows t - 1) * cg_spacing t) 0 /\
    In origin cs /\ in_target origin = vzero /\
    In last cs /\ in_target last = V3 (INR (cg_cols t - 1) * cg_spacing t) 0 0 /\
    new_image h h' k' (labelled paint t pts (in_image first) (in_image origin) (in_image last) (paint (Keypoints ks) i)).
Proof.
  intros R C B L F E D I. destruct (circle_end_to_end t pts L) as (cs' & E' & Mi & Mt). rewrite F in E'. cbn [bind] in E'. rewrite E in E'. injection E' as <-.
  assert (Nth : forall n v, nth_error (createPoints t) n = Some v -> exists c, In c cs /\ in_target c = v /\ nth_error pts n = Some (in_image c)).
  { intros n v H. rewrite <- Mt, nth_error_map in H. destruct (nth_error cs n) as [c|] eqn:Ec; [ | discriminate H ]. cbn in H. injection H as <-.
    exists c. split; [ apply (nth_error_In _ _ Ec) | ]. split; [ reflexivity | ]. rewrite <- Mi, nth_error_map, Ec. reflexivity. }
  destruct (Nth _ _ (first_point t R C)) as (c1 & I1 & T1 & P1).
  destruct (Nth _ _ (grid_origin t R C)) as (c2 & I2 & T2 & P2).
  destruct (Nth _ _ (last_point t R C)) as (c3 & I3 & T3 & P3).
  replace (cg_rows t * cg_cols t - cg_cols t)%nat with ((cg_rows t - 1) * cg_cols t)%nat in P2 by nia. rewrite <- L in P3.
  destruct (circle_grid_drawn paint contours_at p t h k i ks fs pts D I (found_features _ _ F) R B _ _ _ P1 P2 P3) as (h' & k' & Q1 & Q2 & Q3).
  exists h', k', c1, c2, c3. auto 10.
Qed.

(** What happens with other features *)
Lemma empty_feature {image} (paint : mark -> image -> image) contours_at p t h k i ks fs : detect contours_at p = Ok ks -> nth_error h k = Some i ->
  (exists it, In it fs /\ snd it = []) -> draw_circle_grid paint contours_at p t h k fs = Throw OutOfRange.
Proof.
  intros D I N. unfold draw_circle_grid. destruct (circles_drawn paint contours_at p h k i ks D I) as (h1 & -> & _). cbn [bind].
  rewrite mapM_empty by exact N. reflexivity.
Qed.
Lemma too_few {image} (paint : mark -> image -> image) contours_at p t h k i ks fs : detect contours_at p = Ok ks -> nth_error h k = Some i ->
  (1 <= cg_rows t)%nat -> (Z.of_nat (cg_rows t) * Z.of_nat (cg_cols t) < 2 ^ 32)%Z ->
  (forall it, In it fs -> snd it <> []) -> (1 <= List.length fs <= (cg_rows t - 1) * cg_cols t)%nat ->
  draw_circle_grid paint contours_at p t h k fs = UB.
Proof.
  intros D I R B N L. unfold draw_circle_grid. destruct (circles_drawn paint contours_at p h k i ks D I) as (h1 & -> & _ & _ & N1). cbn [bind].
  destruct (mapM_first (fun it => at_ (snd it) 0) fs (fun _ => eq_refl) N) as (pts & -> & Q). cbn [bind].
  apply (f_equal (@List.length _)) in Q. rewrite !map_length in Q.
  unfold renderObservations. rewrite (copy_ok _ _ _ N1). cbn [bind].
  destruct pts as [|a pts]; [ cbn in Q; lia | ]. cbn [idx nth_error bind]. unfold draw_all. cbn [foldM].
  match goal with |- context[draw_into paint ?h ?k ?m] => destruct (draw_into_ok paint h k m _ (new_at_end h1 _)) as (h2 & -> & C2) end. cbn [bind].
  match goal with |- context[draw_into paint ?h ?k ?m] => destruct (draw_into_ok paint h k m _ (proj1 (proj2 (proj2 C2)))) as (h3 & -> & C3) end. cbn [bind].
  rewrite (origin_index t R B). unfold idx at 1. replace (nth_error (a :: pts) ((cg_rows t - 1) * cg_cols t)) with (@None vec2); [ reflexivity | ].
  symmetry. apply nth_error_None. lia.
Qed.

(** Marker boards *)
Lemma aruco_drawn {image} (paint : mark -> image -> image) h k i fs : nth_error h k = Some i ->
  exists h', draw_aruco paint h k fs = Ok (h', k) /\ only_changed h h' k i (paint (DetectedMarkers (map snd fs) (map fst fs)) i).
Proof.
  intros E. unfold draw_aruco. destruct (draw_into_ok paint h k (DetectedMarkers (map snd fs) (map fst fs)) i E) as (h' & -> & C). exists h'. auto.
Qed.
Lemma charuco_drawn {image} (paint : mark -> image -> image) h k i fs : nth_error h k = Some i -> (forall it, In it fs -> snd it <> []) ->
  exists h' pts, draw_charuco paint h k fs = Ok (h', k) /\ map Some pts = map (fun it => nth_error (snd it) 0) fs /\
    only_changed h h' k i (paint (DetectedCorners pts (map fst fs)) i).
Proof.
  intros E N. unfold draw_charuco. destruct (mapM_first (fun it => at_ (snd it) 0) fs (fun _ => eq_refl) N) as (pts & -> & Q). cbn [bind].
  destruct (draw_into_ok paint h k (DetectedCorners pts (map fst fs)) i E) as (h' & -> & C). exists h', pts. auto.
Qed.
Lemma markers_overwrite {image} (paint : mark -> image -> image) h k i fs h' k' : nth_error h k = Some i ->
  paint (DetectedMarkers (map snd fs) (map fst fs)) i <> i -> draw_aruco paint h k fs = Ok (h', k') -> ~ images_kept h h'.
Proof.
  intros E N D K. destruct (aruco_drawn paint h k i fs E) as (h2 & D' & _ & _ & C & _). rewrite D in D'. injection D' as -> ->.
  apply K in E. congruence.
Qed.
Lemma corners_overwrite {image} (paint : mark -> image -> image) h k i fs h' k' : nth_error h k = Some i ->
  (forall pts, map Some pts = map (fun it : nat * list vec2 => nth_error (snd it) 0) fs -> paint (DetectedCorners pts (map fst fs)) i <> i) ->
  draw_charuco paint h k fs = Ok (h', k') -> ~ images_kept h h'.
Proof.
  intros E N D K.
  destruct (mapM (fun it : nat * list vec2 => at_ (snd it) 0) fs) as [pts|e|] eqn:M.
  - destruct (charuco_drawn paint h k i fs E) as (h2 & pts' & D' & Q & _ & _ & C & _).
    { intros it Hit X. rewrite mapM_empty in M by (exists it; auto). discriminate M. }
    rewrite D in D'. injection D' as -> ->. apply K in E. apply (N _ Q). congruence.
  - unfold draw_charuco in D. rewrite M in D. discriminate D.
  - unfold draw_charuco in D. rewrite M in D. discriminate D.
Qed.

(** An image as the list of what was drawn into it *)
Definition history (m : mark) (l : list mark) : list mark := (l ++ [m])%list.
Lemma history_changes m l : history m l <> l.
Proof. unfold history. intros E. apply (f_equal (@List.length _)) in E. rewrite app_length in E. cbn in E. lia. Qed.
Lemma marker_example : exists h', draw_aruco history [[]] 0 [(7%nat, [V2 1 1; V2 2 1; V2 2 2; V2 1 2])] = Ok (h', 0%nat) /\ ~ images_kept [[]] h'.
Proof.
  destruct (aruco_drawn history [[]] 0 [] [(7%nat, [V2 1 1; V2 2 1; V2 2 2; V2 1 2])] eq_refl) as (h' & D & _). exists h'. split; [ exact D | ].
  apply (markers_overwrite history [[]] 0 [] _ _ _ eq_refl (history_changes _ _) D).
Qed.
Lemma corner_example : exists h', draw_charuco history [[]] 0 [(7%nat, [V2 1 1])] = Ok (h', 0%nat) /\ ~ images_kept [[]] h'.
Proof.
  destruct (charuco_drawn history [[]] 0 [] [(7%nat, [V2 1 1])] eq_refl) as (h' & pts & D & _).
  { intros it [<-|[]]. discriminate. }
  exists h'. split; [ exact D | ]. apply (corners_overwrite history [[]] 0 [] _ _ _ eq_refl (fun pts _ => history_changes _ _) D).
Qed.
(** Four circles of a grid of one metre, in an image where the detector sees nothing else *)
Lemma grid_example : exists h' k' origin, draw_circle_grid history (fun _ => []) ex_params (CG 2 2 1) [[]] 0
    [(0%nat, [V2 0 0]); (1%nat, [V2 9 0]); (2%nat, [V2 0 9]); (3%nat, [V2 9 9])] = Ok (h', k') /\ nth_error h' k' = Some origin /\
    In (PointLabel "Origin" (V2 0 9)) origin /\ images_kept [[]] h'.
Proof.
  do 3 eexists. split; [ reflexivity | ]. split; [ reflexivity | ]. split; [ cbn; auto 10 | ].
  intros [|[|k]] i E; cbn in *; congruence.
Qed.
