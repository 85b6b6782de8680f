(** The reports of the hand-eye tools. *)
From Coq Require Import Reals Arith Lia Lra String List Permutation.
From Verif.Base Require Import Geom Outcome.
From Verif.Model Require Import Pose Covariance Solver HandEye Homography Pnp Accumulator Projection IntrinsicValidation DataSet ExampleTools.
From Verif.Spec Require Import Frames StatSpec KinSpec PinHole ProjectionSpec HomographySpec ValidationSpec PrintSpec ToolSpec.
From Verif.Proofs Require Import GeomLemmas ListLemmas StatProofs HandEyeProofs KinematicProofs ProjectionProofs IntrinsicValidationProofs ToolProofs.
Import ListNotations.
Local Open Scope R_scope.

(** ** Statistics of errors *)
Lemma fold_min l a : smallest (a :: l) (fold_left Rmin l a).
Proof.
  revert a. induction l as [ | x l IH]; intros a; cbn [fold_left].
  - split; [ left; reflexivity | intros y [<- | []]; lra ].
  - destruct (IH (Rmin a x)) as [I L]. split.
    + destruct I as [E | I]; [ rewrite <- E | right; right; exact I ].
      unfold Rmin. destruct (Rle_dec a x); [ left | right; left ]; reflexivity.
    + intros y [<- | [<- | Hy]].
      * eapply Rle_trans; [ apply L; left; reflexivity | apply Rmin_l ].
      * eapply Rle_trans; [ apply L; left; reflexivity | apply Rmin_r ].
      * apply L. right. exact Hy.
Qed.
Lemma fold_max l a : largest (a :: l) (fold_left Rmax l a).
Proof.
  revert a. induction l as [ | x l IH]; intros a; cbn [fold_left].
  - split; [ left; reflexivity | intros y [<- | []]; lra ].
  - destruct (IH (Rmax a x)) as [I L]. split.
    + destruct I as [E | I]; [ rewrite <- E | right; right; exact I ].
      unfold Rmax. destruct (Rle_dec a x); [ right; left | left ]; reflexivity.
    + intros y [<- | [<- | Hy]].
      * eapply Rle_trans; [ apply Rmax_l | apply L; left; reflexivity ].
      * eapply Rle_trans; [ apply Rmax_r | apply L; left; reflexivity ].
      * apply L. right. exact Hy.
Qed.
Lemma error_stats_spec es : es <> [] -> exists s, errorStats es = Ok s /\ err_mean s = average es /\
  (List.length es = 1%nat -> err_stdev s = None) /\ ((2 <= List.length es)%nat -> err_stdev s = Some (sample_dev es)) /\
  smallest es (err_min s) /\ largest es (err_max s).
Proof.
  intros N. unfold errorStats. rewrite array_mean_average by exact N. cbn [bind]. rewrite fold_plus.
  eexists. split; [ reflexivity | ]. cbn [err_mean err_stdev err_min err_max]. split; [ reflexivity | ].
  split; [ intros ->; reflexivity | ]. split.
  - intros L. unfold sample_dev. destruct (List.length es) as [ | [ | n]]; [ lia | lia | ]. do 3 f_equal. ring.
  - destruct es as [ | e es]; [ congruence | ]. cbn [hd].
    assert (Em : fold_left Rmin (e :: es) e = fold_left Rmin es e) by (cbn; f_equal; unfold Rmin; destruct (Rle_dec e e); reflexivity).
    assert (EM : fold_left Rmax (e :: es) e = fold_left Rmax es e) by (cbn; f_equal; unfold Rmax; destruct (Rle_dec e e); reflexivity).
    rewrite Em, EM. split; [ apply fold_min | apply fold_max ].
Qed.
Lemma error_stats_empty : errorStats [] = UB.
Proof. reflexivity. Qed.
Lemma total_zeros {A} (l : list A) : total (map (fun _ => 0) l) = 0.
Proof. unfold total. induction l as [ | a l IH]; cbn; [ reflexivity | rewrite IH; ring ]. Qed.
Lemma average_zeros {A} (l : list A) : average (map (fun _ => 0) l) = 0.
Proof. unfold average. rewrite total_zeros. unfold Rdiv. ring. Qed.
Lemma error_stats_zero {A} (l : list A) : (2 <= List.length l)%nat -> errorStats (map (fun _ => 0) l) = Ok (ErrorStats 0 (Some 0) 0 0).
Proof.
  intros L. destruct (error_stats_spec (map (fun _ => 0) l)) as (s & E & M & _ & D & [Im _] & [IM _]).
  { destruct l; [ cbn in L; lia | discriminate ]. }
  rewrite E. f_equal. destruct s as [m d a b]. cbn [err_mean err_stdev err_min err_max] in *. f_equal.
  - rewrite M. apply average_zeros.
  - rewrite D by (rewrite map_length; exact L). f_equal. unfold sample_dev. rewrite average_zeros.
    rewrite map_map, (map_ext _ (fun _ => 0)), total_zeros by (intros; ring). unfold Rdiv. rewrite Rmult_0_l. apply sqrt_0.
  - apply in_map_iff in Im. destruct Im as (? & <- & _). reflexivity.
  - apply in_map_iff in IM. destruct IM as (? & <- & _). reflexivity.
Qed.

(** ** Comparison with pose estimation *)
Lemma diff_norm A B : rigid A -> norm (tr (iso_mul (iso_inv A) B)) = norm (vsub (tr B) (tr A)).
Proof.
  intros H. rewrite <- (rot_norm (mT (lin A)) (vsub (tr B) (tr A))) by (apply is_rot_mT, H). f_equal.
  destruct A as [m1 t1], B as [m2 t2]. unfold iso_mul, iso_inv. cbn [lin tr]. geo_unfold. destruct m1, t1, t2. cbn. f_equal; ring.
Qed.
Lemma nonneg_total l : (forall x, In x l -> 0 <= x) -> 0 <= total l /\ (total l = 0 <-> forall x, In x l -> x = 0).
Proof.
  unfold total. induction l as [ | a l IH]; intros H; cbn.
  - split; [ lra | ]. split; [ intros _ x [] | reflexivity ].
  - destruct IH as [P E]; [ intros; apply H; right; assumption | ]. assert (Ha : 0 <= a) by (apply H; left; reflexivity). split; [ lra | ]. split.
    + intros Z x [<- | Hx]; [ lra | apply E; [ lra | exact Hx ] ].
    + intros Z. rewrite (Z a (or_introl eq_refl)). rewrite (proj2 E) by (intros; apply Z; right; assumption). ring.
Qed.
Lemma average_zero l : l <> [] -> (forall x, In x l -> 0 <= x) -> average l = 0 <-> forall x, In x l -> x = 0.
Proof.
  intros N H. destruct (nonneg_total l H) as [_ E]. rewrite <- E. unfold average.
  assert (P : 0 < INR (List.length l)) by (destruct l; [ congruence | apply lt_0_INR; cbn; lia ]). split.
  - intros Z. apply (f_equal (fun x => x * INR (List.length l))) in Z. unfold Rdiv in Z. rewrite Rmult_assoc, Rinv_l, Rmult_1_r, Rmult_0_l in Z by lra. exact Z.
  - intros ->. unfold Rdiv. ring.
Qed.
Lemma std_dev_zero l : (forall x, In x l -> x = 0) -> std_dev l = 0.
Proof.
  intros H. assert (E : l = map (fun _ => 0) l).
  { induction l as [ | a l IH]; [ reflexivity | ]. cbn. f_equal; [ apply H; left; reflexivity | apply IH; intros; apply H; right; assumption ]. }
  unfold std_dev. rewrite E, average_zeros, map_map, (map_ext _ (fun _ => 0)), total_zeros by (intros; ring). unfold Rdiv. rewrite Rmult_0_l. apply sqrt_0.
Qed.

Section Compare.
  Context {image : Type} (draw : image -> list vec2 -> res image) (display : image -> res unit).
  Variables (runs : nat -> pnp_run) (p : he_problem2D3D) (r : he_result).
  Notation C := (he_camera_mount_to_camera r).
  Notation T := (he_target_mount_to_target r).
  Hypothesis HC : rigid C.
  Hypothesis HT : rigid T.
  Hypothesis Hobs : forall o, In o (h2_observations p) -> rigid (to_camera_mount o) /\ rigid (to_target_mount o).
  Notation pose := (predicted r).

  Lemma pose_rigid o : In o (h2_observations p) -> rigid (pose o).
  Proof. intros H. destruct (Hobs o H). unfold predicted, target_in_camera. auto using rigid_mul, rigid_inv. Qed.

  Notation compared := (compared runs p r).
  Notation distance := (distance r).

  Lemma reproject_ok run T0 cs k img P : reproject draw display run T0 cs k img = Ok P <->
    exists frame fit, draw img (getReprojections T0 k (map in_target cs)) = Ok frame /\ fitted run k T0 cs fit /\
      display frame = Ok tt /\ P = pnp_camera_to_target fit.
  Proof.
    unfold reproject, fitted. destruct (draw img _) as [frame | |]; cbn [bind].
    - unfold default_pnp_label. destruct (optimizePnP _ _ _ _) as [fit | |]; cbn [bind].
      + destruct (display frame) as [[] | |] eqn:D; cbn [bind].
        * split; [ intros E; injection E as <-; exists frame, fit; auto | ]. intros (f & ft & E1 & E2 & _ & ->). injection E2 as <-. reflexivity.
        * split; [ discriminate | ]. intros (f & ft & E1 & E2 & E3 & ->). injection E1 as <-. congruence.
        * split; [ discriminate | ]. intros (f & ft & E1 & E2 & E3 & ->). injection E1 as <-. congruence.
      + split; [ discriminate | ]. intros (f & ft & E1 & E2 & E3 & ->). discriminate.
      + split; [ discriminate | ]. intros (f & ft & E1 & E2 & E3 & ->). discriminate.
    - split; [ discriminate | ]. intros (f & ft & E1 & E2 & E3 & ->). discriminate.
    - split; [ discriminate | ]. intros (f & ft & E1 & E2 & E3 & ->). discriminate.
  Qed.

  Definition cmp_state (n : nat) (accs : accumulator * accumulator) (cmp : list (observation vec2 * (iso * R))) : Prop :=
    map fst cmp = firstn n (h2_observations p) /\ List.length cmp = n /\
    (forall i o P a, nth_error cmp i = Some (o, (P, a)) -> compared i o P a) /\
    accs = (pushed (map distance cmp), pushed (map (fun x => snd (snd x)) cmp)).

  Lemma firstn_next {A} (l : list A) n a : nth_error l n = Some a -> firstn (S n) l = firstn n l ++ [a].
  Proof. revert n. induction l as [ | x l IH]; intros [ | n] E; cbn in *; try discriminate; [ congruence | ]. f_equal. apply IH, E. Qed.

  Lemma analyze_state images n accs : (n <= List.length images)%nat ->
    foldM (fun accs i =>
        let '(pos_diff_acc, ori_diff_acc) := accs in
        do obs <- at_ (h2_observations p) i;
        let camera_to_target := iso_mul (iso_mul (iso_mul (iso_inv C) (iso_inv (to_camera_mount obs))) (to_target_mount obs)) T in
        do img <- idx images i;
        do camera_to_target_pnp <- reproject draw display (runs i) camera_to_target (correspondence_set obs) (h2_intr p) img;
        let diff := iso_mul (iso_inv camera_to_target) camera_to_target_pnp in
        Ok (acc_push pos_diff_acc (norm (tr diff)),
            acc_push ori_diff_acc (angular_distance (quat_of_mat (lin camera_to_target)) (quat_of_mat (lin camera_to_target_pnp)))))
      (seq 0 n) (acc_empty, acc_empty) = Ok accs -> exists cmp, cmp_state n accs cmp.
  Proof.
    revert accs. induction n as [ | n IH]; intros accs L E.
    - cbn in E. injection E as <-. exists []. split; [ reflexivity | split; [ reflexivity | split; [ | reflexivity ] ] ]. intros [ | ?]; discriminate.
    - rewrite seq_S, foldM_app in E. cbn [plus] in E.
      match type of E with context [foldM ?f (seq 0 n) ?s] => destruct (foldM f (seq 0 n) s) as [accs0 | |] eqn:E0 end; cbn [bind] in E; try discriminate.
      destruct (IH accs0 ltac:(lia) eq_refl) as (cmp & F & Ln & Cm & ->). cbn [foldM] in E.
      unfold at_ in E. destruct (nth_error (h2_observations p) n) as [o |] eqn:No; cbn [bind] in E; [ | discriminate ].
      assert (Io : In o (h2_observations p)) by (eapply nth_error_In, No).
      rewrite camera_to_target_eq in E by (try exact HC; apply Hobs, Io).
      destruct (idx images n) as [img | |]; cbn [bind] in E; try discriminate.
      destruct (reproject _ _ _ _ _ _ _) as [P | |] eqn:Rp; cbn [bind] in E; try discriminate.
      apply reproject_ok in Rp. destruct Rp as (frame & fit & _ & Fit & _ & EP).
      assert (RP : rigid P) by (rewrite EP; exact (fit_rigid _ _ _ _ _ Fit)).
      set (a := angular_distance (quat_of_mat (lin (pose o))) (quat_of_mat (lin P))) in *.
      injection E as <-. exists (cmp ++ [(o, (P, a))]). split; [ | split; [ | split ] ].
      + rewrite map_app, F. cbn [map fst]. symmetry. apply firstn_next, No.
      + rewrite app_length, Ln. cbn. lia.
      + intros i o' P' a' Hi. destruct (Nat.lt_ge_cases i n) as [Hl | Hl].
        * rewrite nth_error_app1 in Hi by lia. exact (Cm i o' P' a' Hi).
        * rewrite nth_error_app2, Ln in Hi by lia. destruct (i - n)%nat as [ | j] eqn:Ej; cbn in Hi; [ | destruct j; discriminate ].
          assert (i = n) by lia. subst i. injection Hi as <- <- <-. split; [ exists fit; split; assumption | ].
          apply angular_distance_angle; [ apply pose_rigid, Io | exact RP ].
      + rewrite !map_app. cbn [map]. rewrite !pushed_snoc. cbn [snd]. do 2 f_equal.
        unfold distance. cbn [fst snd]. exact (diff_norm (pose o) P (pose_rigid o Io)).
  Qed.

  Lemma analyzed images d : analyzeResults draw display runs p r images = Ok d ->
    images <> [] /\ (List.length images <= List.length (h2_observations p))%nat /\
    exists cmp, map fst cmp = firstn (List.length images) (h2_observations p) /\
      (forall i o P a, nth_error cmp i = Some (o, (P, a)) -> compared i o P a) /\
      let ds := map distance cmp in let angles := map (fun x => snd (snd x)) cmp in
      d = Diff (average ds) (std_dev ds) (degrees (average angles)) (degrees (std_dev angles)).
  Proof.
    unfold analyzeResults. intros E.
    match type of E with context [foldM ?f (seq 0 ?n) ?s] => destruct (foldM f (seq 0 n) s) as [accs | |] eqn:E0 end; cbn [bind] in E; try discriminate.
    apply analyze_state in E0; [ | lia ]. destruct E0 as (cmp & F & L & Cm & ->).
    destruct cmp as [ | x cmp].
    { cbn in E. discriminate. }
    assert (N : x :: cmp <> []) by discriminate. revert E. rewrite !pushed_mean, !pushed_std by discriminate. cbn [bind]. intros E. injection E as <-.
    assert (Le : (List.length images <= List.length (h2_observations p))%nat).
    { apply (f_equal (@List.length _)) in F. rewrite map_length, firstn_length in F. lia. }
    split; [ intros ->; cbn in L; discriminate | ]. split; [ exact Le | ]. exists (x :: cmp). split; [ exact F | ]. split; [ exact Cm | reflexivity ].
  Qed.

  Lemma degrees_zero a : degrees a = 0 <-> a = 0.
  Proof.
    unfold degrees. pose proof PI_RGT_0. split; [ | intros ->; unfold Rdiv; ring ].
    intros E. apply (f_equal (fun x => x * PI)) in E. unfold Rdiv in E. rewrite Rmult_assoc, Rinv_l in E by lra. lra.
  Qed.

  (** The reported means are zero exactly if pose estimation agrees with the calibration on every image. *)
  Lemma analyzed_zero images d : analyzeResults draw display runs p r images = Ok d ->
    exists Ps, List.length Ps = List.length images /\
      (forall i o P, nth_error (h2_observations p) i = Some o -> nth_error Ps i = Some P ->
         exists fit, fitted (runs i) (h2_intr p) (pose o) (correspondence_set o) fit /\ P = pnp_camera_to_target fit) /\
      (d = Diff 0 0 0 0 <-> forall i o P, nth_error (h2_observations p) i = Some o -> nth_error Ps i = Some P -> P = pose o).
  Proof.
    intros E. destruct (analyzed images d E) as (N & Le & cmp & F & Cm & ED). cbv zeta in ED.
    set (n := List.length images) in *.
    assert (L : List.length cmp = n) by (apply (f_equal (@List.length _)) in F; rewrite map_length, firstn_length in F; lia).
    assert (NC : cmp <> []) by (intros ->; cbn in L; destruct images; [ congruence | discriminate ]).
    assert (Nth : forall i o P, nth_error (h2_observations p) i = Some o -> nth_error (map (fun x => fst (snd x)) cmp) i = Some P ->
              exists a, nth_error cmp i = Some (o, (P, a))).
    { intros i o P Ho HP. rewrite nth_error_map in HP. destruct (nth_error cmp i) as [[o' [P' a]] |] eqn:Hi; cbn in HP; [ | discriminate ]. injection HP as ->.
      assert (i < n)%nat by (rewrite <- L; apply nth_error_Some; congruence).
      pose proof (f_equal (fun l => nth_error l i) F) as Fi. cbn beta in Fi. rewrite nth_error_map, Hi in Fi. cbn in Fi.
      assert (Ef : nth_error (firstn n (h2_observations p)) i = nth_error (h2_observations p) i).
      { clear -H. revert i H. generalize (h2_observations p). induction n as [ | m IH]; intros [ | x l] [ | i] H; cbn; try lia; try reflexivity. apply IH. lia. }
      rewrite Ef, Ho in Fi. injection Fi as ->. exists a. reflexivity. }
    assert (Rev : forall i o P a, nth_error cmp i = Some (o, (P, a)) -> nth_error (h2_observations p) i = Some o /\ In o (h2_observations p)).
    { intros i o P a Hi. assert (i < n)%nat by (rewrite <- L; apply nth_error_Some; congruence).
      pose proof (f_equal (fun l => nth_error l i) F) as Fi. cbn beta in Fi. rewrite nth_error_map, Hi in Fi. cbn in Fi.
      assert (Ef : nth_error (firstn n (h2_observations p)) i = nth_error (h2_observations p) i).
      { clear -H. revert i H. generalize (h2_observations p). induction n as [ | m IH]; intros [ | x l] [ | i] H; cbn; try lia; try reflexivity. apply IH. lia. }
      rewrite Ef in Fi. symmetry in Fi. split; [ exact Fi | exact (nth_error_In _ _ Fi) ]. }
    assert (Zero : (d = Diff 0 0 0 0) <-> (forall x, In x (map distance cmp) -> x = 0) /\ (forall x, In x (map (fun x => snd (snd x)) cmp) -> x = 0)).
    { assert (P1 : forall x, In x (map distance cmp) -> 0 <= x).
      { intros x Hx. apply in_map_iff in Hx. destruct Hx as (y & <- & _). apply norm_nonneg. }
      assert (P2 : forall x, In x (map (fun x => snd (snd x)) cmp) -> 0 <= x).
      { intros x Hx. apply in_map_iff in Hx. destruct Hx as ([o [P a]] & <- & Hy). apply In_nth_error in Hy. destruct Hy as [i Hi].
        destruct (Cm i o P a Hi) as [_ [[? _] _]]. exact H. }
      rewrite ED. split.
      - intros X. injection X as X1 X2 X3 X4. apply (proj1 (degrees_zero _)) in X3.
        split; [ refine (proj1 (average_zero _ _ P1) X1) | refine (proj1 (average_zero _ _ P2) X3) ]; intros X; apply map_eq_nil in X; contradiction.
      - intros [Z1 Z2]. rewrite (std_dev_zero _ Z1), (std_dev_zero _ Z2).
        rewrite (proj2 (average_zero (map distance cmp) ltac:(intros X; apply map_eq_nil in X; contradiction) P1) Z1).
        rewrite (proj2 (average_zero (map (fun x => snd (snd x)) cmp) ltac:(intros X; apply map_eq_nil in X; contradiction) P2) Z2).
        rewrite (proj2 (degrees_zero 0) eq_refl). reflexivity. }
    exists (map (fun x => fst (snd x)) cmp). split; [ rewrite map_length; exact L | ]. split.
    - intros i o P Ho HP. destruct (Nth i o P Ho HP) as [a Hi]. exact (proj1 (Cm i o P a Hi)).
    - rewrite Zero. split.
      + intros [Z1 Z2] i o P Ho HP. destruct (Nth i o P Ho HP) as [a Hi].
        assert (D0 : distance (o, (P, a)) = 0) by (apply Z1, in_map, (nth_error_In _ _ Hi)).
        assert (A0 : a = 0) by (apply (Z2 a), in_map_iff; exists (o, (P, a)); split; [ reflexivity | exact (nth_error_In _ _ Hi) ]).
        destruct (Cm i o P a Hi) as [_ (_ & u & Hu & EA)]. subst a. apply norm_zero in D0. cbn [fst snd] in D0.
        apply iso_ext.
        * rewrite EA. rewrite aa_matrix_0. rewrite mmul_I_l. reflexivity.
        * destruct (tr P), (tr (pose o)). geo_unfold. injection D0 as D1 D2 D3. f_equal; lra.
      + intros Eq. split.
        * intros x Hx. apply in_map_iff in Hx. destruct Hx as ([o [P a]] & <- & Hy). apply In_nth_error in Hy. destruct Hy as [i Hi].
          destruct (Rev i o P a Hi) as [Ho _]. unfold distance. cbn [fst snd].
          rewrite (Eq i o P Ho) by (rewrite nth_error_map, Hi; reflexivity).
          replace (vsub (tr (pose o)) (tr (pose o))) with vzero by (geo_unfold; f_equal; ring). apply norm_vzero.
        * intros x Hx. apply in_map_iff in Hx. destruct Hx as ([o [P a]] & <- & Hy). apply In_nth_error in Hy. destruct Hy as [i Hi].
          destruct (Rev i o P a Hi) as [Ho Io]. cbn [snd].
          pose proof (Eq i o P Ho ltac:(rewrite nth_error_map, Hi; reflexivity)) as EP.
          destruct (Cm i o P a Hi) as [_ AB]. rewrite EP in AB. exact (angle_between_unique _ _ _ _ (pose_rigid o Io) AB (angle_between_self _)).
  Qed.
End Compare.

(** Nothing goes wrong if every picture can be drawn and shown and every PnP call returns. *)
Lemma analyze_succeeds {image} (draw : image -> list vec2 -> res image) display runs p r images :
  images <> [] -> (List.length images <= List.length (h2_observations p))%nat ->
  rigid (he_camera_mount_to_camera r) -> (forall o, In o (h2_observations p) -> rigid (to_camera_mount o)) ->
  (forall img pts, exists frame, draw img pts = Ok frame) -> (forall frame, display frame = Ok tt) ->
  (forall i o, nth_error (h2_observations p) i = Some o -> (i < List.length images)%nat ->
     exists fit, fitted (runs i) (h2_intr p) (predicted r o) (correspondence_set o) fit) ->
  exists d, analyzeResults draw display runs p r images = Ok d.
Proof.
  intros N L HC HO Dr Di Fit. unfold analyzeResults.
  match goal with |- context [foldM ?f (seq 0 ?n) ?s] =>
    assert (G : forall m, (m <= n)%nat -> exists a b, foldM f (seq 0 m) s = Ok (pushed a, pushed b) /\ List.length a = m /\ List.length b = m) end.
  { induction m as [ | m IH]; intros Hm; [ exists [], []; repeat split | ].
    destruct IH as (a & b & E & La & Lb); [ lia | ]. rewrite seq_S, foldM_app, E. cbn [bind plus foldM].
    assert (exists o, nth_error (h2_observations p) m = Some o) as [o Ho].
    { destruct (nth_error (h2_observations p) m) as [o |] eqn:X; [ eauto | apply nth_error_None in X; lia ]. }
    assert (exists img, nth_error images m = Some img) as [img Hi].
    { destruct (nth_error images m) as [o' |] eqn:X; [ eauto | apply nth_error_None in X; lia ]. }
    unfold at_ at 1, idx at 1. rewrite Ho, Hi. cbn [bind].
    rewrite camera_to_target_eq by (try exact HC; apply HO, (nth_error_In _ _ Ho)).
    destruct (Fit m o Ho ltac:(lia)) as [fit Hf]. destruct (Dr img (getReprojections (predicted r o) (h2_intr p) (map in_target (correspondence_set o)))) as [frame Hd].
    assert (Hr : reproject draw display (runs m) (predicted r o) (correspondence_set o) (h2_intr p) img = Ok (pnp_camera_to_target fit)).
    { apply reproject_ok. exists frame, fit. auto. }
    unfold predicted in Hr at 1. rewrite Hr. cbn [bind].
    eexists (a ++ [_]), (b ++ [_]). rewrite !pushed_snoc, !app_length, La, Lb. split; [ reflexivity | cbn; split; lia ]. }
  destruct (G _ (le_n _)) as (a & b & E & La & Lb). rewrite E. cbn [bind].
  assert (0 < List.length images)%nat by (destruct images; [ congruence | cbn; lia ]).
  rewrite !pushed_mean by (intros ->; cbn in *; lia). cbn [bind]. eexists. reflexivity.
Qed.
(** More images than observations. *)
Lemma analyze_too_many {image} (draw : image -> list vec2 -> res image) display runs p r images d :
  (List.length (h2_observations p) < List.length images)%nat -> analyzeResults draw display runs p r images <> Ok d.
Proof.
  intros L E. unfold analyzeResults in E.
  match type of E with context [foldM ?f (seq 0 ?n) ?s] => destruct (foldM f (seq 0 n) s) as [accs | |] eqn:E0 end; cbn [bind] in E; try discriminate.
  set (m := List.length (h2_observations p)) in *.
  replace (List.length images) with (m + S (List.length images - m - 1))%nat in E0 by lia. rewrite seq_app, foldM_app in E0.
  match type of E0 with context [foldM ?f (seq 0 m) ?s] => destruct (foldM f (seq 0 m) s) as [[s1 s2] | |] end; cbn [bind] in E0; try discriminate.
  cbn [plus seq foldM] in E0. unfold at_ in E0 at 1. rewrite (proj2 (nth_error_None _ _)) in E0 by (unfold m; lia). discriminate.
Qed.
Lemma ex_stats : exists s, errorStats [3; 1; 2] = Ok s /\ err_mean s = 2 /\ err_stdev s = Some 1 /\ err_min s = 1 /\ err_max s = 3.
Proof.
  destruct (error_stats_spec [3; 1; 2]) as (s & E & M & _ & D & [I L] & [I' L']); [ discriminate | ].
  assert (A : average [3; 1; 2] = 2) by (unfold average, total; cbn; lra).
  exists s. split; [ exact E | ]. split; [ rewrite M; exact A | ]. split.
  - rewrite D by (cbn; lia). f_equal. unfold sample_dev. rewrite A. change (INR (List.length [3; 1; 2] - 1)) with (1 + 1). unfold total. cbn [map fold_right]. transitivity (sqrt 1); [ f_equal; field | apply sqrt_1 ].
  - split.
    + pose proof (L 1 (or_intror (or_introl eq_refl))). destruct I as [X | [X | [X | []]]]; lra.
    + pose proof (L' 3 (or_introl eq_refl)). destruct I' as [X | [X | [X | []]]]; lra.
Qed.
