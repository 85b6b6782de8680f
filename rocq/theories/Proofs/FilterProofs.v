(** The filters of the circle detector. *)
From Coq Require Import Reals Lra Lia Arith Bool List.
From Verif.Base Require Import Geom Outcome.
From Verif.Model Require Import CircleDetector.
From Verif.Spec Require Import DetectorSpec.
From Verif.Proofs Require Import GeomLemmas RotLemmas ListLemmas TargetProofs DetectorProofs.
Import ListNotations.
Local Open Scope R_scope.

Lemma outside_spec x lo hi : outside x lo hi = negb (if Rle_dec lo x then if Rlt_dec x hi then true else false else false).
Proof. unfold outside, rltb, rleb. destruct (Rlt_dec x lo), (Rle_dec lo x), (Rle_dec hi x), (Rlt_dec x hi); cbn; try reflexivity; lra. Qed.
Lemma outside_true x lo hi : outside x lo hi = true <-> ~ within lo hi x.
Proof. unfold within. rewrite outside_spec. destruct (Rle_dec lo x), (Rlt_dec x hi); cbn; split; intros; try congruence; try tauto; lra. Qed.
Lemma outside_false x lo hi : outside x lo hi = false <-> within lo hi x.
Proof. unfold within. rewrite outside_spec. destruct (Rle_dec lo x), (Rlt_dec x hi); cbn; split; intros; try congruence; try tauto; lra. Qed.

(** ** Inertia *)

Lemma principal_unique a b c lo hi lo' hi' : principal_moments a b c lo hi -> principal_moments a b c lo' hi' -> lo = lo' /\ hi = hi'.
Proof.
  intros (O & S & P) (O' & S' & P'). assert (D : (hi - lo) * (hi - lo) = (hi' - lo') * (hi' - lo')).
  { replace ((hi - lo) * (hi - lo)) with ((lo + hi) * (lo + hi) - 4 * (lo * hi)) by ring.
    replace ((hi' - lo') * (hi' - lo')) with ((lo' + hi') * (lo' + hi') - 4 * (lo' * hi')) by ring. rewrite S, S', P, P'. ring. }
  assert (hi - lo = hi' - lo') by (apply Rsqr_inj; [ lra | lra | exact D ]). lra.
Qed.
Lemma principal_value a b c : let d := sqrt ((2 * b) * (2 * b) + (a - c) * (a - c)) in
  principal_moments a b c ((a + c - d) / 2) ((a + c + d) / 2).
Proof.
  intros d. assert (D : d * d = (2 * b) * (2 * b) + (a - c) * (a - c)) by (apply sqrt_sqrt; pose proof (Rle_0_sqr (2 * b)); pose proof (Rle_0_sqr (a - c)); unfold Rsqr in *; lra).
  pose proof (sqrt_pos ((2 * b) * (2 * b) + (a - c) * (a - c))) as P. fold d in P. split; [ lra | ]. split; [ field | ].
  replace ((a + c - d) / 2 * ((a + c + d) / 2)) with (((a + c) * (a + c) - d * d) / 4) by field. rewrite D. field.
Qed.
Lemma inertia_unique a b c r r' : inertia a b c r -> inertia a b c r' -> r = r'.
Proof.
  intros (lo & hi & P & H) (lo' & hi' & P' & H'). destruct (principal_unique _ _ _ _ _ _ _ P P') as [<- <-].
  destruct H as [[H ->] | [H ->]], H' as [[H' ->] | [H' ->]]; try reflexivity; lra.
Qed.
Lemma inertia_value a b c : 0 < a + c -> exists r, inertia_ratio a b c = Ok r /\ inertia a b c r.
Proof.
  intros S. pose proof (principal_value a b c) as V. unfold inertia_ratio. cbv zeta in *.
  set (d := sqrt ((2 * b) * (2 * b) + (a - c) * (a - c))) in *.
  assert (P : 0 <= d) by apply sqrt_pos.
  assert (D : d * d = (2 * b) * (2 * b) + (a - c) * (a - c)) by (apply sqrt_sqrt; pose proof (Rle_0_sqr (2 * b)); pose proof (Rle_0_sqr (a - c)); unfold Rsqr in *; lra).
  clearbody d. destruct (Rlt_dec (1 / 100) d) as [L | L].
  - assert (E1 : 1 / 2 * (a + c) - 1 / 2 * (a - c) * ((a - c) / d) - b * (2 * b / d) = (a + c - d) / 2).
    { apply Rmult_eq_reg_r with (2 * d); [ | lra ]. field_simplify; [ | lra ].
      replace (d ^ 2) with (d * d) by ring. rewrite D. ring. }
    assert (E2 : 1 / 2 * (a + c) - 1 / 2 * (a - c) * - ((a - c) / d) - b * - (2 * b / d) = (a + c + d) / 2).
    { apply Rmult_eq_reg_r with (2 * d); [ | lra ]. field_simplify; [ | lra ].
      replace (d ^ 2) with (d * d) by ring. rewrite D. ring. }
    rewrite E1, E2. destruct (Req_EM_T _ 0) as [Z | Z]; [ exfalso; lra | ]. eexists. split; [ reflexivity | ].
    exists ((a + c - d) / 2), ((a + c + d) / 2). split; [ exact V | ]. left. split; [ lra | reflexivity ].
  - exists 1. split; [ reflexivity | ]. exists ((a + c - d) / 2), ((a + c + d) / 2). split; [ exact V | ]. right. split; [ lra | reflexivity ].
Qed.

(** ** Ellipse *)

Lemma ellipse_output_spec b pt k : 0 < rr_width b -> 0 < rr_height b -> ellipse_fraction b pt k <-> k = ellipse_output b pt.
Proof.
  intros W H. unfold ellipse_fraction, ellipse_output, ellipse_point, v2sub. cbv zeta. cbn [px py].
  set (ang := rr_angle b * PI / 180). set (w := rr_width b / 2). set (h := rr_height b / 2).
  assert (Hw : 0 < w) by (unfold w; lra). assert (Hh : 0 < h) by (unfold h; lra). clearbody w h ang.
  set (vx := px pt - px (rr_center b)). set (vy := py pt - py (rr_center b)).
  assert (T : cos ang * cos ang + sin ang * sin ang = 1) by (pose proof (sin2_cos2 ang) as T; unfold Rsqr in T; lra).
  set (ca := cos ang) in *. set (sa := sin ang) in *. clearbody ca sa. split.
  - intros [K [t E]].
    assert (Ex : vx = k * (w * cos t * ca + h * sin t * sa)) by (apply (f_equal px) in E; cbn [px] in E; rewrite E; ring).
    assert (Ey : vy = k * (w * cos t * sa - h * sin t * ca)) by (apply (f_equal py) in E; cbn [py] in E; rewrite E; ring).
    assert (X : vx * ca + vy * sa = k * w * cos t).
    { rewrite Ex, Ey. replace (k * w * cos t) with (k * w * cos t * (ca * ca + sa * sa)) by (rewrite T; ring). ring. }
    assert (Y : vx * sa - vy * ca = k * h * sin t).
    { rewrite Ex, Ey. replace (k * h * sin t) with (k * h * sin t * (ca * ca + sa * sa)) by (rewrite T; ring). ring. }
    rewrite X, Y. symmetry.
    replace (k * w * cos t * (k * w * cos t) / (w * w) + k * h * sin t * (k * h * sin t) / (h * h)) with (k * k * (cos t * cos t + sin t * sin t)) by (field; lra).
    pose proof (sin2_cos2 t) as U. unfold Rsqr in U. replace (cos t * cos t + sin t * sin t) with 1 by lra. rewrite Rmult_1_r. apply sqrt_square. exact K.
  - intros ->. split; [ apply sqrt_pos | ]. set (x := vx * ca + vy * sa). set (y := vx * sa - vy * ca).
    set (k := sqrt (x * x / (w * w) + y * y / (h * h))).
    assert (Q : x * x / (w * w) + y * y / (h * h) = (x / w) * (x / w) + (y / h) * (y / h)) by (field; lra).
    assert (Z : exists t, x = k * w * cos t /\ y = k * h * sin t).
    { destruct (Req_dec (x / w) 0) as [X0 | X0]; [ destruct (Req_dec (y / h) 0) as [Y0 | Y0] | ].
      - exists 0. unfold k. rewrite Q, X0, Y0. rewrite Rmult_0_l, Rplus_0_l, sqrt_0.
        assert (x = 0) by (replace x with (x / w * w) by (field; lra); rewrite X0; ring). assert (y = 0) by (replace y with (y / h * h) by (field; lra); rewrite Y0; ring). split; lra.
      - destruct (atan2_spec (y / h) (x / w)) as [C S]; [ tauto | ]. exists (atan2 (y / h) (x / w)).
        rewrite C, S. unfold k. rewrite Q. set (n := sqrt _). assert (n <> 0).
        { apply Rgt_not_eq. apply sqrt_lt_R0. pose proof (Rle_0_sqr (x / w)). assert (0 < Rsqr (y / h)) by (apply Rlt_0_sqr; exact Y0). unfold Rsqr in *. lra. }
        split; field; repeat split; lra.
      - destruct (atan2_spec (y / h) (x / w)) as [C S]; [ tauto | ]. exists (atan2 (y / h) (x / w)).
        rewrite C, S. unfold k. rewrite Q. set (n := sqrt _). assert (n <> 0).
        { apply Rgt_not_eq. apply sqrt_lt_R0. pose proof (Rle_0_sqr (y / h)). assert (0 < Rsqr (x / w)) by (apply Rlt_0_sqr; exact X0). unfold Rsqr in *. lra. }
        split; field; repeat split; lra. }
    destruct Z as (t & Ex & Ey). exists t. f_equal.
    + replace (k * (px (rr_center b) + (w * cos t * ca + h * sin t * sa) - px (rr_center b))) with ((k * w * cos t) * ca + (k * h * sin t) * sa) by ring.
      rewrite <- Ex, <- Ey. unfold x, y. replace vx with (vx * (ca * ca + sa * sa)) at 1 by (rewrite T; ring). ring.
    + replace (k * (py (rr_center b) + (w * cos t * sa - h * sin t * ca) - py (rr_center b))) with ((k * w * cos t) * sa - (k * h * sin t) * ca) by ring.
      rewrite <- Ex, <- Ey. unfold x, y. replace vy with (vy * (ca * ca + sa * sa)) at 1 by (rewrite T; ring). ring.
Qed.
Lemma output_sum b l a : fold_left (fun output pt => output + ellipse_output b pt) l a = a + fold_right Rplus 0 (map (ellipse_output b) l).
Proof. revert a. induction l as [ | x r IH]; intros a; cbn; [ ring | ]. rewrite IH. ring. Qed.
Lemma fractions_map b l ks : 0 < rr_width b -> 0 < rr_height b -> Forall2 (ellipse_fraction b) l ks <-> ks = map (ellipse_output b) l.
Proof.
  intros W H. split.
  - intros F. induction F as [ | x k l ks Hk F IH]; [ reflexivity | ]. cbn. apply ellipse_output_spec in Hk; [ | assumption | assumption ]. congruence.
  - intros ->. induction l; cbn; constructor; [ | assumption ]. apply ellipse_output_spec; auto.
Qed.
Lemma error_spec c : measurable c -> exists e, ellipse_error c = Ok e /\ 0 <= e /\ forall e', ellipse_deviation c e' <-> e' = e.
Proof.
  intros (_ & _ & _ & W & H). unfold ellipse_error. destruct (Req_EM_T _ 0) as [Z | _]; [ exfalso; lra | ]. destruct (Req_EM_T _ 0) as [Z | _]; [ exfalso; lra | ].
  cbv zeta. rewrite output_sum, Rplus_0_l. eexists. split; [ reflexivity | ]. split; [ apply Rabs_pos | ]. intros e'. unfold ellipse_deviation. split.
  - intros (ks & F & ->). apply fractions_map in F; [ | assumption | assumption ]. subst. reflexivity.
  - intros ->. eexists. split; [ apply fractions_map; auto | reflexivity ].
Qed.

(** ** The filters *)

Lemma filtered_spec p c : measurable c -> exists b, filtered p c = Ok b /\
  (b = false <->
     (filterByArea p = true -> within (minArea p) (maxArea p) (ct_m00 c)) /\
     (filterByCircularity p = true -> within (minCircularity p) (maxCircularity p) (4 * PI * ct_m00 c / (ct_perimeter c * ct_perimeter c))) /\
     (filterByInertia p = true -> exists r, inertia (ct_mu20 c) (ct_mu11 c) (ct_mu02 c) r /\ within (minInertiaRatio p) (maxInertiaRatio p) r) /\
     (filterByConvexity p = true -> within (minConvexity p) (maxConvexity p) (ct_area c / ct_hull_area c)) /\
     (filterByColor p = true -> ct_color c = circleColor p)).
Proof.
  intros (Mp & Mh & Mi & _). destruct (inertia_value _ (ct_mu11 c) _ Mi) as (r & Er & Ir).
  assert (Un : forall P : R -> Prop, (exists r', inertia (ct_mu20 c) (ct_mu11 c) (ct_mu02 c) r' /\ P r') <-> P r).
  { intros P. split; [ intros (r' & I & Hp); rewrite (inertia_unique _ _ _ _ _ Ir I); exact Hp | intros Hp; exists r; auto ]. }
  unfold filtered. rewrite Er. cbn [bind].
  destruct (Req_EM_T (ct_perimeter c) 0) as [Z | _]; [ contradiction | ]. destruct (Req_EM_T (ct_hull_area c) 0) as [Z | _]; [ contradiction | ].
  set (o1 := outside (ct_m00 c) _ _). set (o2 := outside (4 * PI * ct_m00 c / _) _ _). set (o3 := outside r _ _). set (o4 := outside (ct_area c / _) _ _).
  exists (filterByArea p && o1 || (filterByCircularity p && o2 || (filterByInertia p && o3 || (filterByConvexity p && o4 || filterByColor p && negb (Nat.eqb (ct_color c) (circleColor p)))))).
  split.
  - clearbody o1 o2 o3 o4. destruct (filterByArea p), (filterByCircularity p), (filterByInertia p), (filterByConvexity p), o1, o2, o3, o4; reflexivity.
  - rewrite (Un (within (minInertiaRatio p) (maxInertiaRatio p))), !orb_false_iff.
    assert (G : forall f lo hi x, f && outside x lo hi = false <-> (f = true -> within lo hi x)).
    { intros f lo hi x. destruct f; cbn; [ rewrite outside_false; intuition | intuition discriminate ]. }
    unfold o1, o2, o3, o4. rewrite !G.
    assert (K : filterByColor p && negb (Nat.eqb (ct_color c) (circleColor p)) = false <-> (filterByColor p = true -> ct_color c = circleColor p)).
    { destruct (filterByColor p); cbn; [ rewrite negb_false_iff, Nat.eqb_eq; intuition | intuition discriminate ]. }
    rewrite K. reflexivity.
Qed.

(** One contour of the loop. *)
Definition step (p : circle_params) (c : contour) : res (option center) :=
  do skip <- filtered p c;
  if (skip : bool) then Ok None else
  do err <- ellipse_error c;
  if Rlt_dec err (maxAverageEllipseError p) then do x <- make_center c err; Ok (Some x) else Ok None.
Lemma find_unfold contours p acc :
  foldM (fun centers c =>
      do skip <- filtered p c;
      if (skip : bool) then Ok centers else
      do err <- ellipse_error c;
      if Rlt_dec err (maxAverageEllipseError p) then do x <- make_center c err; Ok (centers ++ [x]) else Ok centers) contours acc =
  (do os <- mapM (step p) contours; Ok (acc ++ flat_map (fun o => match o with Some x => [x] | None => [] end) os)).
Proof.
  revert acc. induction contours as [ | c r IH]; intros acc; cbn [foldM mapM]; [ cbn; rewrite app_nil_r; reflexivity | ].
  unfold step at 1. destruct (filtered p c) as [[ | ] | | ]; cbn [bind]; try reflexivity.
  - rewrite IH. destruct (mapM (step p) r); cbn [bind]; reflexivity.
  - destruct (ellipse_error c) as [e | | ]; cbn [bind]; try reflexivity. destruct (Rlt_dec _ _).
    + destruct (make_center c e) as [x | | ]; cbn [bind]; try reflexivity. rewrite IH. destruct (mapM (step p) r); cbn [bind]; try reflexivity. cbn. rewrite <- app_assoc. reflexivity.
    + cbn [bind]. rewrite IH. destruct (mapM (step p) r); cbn [bind]; reflexivity.
Qed.
Lemma step_spec p c : (5 <= length (ct_points c))%nat -> measurable c ->
  (~ accepted p c /\ step p c = Ok None) \/
  (accepted p c /\ ((ellipse_deviation c 0 /\ step p c = UB) \/ (~ ellipse_deviation c 0 /\ exists x, step p c = Ok (Some x) /\ center_of c x))).
Proof.
  intros L M. unfold step, accepted. destruct (filtered_spec p c M) as (b & -> & Hb). cbn [bind]. destruct b.
  - left. split; [ | reflexivity ]. intros (_ & A & B & C & D & E & _). assert (true = false) by (apply Hb; auto). discriminate.
  - destruct (proj1 Hb eq_refl) as (A & B & C & D & E). destruct (error_spec c M) as (e & -> & Pe & He). cbn [bind].
    destruct (Rlt_dec e (maxAverageEllipseError p)) as [X | X].
    + right. split; [ repeat (split; [ assumption | ]); exists e; split; [ apply He; reflexivity | exact X ] | ]. unfold make_center.
      destruct (Req_EM_T e 0) as [Z | Z].
      * left. split; [ apply He; congruence | reflexivity ].
      * right. split; [ intros H; apply He in H; congruence | ]. eexists. split; [ reflexivity | ]. split; [ reflexivity | ]. split; [ cbn [c_radius]; field | ].
        exists e. split; [ apply He; reflexivity | ]. split; [ lra | reflexivity ].
    + left. split; [ | reflexivity ]. intros (_ & _ & _ & _ & _ & _ & e' & H & H'). apply He in H. subst. contradiction.
Qed.
Lemma accepted_long p c : accepted p c -> (5 <= length (ct_points c))%nat.
Proof. intros [H _]. exact H. Qed.
Lemma filter_none {A} (f : A -> bool) l : (forall a, In a l -> f a = false) -> filter f l = [].
Proof. induction l as [ | a r IH]; intros H; cbn; [ reflexivity | ]. rewrite H by (left; reflexivity). apply IH. intros; apply H; right; assumption. Qed.
Lemma find_spec contours p : (forall c, In c contours -> measurable c) ->
  exists b, (forall c, In c contours -> (b c = true <-> accepted p c)) /\
  ((exists cs, findCircles contours p = Ok cs /\ Forall2 center_of (filter b contours) cs /\ forall c, In c contours -> accepted p c -> ~ ellipse_deviation c 0) \/
   (findCircles contours p = UB /\ exists c, In c contours /\ accepted p c /\ ellipse_deviation c 0)).
Proof.
  intros M. exists (fun c => negb (Nat.ltb (length (ct_points c)) 5) && match step p c with Ok None => false | _ => true end). split.
  - intros c Hc. destruct (Nat.ltb_spec (length (ct_points c)) 5) as [L | L]; cbn [negb andb].
    + split; [ discriminate | intros H; apply accepted_long in H; lia ].
    + destruct (step_spec p c L (M c Hc)) as [[N ->] | [A [[_ ->] | [_ (x & -> & _)]]]]; split; intros; congruence || contradiction || assumption.
  - unfold findCircles. cbv zeta. rewrite find_unfold. induction contours as [ | c r IH].
    + left. exists []. cbn. split; [ reflexivity | ]. split; [ constructor | intros ? [] ].
    + assert (Mc := M c (or_introl eq_refl)). specialize (IH (fun a Ha => M a (or_intror Ha))). cbn [filter].
      destruct (Nat.ltb_spec (length (ct_points c)) 5) as [L | L]; cbn [negb andb].
      * destruct IH as [(cs & E & F & N) | (E & x & Hx & N)]; [ left | right ].
        { exists cs. split; [ exact E | ]. split; [ exact F | ]. intros a [<- | Ha] Aa; [ apply accepted_long in Aa; lia | exact (N a Ha Aa) ]. }
        { split; [ exact E | ]. exists x. split; [ right; exact Hx | exact N ]. }
      * cbn [mapM]. destruct (step_spec p c L Mc) as [[N0 ->] | [A [[Z ->] | [Z (x & -> & Cx)]]]]; cbn [bind].
        { destruct IH as [(cs & E & F & N) | (E & x & Hx & N)]; [ left | right ].
          - destruct (mapM (step p) _) as [os | | ] in E |- *; cbn [bind] in E |- *; try discriminate. exists cs. split; [ exact E | ]. split; [ exact F | ].
            intros a [<- | Ha] Aa; [ contradiction | exact (N a Ha Aa) ].
          - destruct (mapM (step p) _) as [os | | ] in E |- *; cbn [bind] in E |- *; try discriminate. split; [ reflexivity | ]. exists x. split; [ right; exact Hx | exact N ]. }
        { right. split; [ reflexivity | ]. exists c. split; [ left; reflexivity | auto ]. }
        { destruct IH as [(cs & E & F & N) | (E & y & Hy & N)]; [ left | right ].
          - destruct (mapM (step p) _) as [os | | ] in E |- *; cbn [bind] in E |- *; try discriminate. injection E as E. exists (x :: cs). cbn. rewrite E. split; [ reflexivity | ].
            split; [ constructor; assumption | ]. intros a [<- | Ha] Aa; [ exact Z | exact (N a Ha Aa) ].
          - destruct (mapM (step p) _) as [os | | ] in E |- *; cbn [bind] in E |- *; try discriminate. split; [ reflexivity | ]. exists y. split; [ right; exact Hy | exact N ]. }
Qed.

(** ** All together *)

Lemma find_confidences contours p cs c : (forall x, In x contours -> measurable x) -> findCircles contours p = Ok cs -> In c cs -> 0 < c_confidence c.
Proof.
  intros M E Hc. destruct (find_spec contours p M) as (b & _ & [(cs' & E' & F & _) | [E' _]]); rewrite E in E'; [ injection E' as <- | discriminate ].
  destruct (Forall2_right _ _ _ c F Hc) as (x & _ & (_ & _ & e & _ & Pe & ->)). apply Rdiv_lt_0_compat; lra.
Qed.
Lemma detect_spec image p ks : (forall t c, In c (image t) -> measurable c) -> 0 <= circleInclusionRadius p -> 0 <= maxRadiusDiff p ->
  detect image p = Ok ks ->
  exists ts all gs, length ts = nThresholds p /\ Forall2 (fun t cs => findCircles (image t) p = Ok cs) ts all /\
    Permutation.Permutation (concat gs) (concat all) /\ well_grouped p gs /\
    Forall2 (fun g k => exists h rest, g = h :: rest /\ norm2 (v2sub (c_location h) (kp_pt k)) <= circleInclusionRadius p /\
     Rabs (c_radius h - kp_size k / 2) <= maxRadiusDiff p) (repeated p gs) ks.
Proof.
  intros M R0 D0 E. unfold detect in E. destruct (thresholds_spec p) as (ts & L & _ & _ & T). rewrite T in E. destruct (Nat.ltb _ _); [ discriminate | ].
  destruct (mapM (fun t => findCircles (image t) p) ts) as [all | | ] eqn:Ea; cbn [bind] in E; try discriminate.
  assert (F : Forall2 (fun t cs => findCircles (image t) p = Ok cs) ts all) by (eapply mapM_forall2; [ exact Ea | intros; assumption ]).
  destruct (groups_spec p all) as (gs & Eg & W & P). exists ts, all, gs. split; [ exact L | ]. split; [ exact F | ]. split; [ exact P | ]. split; [ exact W | ].
  apply (keypoints_close p all ks gs R0 D0); [ | exact Eg | exact E ]. intros c Hc. apply in_concat in Hc. destruct Hc as (cs & Hcs & Hc).
  destruct (Forall2_right _ _ _ cs F Hcs) as (t & _ & Et). eapply find_confidences; [ | exact Et | exact Hc ]. intros x Hx. eapply M; exact Hx.
Qed.

(** ** Examples *)

(** A contour of five points of the circle of radius 5, with a fitted circle of the given diameter. *)
Definition ex_contour (d : R) : contour :=
  Contour [V2 5 0; V2 3 4; V2 0 5; V2 (-5) 0; V2 0 (-5)] 78 400 500 500 31 78 79 (RRect (V2 0 0) d d 0) 255.
Definition ex_params : circle_params :=
  CircleParams 50 220 3 2 3 2 (1 / 5) true 255 true 10 1000 false 0 0 false 0 0 false 0 0.
Lemma ex_measurable d : 0 < d -> measurable (ex_contour d).
Proof. intros H. unfold measurable. cbn. repeat split; lra. Qed.
Lemma ex_output d pt : 0 < d -> px pt * px pt + py pt * py pt = 25 -> ellipse_output (RRect (V2 0 0) d d 0) pt = 10 / d.
Proof.
  intros D E. unfold ellipse_output, v2sub. cbv zeta. cbn [rr_angle rr_width rr_height rr_center px py].
  replace (0 * PI / 180) with 0 by field. rewrite cos_0, sin_0, !Rminus_0_r, !Rmult_1_r, !Rmult_0_r, Rplus_0_r.
  replace ((0 - py pt) * (0 - py pt)) with (py pt * py pt) by ring.
  replace (px pt * px pt / (d / 2 * (d / 2)) + py pt * py pt / (d / 2 * (d / 2))) with (4 * (px pt * px pt + py pt * py pt) / (d * d)) by (field; lra).
  rewrite E. replace (4 * 25 / (d * d)) with ((10 / d) * (10 / d)) by (field; lra). apply sqrt_square. left. apply Rdiv_lt_0_compat; lra.
Qed.
Lemma ex_deviation d : 0 < d -> ellipse_deviation (ex_contour d) (Rabs (10 / d - 1)).
Proof.
  intros D. exists [10 / d; 10 / d; 10 / d; 10 / d; 10 / d]. split.
  - cbn [ex_contour ct_points ct_box]. repeat (apply Forall2_cons; [ apply ellipse_output_spec; [ exact D | exact D | rewrite ex_output by (cbn; lra); reflexivity ] | ]). constructor.
  - cbn [ex_contour ct_points fold_right length INR]. f_equal. field. lra.
Qed.
Lemma ex_accepted d : 0 < d -> Rabs (10 / d - 1) < 1 / 5 -> accepted ex_params (ex_contour d).
Proof.
  intros D H. unfold accepted. split; [ cbn; auto | ]. cbn [ex_params filterByArea filterByCircularity filterByInertia filterByConvexity filterByColor].
  split; [ intros _; unfold within; cbn; lra | ]. split; [ discriminate | ]. split; [ discriminate | ]. split; [ discriminate | ]. split; [ reflexivity | ].
  exists (Rabs (10 / d - 1)). split; [ apply ex_deviation; exact D | exact H ].
Qed.
Lemma ex_found : accepted ex_params (ex_contour 11) /\ exists x, findCircles [ex_contour 11] ex_params = Ok [x] /\ center_of (ex_contour 11) x.
Proof.
  assert (E : Rabs (10 / 11 - 1) = 1 / 11) by (rewrite Rabs_left; [ field | lra ]).
  assert (A : accepted ex_params (ex_contour 11)) by (apply ex_accepted; [ lra | rewrite E; lra ]).
  split; [ exact A | ]. assert (M : forall c, In c [ex_contour 11] -> measurable c) by (intros c [<- | []]; apply ex_measurable; lra).
  destruct (find_spec _ ex_params M) as (b & B & [(cs & F & G & _) | (_ & c & [<- | []] & _ & Z)]).
  - cbn [filter] in G. rewrite (proj2 (B (ex_contour 11) (or_introl eq_refl)) A) in G. inversion G as [ | ? x ? ? Hx G']; subst. inversion G'; subst. exists x. auto.
  - exfalso. destruct (error_spec (ex_contour 11) (ex_measurable 11 ltac:(lra))) as (e & _ & _ & U). pose proof (ex_deviation 11 ltac:(lra)) as V. apply U in V. apply U in Z. rewrite E in V. lra.
Qed.
Lemma ex_perfect : measurable (ex_contour 10) /\ accepted ex_params (ex_contour 10) /\ ellipse_deviation (ex_contour 10) 0 /\ findCircles [ex_contour 10] ex_params = UB.
Proof.
  assert (E : Rabs (10 / 10 - 1) = 0) by (replace (10 / 10 - 1) with 0 by field; apply Rabs_R0).
  assert (A : accepted ex_params (ex_contour 10)) by (apply ex_accepted; [ lra | rewrite E; lra ]).
  assert (D : ellipse_deviation (ex_contour 10) 0) by (rewrite <- E; apply ex_deviation; lra).
  assert (M : forall c, In c [ex_contour 10] -> measurable c) by (intros c [<- | []]; apply ex_measurable; lra).
  split; [ apply M; left; reflexivity | ]. split; [ exact A | ]. split; [ exact D | ].
  destruct (find_spec _ ex_params M) as (b & _ & [(cs & _ & _ & N) | [F _]]); [ | exact F ]. exfalso. exact (N _ (or_introl eq_refl) A D).
Qed.

(** Two images of one circle and a third of another. *)
Definition ex_centers : list (list center) := [[Center (V2 0 0) 5 1]; [Center (V2 1 0) 5 3; Center (V2 50 0) 5 1]; []].
Lemma ex_keypoint : detectKeyPoints ex_centers ex_params = Ok [KP (V2 (3 / 4) 0) 10].
Proof.
  set (a := Center (V2 0 0) 5 1). set (b := Center (V2 1 0) 5 3). set (c := Center (V2 50 0) 5 1).
  assert (Eb : same_circle ex_params a b = true).
  { apply same_near. unfold near, a, b. cbn. split.
    - unfold norm2, v2sub. cbn. replace ((0 - 1) * (0 - 1) + (0 - 0) * (0 - 0)) with (1 * 1) by ring. rewrite sqrt_square by lra. lra.
    - rewrite Rminus_diag_eq, Rabs_R0 by reflexivity. lra. }
  assert (Ec : same_circle ex_params a c = false).
  { apply same_not_near. unfold near, a, c. cbn. intros [H _]. unfold norm2, v2sub in H. cbn in H. replace ((0 - 50) * (0 - 50) + (0 - 0) * (0 - 0)) with (50 * 50) in H by ring.
    rewrite sqrt_square in H by lra. lra. }
  assert (G : group_centers ex_params ex_centers = Ok [[a; b]; [c]]).
  { unfold group_centers, ex_centers. fold a b c. cbn [foldM bind]. unfold group_step. cbn [exists_ bind app]. rewrite Eb. cbn [push_at bind app exists_]. rewrite Ec. reflexivity. }
  rewrite (detect_keypoints_unfold _ _ _ G). cbn [filter length ex_params minRepeatability Nat.leb mapM].
  rewrite keypoint_spec by (unfold sum_of; cbn; lra). cbn [bind]. unfold weighted, sum_of. cbn. f_equal. f_equal. f_equal; [ f_equal | ]; field.
Qed.

Lemma detect_rejects image p : (nThresholds p < minRepeatability p)%nat -> detect image p = Throw RuntimeError.
Proof. intros H. unfold detect, applyThresholds. rewrite (proj2 (Nat.ltb_lt _ _) H). reflexivity. Qed.
Lemma step_no_throw p c e : step p c <> Throw e.
Proof.
  unfold step, filtered, inertia_ratio, ellipse_error, make_center. cbv zeta.
  repeat first [ discriminate | match goal with |- context [if ?b then _ else _] => destruct b end; cbn [bind] ].
Qed.
Lemma mapM_no_throw {A B} (f : A -> res B) l e : (forall a, f a <> Throw e) -> mapM f l <> Throw e.
Proof.
  intros H. induction l as [ | a r IH]; cbn; [ discriminate | ]. destruct (f a) eqn:E; cbn; [ | intros X; injection X as ->; exact (H a E) | discriminate ].
  destruct (mapM f r); cbn; congruence.
Qed.
Lemma find_no_throw contours p e : findCircles contours p <> Throw e.
Proof.
  unfold findCircles. cbv zeta. rewrite find_unfold. intros H. apply (mapM_no_throw (step p) (filter (fun c => negb (Nat.ltb (length (ct_points c)) 5)) contours) e (fun a => step_no_throw p a e)).
  destruct (mapM _ _); cbn [bind] in H; congruence.
Qed.
Lemma detect_never_throws image p : (minRepeatability p <= nThresholds p)%nat -> forall e, detect image p <> Throw e.
Proof.
  intros L e H. unfold detect, applyThresholds in H. rewrite (proj2 (Nat.ltb_ge _ _) L) in H.
  pose proof (mapM_no_throw (fun i => findCircles (image (threshold p i)) p) (seq 0 (nThresholds p)) e (fun i => find_no_throw _ p e)) as N.
  destruct (mapM _ _) as [all | | ]; cbn [bind] in H; try congruence.
  destruct (groups_spec p all) as (gs & E & _). rewrite (detect_keypoints_unfold _ _ _ E) in H. revert H. apply mapM_no_throw. intros g.
  destruct (Req_EM_T (sum_of c_confidence g) 0) as [Z | Z]; [ rewrite keypoint_undefined by exact Z; discriminate | rewrite keypoint_spec by exact Z; discriminate ].
Qed.
Lemma ex_sweep : applyThresholds (fun t => if Rlt_dec t 60 then [ex_contour 11] else []) ex_params <> Throw RuntimeError /\ nThresholds ex_params = 3%nat.
Proof.
  split; [ | reflexivity ]. destruct (thresholds_spec ex_params) as (ts & _ & _ & _ & T). rewrite T. apply (mapM_no_throw _ ts RuntimeError). intros t. apply find_no_throw.
Qed.
