(** Proofs about the homography validation. *)
From Coq Require Import Reals Lra Psatz Lia Arith List.
From Verif.Base Require Import Geom Outcome Matrix.
From Verif.Model Require Import Pose HandEye Homography.
From Verif.Spec Require Import PinHole HomographySpec.
From Verif.Proofs Require Import GeomLemmas ListLemmas.
Import ListNotations.
Local Open Scope R_scope.

(** ** Samplers *)
Lemma grid_throws rows cols stride : gridSample rows cols stride = Throw RuntimeError <-> (rows * cols < 8)%nat.
Proof.
  unfold gridSample. destruct (Nat.ltb_spec (rows * cols / 2) 4) as [H | H].
  - split; [ | reflexivity ]. intros _. destruct (Nat.le_gt_cases 8 (rows * cols)) as [L | L]; [ | exact L ].
    pose proof (Nat.div_le_mono 8 (rows * cols) 2 ltac:(lia) L) as D. change (8 / 2)%nat with 4%nat in D. lia.
  - split; [ discriminate | ]. intros L. pose proof (Nat.div_lt_upper_bound (rows * cols) 2 4 ltac:(lia) ltac:(lia)). lia.
Qed.
Lemma grid_returns rows cols stride : (8 <= rows * cols)%nat ->
  gridSample rows cols stride =
  Ok [0; (cols - 1) * stride; (rows - 1) * cols * stride; ((rows - 1) * cols + (cols - 1)) * stride]%nat.
Proof.
  intros L. unfold gridSample. destruct (Nat.ltb_spec (rows * cols / 2) 4) as [H | H].
  - exfalso. pose proof (Nat.div_le_mono 8 (rows * cols) 2 ltac:(lia) L) as D. change (8 / 2)%nat with 4%nat in D. lia.
  - assert (cols <> 0)%nat by (intros ->; lia). assert (rows <> 0)%nat by (intros ->; lia).
    assert (P : (rows * cols = (rows - 1) * cols + (cols - 1) + 1)%nat).
    { destruct rows as [ | r]; [ lia | ]. destruct cols as [ | c]; [ lia | ]. cbn [Nat.sub Nat.mul]. rewrite !Nat.sub_0_r. lia. }
    assert (Q : (rows * cols * stride - stride = ((rows - 1) * cols + (cols - 1)) * stride)%nat).
    { rewrite P. set (k := ((rows - 1) * cols + (cols - 1))%nat). rewrite Nat.mul_add_distr_r, Nat.mul_1_l. apply Nat.add_sub. }
    rewrite Q, (Nat.mul_assoc (rows - 1)). reflexivity.
Qed.
Lemma grid_below rows cols stride l : (1 <= stride)%nat -> gridSample rows cols stride = Ok l ->
  Forall (fun i => i < rows * cols * stride)%nat l.
Proof.
  intros Hs E. destruct (Nat.le_gt_cases 8 (rows * cols)) as [L | L].
  - rewrite grid_returns in E by exact L. injection E as <-.
    assert (cols <> 0)%nat by (intros ->; lia). assert (rows <> 0)%nat by (intros ->; lia).
    assert (P : (rows * cols = (rows - 1) * cols + (cols - 1) + 1)%nat).
    { destruct rows as [ | r]; [ lia | ]. destruct cols as [ | c]; [ lia | ]. cbn [Nat.sub Nat.mul]. rewrite !Nat.sub_0_r. lia. }
    rewrite P. set (a := (cols - 1)%nat). set (b := ((rows - 1) * cols)%nat).
    apply Forall_cons; [ nia | ]. repeat (apply Forall_cons; [ apply Nat.mul_lt_mono_pos_r; lia | ]). apply Forall_nil.
  - apply grid_throws with (stride := stride) in L. rewrite L in E. discriminate.
Qed.
Lemma grid_distinct rows cols stride l : (1 <= stride)%nat -> gridSample rows cols stride = Ok l ->
  NoDup l <-> (2 <= rows /\ 2 <= cols)%nat.
Proof.
  intros Hs E. destruct (Nat.le_gt_cases 8 (rows * cols)) as [L | L].
  - rewrite grid_returns in E by exact L. injection E as <-.
    assert (cols <> 0)%nat by (intros ->; lia). assert (rows <> 0)%nat by (intros ->; lia). split.
    + intros N. inversion N as [ | a l Ha N' ]; subst. inversion N' as [ | b l' Hb N'' ]; subst.
      split; [ destruct (Nat.eq_dec rows 1) as [-> | ]; [ | lia ] | destruct (Nat.eq_dec cols 1) as [-> | ]; [ | lia ] ].
      * exfalso. apply Ha. right. left. cbn. reflexivity.
      * exfalso. apply Ha. left. cbn. reflexivity.
    + intros [Hr Hc]. assert (X : (1 <= (cols - 1))%nat) by lia. assert (Y : (1 <= rows - 1)%nat) by lia.
      assert (Y' : (cols <= (rows - 1) * cols)%nat) by nia.
      set (a := (cols - 1)%nat) in *. set (b := ((rows - 1) * cols)%nat) in *.
      assert (Hab : (a < b)%nat) by (unfold a; lia).
      repeat (apply NoDup_cons; [ cbn [In]; intros Hi; repeat destruct Hi as [Hi | Hi]; try contradiction; nia | ]). apply NoDup_nil.
  - apply grid_throws with (stride := stride) in L. rewrite L in E. discriminate.
Qed.
Lemma sampler_accepts n k seed :
  (mk_random_sampler n k seed = Ok (RS n k seed) <-> (4 <= k <= n)%nat) /\
  (mk_random_sampler n k seed = Throw RuntimeError <-> (k < 4 \/ n < k)%nat).
Proof.
  unfold mk_random_sampler. destruct (Nat.ltb_spec k 4); [ | destruct (Nat.ltb_spec n k) ]; split; split; intros H';
    try discriminate; try reflexivity; try lia.
Qed.
Section Draws.
Context {G : Type} (seeded : nat -> G) (uniform_int : nat -> nat -> G -> nat * G).
Lemma draws_spec s (P : nat -> Prop) k g l0 :
  (forall g, P (fst (uniform_int 0%nat (rs_n_correspondences s - 1)%nat g))) -> Forall P l0 -> forall a,
  let r := fst (fold_left (fun st (_ : nat) =>
         let '(output, rand_gen) := st in
         let '(v, rand_gen) := uniform_int 0%nat (rs_n_correspondences s - 1)%nat rand_gen in
         ((output ++ [v])%list, rand_gen))
       (seq a k) (l0, g)) in
  List.length r = (List.length l0 + k)%nat /\ Forall P r.
Proof.
  intros HP. revert g l0. induction k as [ | k IH]; intros g l0 H0 a; cbn [seq fold_left].
  - cbn. split; [ lia | exact H0 ].
  - specialize (HP g) as Hg. destruct (uniform_int 0%nat (rs_n_correspondences s - 1)%nat g) as [v g'] eqn:E. cbn [fst] in Hg.
    specialize (IH g' (l0 ++ [v])%list). cbv zeta in *.
    destruct (IH ltac:(apply Forall_app; split; [ exact H0 | constructor; [ exact Hg | constructor ] ]) (S a)) as [L F].
    split; [ rewrite L, app_length; cbn; lia | exact F ].
Qed.
Lemma random_draws n k seed s : mk_random_sampler n k seed = Ok s ->
  (forall a b g, a <= b -> a <= fst (uniform_int a b g) <= b)%nat ->
  List.length (randomSample seeded uniform_int s) = k /\ Forall (fun i => i < n)%nat (randomSample seeded uniform_int s).
Proof.
  intros E Hu. pose proof (sampler_accepts n k seed) as [A T].
  assert (B : (4 <= k <= n)%nat).
  { destruct (Nat.le_gt_cases 4 k); [ destruct (Nat.le_gt_cases k n); [ lia | ] | ];
      (replace (mk_random_sampler n k seed) with (@Throw random_sampler RuntimeError) in E by (symmetry; apply T; lia)); discriminate. }
  replace (mk_random_sampler n k seed) with (Ok (RS n k seed)) in E by (symmetry; apply A; exact B).
  injection E as <-.
  pose proof (draws_spec (RS n k seed) (fun i => i < n)%nat k (seeded seed) []) as D.
  destruct (D ltac:(intros g; cbn [rs_n_correspondences]; pose proof (Hu 0 (n - 1) g)%nat; lia) ltac:(constructor) 0%nat) as [L F].
  split; [ exact L | exact F ].
Qed.
End Draws.
Lemma random_duplicates n k seed : (4 <= k <= n)%nat ->
  exists (uniform_int : nat -> nat -> unit -> nat * unit) s,
    (forall a b g, a <= b -> a <= fst (uniform_int a b g) <= b)%nat /\
    mk_random_sampler n k seed = Ok s /\ ~ NoDup (randomSample (fun _ => tt) uniform_int s).
Proof.
  intros B. exists (fun a _ _ => (a, tt)), (RS n k seed). split; [ cbn; lia | ]. split; [ apply sampler_accepts; exact B | ].
  pose proof (draws_spec (fun a _ _ => (a, tt)) (RS n k seed) (fun i => i = 0)%nat k tt [] ltac:(cbn; reflexivity) ltac:(constructor) 0%nat) as [L F].
  cbv zeta in *. unfold randomSample. cbn [rs_n_samples rs_n_correspondences rs_seed] in *.
  destruct (fst _) as [ | a [ | b l ] ]; cbn in L; try lia.
  inversion F as [ | ? ? Ha F']; subst. inversion F' as [ | ? ? Hb F'']; subst.
  intros N. inversion N as [ | ? ? X Y]; subst. apply X. left. reflexivity.
Qed.

(** ** Linear algebra *)
Lemma mvec_vscale A k v : mvec A (vscale k v) = vscale k (mvec A v).
Proof. geo_ring. Qed.
Lemma det_inj A v : det A <> 0 -> mvec A v = vzero -> v = vzero.
Proof.
  intros D E. pose proof (f_equal vx E) as E0. pose proof (f_equal vy E) as E1. pose proof (f_equal vz E) as E2.
  destruct A as [a b c d e f g h i], v as [x y z]. geo_unfold.
  assert (X : forall t, (a * (e * i - f * h) - b * (d * i - f * g) + c * (d * h - e * g)) * t = 0 -> t = 0).
  { intros t Ht. apply Rmult_integral in Ht. destruct Ht as [Ht | Ht]; [ | exact Ht ]. exfalso. apply D. lra. }
  f_equal; apply X.
  - transitivity ((e * i - f * h) * (a * x + b * y + c * z) + (c * h - b * i) * (d * x + e * y + f * z)
                  + (b * f - c * e) * (g * x + h * y + i * z)); [ ring | rewrite E0, E1, E2; ring ].
  - transitivity ((f * g - d * i) * (a * x + b * y + c * z) + (a * i - c * g) * (d * x + e * y + f * z)
                  + (c * d - a * f) * (g * x + h * y + i * z)); [ ring | rewrite E0, E1, E2; ring ].
  - transitivity ((d * h - e * g) * (a * x + b * y + c * z) + (b * g - a * h) * (d * x + e * y + f * z)
                  + (a * e - b * d) * (g * x + h * y + i * z)); [ ring | rewrite E0, E1, E2; ring ].
Qed.
(** The matrix of three column vectors. *)
Definition cols (a b c : vec3) : mat3 := M3 (vx a) (vx b) (vx c) (vy a) (vy b) (vy c) (vz a) (vz b) (vz c).
Lemma det_cols a b c : det (cols (plane_point a) (plane_point b) (plane_point c)) =
  (vx b - vx a) * (vy c - vy a) - (vx c - vx a) * (vy b - vy a).
Proof. unfold cols, plane_point. geo_unfold. ring. Qed.
Lemma cramer a b c d :
  vscale (det (cols a b c)) d =
  vadd (vadd (vscale (det (cols d b c)) a) (vscale (det (cols a d c)) b)) (vscale (det (cols a b d)) c).
Proof. unfold cols. geo_ring. Qed.
Lemma cols_mvec a b c k l m : mvec (cols a b c) (V3 k l m) = vadd (vadd (vscale k a) (vscale l b)) (vscale m c).
Proof. unfold cols. geo_ring. Qed.
(** A matrix is determined by what it does to three independent vectors. *)
Lemma matrix_by_columns A B a b c : det (cols a b c) <> 0 ->
  mvec A a = mvec B a -> mvec A b = mvec B b -> mvec A c = mvec B c -> A = B.
Proof.
  intros D Ea Eb Ec.
  assert (D' : det (mT (cols a b c)) <> 0) by (rewrite det_mT; exact D).
  assert (R : forall r s, dot r a = dot s a -> dot r b = dot s b -> dot r c = dot s c -> r = s).
  { intros r s H1 H2 H3. assert (Z : vsub r s = vzero).
    - apply (det_inj _ _ D'). destruct a, b, c, r, s. unfold cols. geo_unfold. f_equal; lra.
    - pose proof (f_equal vx Z). pose proof (f_equal vy Z). pose proof (f_equal vz Z). destruct r, s. geo_unfold. f_equal; lra. }
  assert (R0 : V3 (m00 A) (m01 A) (m02 A) = V3 (m00 B) (m01 B) (m02 B))
    by (apply R; [ exact (f_equal vx Ea) | exact (f_equal vx Eb) | exact (f_equal vx Ec) ]).
  assert (R1 : V3 (m10 A) (m11 A) (m12 A) = V3 (m10 B) (m11 B) (m12 B))
    by (apply R; [ exact (f_equal vy Ea) | exact (f_equal vy Eb) | exact (f_equal vy Ec) ]).
  assert (R2 : V3 (m20 A) (m21 A) (m22 A) = V3 (m20 B) (m21 B) (m22 B))
    by (apply R; [ exact (f_equal vz Ea) | exact (f_equal vz Eb) | exact (f_equal vz Ec) ]).
  apply mat3_ext;
    first [ exact (f_equal vx R0) | exact (f_equal vy R0) | exact (f_equal vz R0)
          | exact (f_equal vx R1) | exact (f_equal vy R1) | exact (f_equal vz R1)
          | exact (f_equal vx R2) | exact (f_equal vy R2) | exact (f_equal vz R2) ].
Qed.
Definition mscale (k : R) (A : mat3) : mat3 :=
  M3 (k * m00 A) (k * m01 A) (k * m02 A) (k * m10 A) (k * m11 A) (k * m12 A) (k * m20 A) (k * m21 A) (k * m22 A).
Lemma mvec_mscale k A v : mvec (mscale k A) v = vscale k (mvec A v).
Proof. unfold mscale. geo_ring. Qed.

(** Two matrices that agree up to scale on four points in general position agree up to scale. *)
Lemma four_points G H a b c d ka kb kc kd : det H <> 0 ->
  det (cols a b c) <> 0 -> det (cols d b c) <> 0 -> det (cols a d c) <> 0 -> det (cols a b d) <> 0 ->
  mvec G a = vscale ka (mvec H a) -> mvec G b = vscale kb (mvec H b) ->
  mvec G c = vscale kc (mvec H c) -> mvec G d = vscale kd (mvec H d) ->
  G = mscale kd H.
Proof.
  intros DH D Da Db Dc Ea Eb Ec Ed. pose proof (cramer a b c d) as C.
  set (D0 := det (cols a b c)) in *. set (D1 := det (cols d b c)) in *.
  set (D2 := det (cols a d c)) in *. set (D3 := det (cols a b d)) in *.
  assert (Z : mvec H (mvec (cols a b c) (V3 (D1 * (ka - kd)) (D2 * (kb - kd)) (D3 * (kc - kd)))) = vzero).
  { rewrite cols_mvec.
    assert (C1 : mvec G (vscale D0 d) = vadd (vadd (vscale D1 (vscale ka (mvec H a))) (vscale D2 (vscale kb (mvec H b))))
                                             (vscale D3 (vscale kc (mvec H c)))).
    { rewrite C, !mvec_vadd, !mvec_vscale, Ea, Eb, Ec. reflexivity. }
    assert (C2 : mvec H (vscale D0 d) = vadd (vadd (vscale D1 (mvec H a)) (vscale D2 (mvec H b))) (vscale D3 (mvec H c))).
    { rewrite C, !mvec_vadd, !mvec_vscale. reflexivity. }
    rewrite mvec_vscale, Ed in C1. rewrite mvec_vscale in C2.
    rewrite !mvec_vadd, !mvec_vscale.
    set (Ha := mvec H a) in *. set (Hb := mvec H b) in *. set (Hc := mvec H c) in *. set (Hd := mvec H d) in *.
    clearbody Ha Hb Hc Hd D0 D1 D2 D3.
    assert (S : forall p : vec3 -> R, (forall k v, p (vscale k v) = k * p v) -> (forall u v, p (vadd u v) = p u + p v) ->
                p (vadd (vadd (vscale (D1 * (ka - kd)) Ha) (vscale (D2 * (kb - kd)) Hb)) (vscale (D3 * (kc - kd)) Hc)) = 0).
    { intros p Ps Pa. pose proof (f_equal p C1) as Q1. pose proof (f_equal p C2) as Q2.
      repeat rewrite Pa in Q1. repeat rewrite Ps in Q1. repeat rewrite Pa in Q2. repeat rewrite Ps in Q2.
      repeat rewrite Pa. repeat rewrite Ps.
      transitivity ((D1 * (ka * p Ha) + D2 * (kb * p Hb) + D3 * (kc * p Hc)) - kd * (D1 * p Ha + D2 * p Hb + D3 * p Hc)); [ ring | ].
      rewrite <- Q1, <- Q2. ring. }
    apply vec3_ext; [ apply (S vx) | apply (S vy) | apply (S vz) ]; reflexivity. }
  apply (det_inj H _ DH) in Z. apply (det_inj _ _ D) in Z.
  assert (K : forall e k, e <> 0 -> e * (k - kd) = 0 -> k = kd).
  { intros e k He Hk. apply Rmult_integral in Hk. destruct Hk; [ contradiction | lra ]. }
  pose proof (K _ _ Da (f_equal vx Z)) as Ka. pose proof (K _ _ Db (f_equal vy Z)) as Kb. pose proof (K _ _ Dc (f_equal vz Z)) as Kc.
  rewrite Ka in Ea. rewrite Kb in Eb. rewrite Kc in Ec.
  apply (matrix_by_columns _ _ a b c D); rewrite mvec_mscale; assumption.
Qed.
Lemma general_dets a b c d : general_position a b c d ->
  let p := plane_point in
  det (cols (p a) (p b) (p c)) <> 0 /\ det (cols (p d) (p b) (p c)) <> 0 /\
  det (cols (p a) (p d) (p c)) <> 0 /\ det (cols (p a) (p b) (p d)) <> 0.
Proof.
  intros (H1 & H2 & H3 & H4). cbv zeta. rewrite !det_cols. unfold not_collinear in *.
  split; [ exact H1 | ]. split; [ intros E; apply H4; lra | ]. split; [ intros E; apply H3; lra | exact H2 ].
Qed.

(** ** The linear system *)
(** The two equations of one correspondence. *)
Definition equations (h : nat -> R) (c : correspondence vec2) : Prop :=
  let q := mvec (homography_matrix h) (plane_point (in_target c)) in
  vx q = px (in_image c) * vz q /\ vy q = py (in_image c) * vz q.
Definition corr_rows (c : correspondence vec2) : list ((nat -> R) * R) :=
  [(homography_row_u (vx (in_target c)) (vy (in_target c)) (px (in_image c)), - (1) * px (in_image c));
   (homography_row_v (vx (in_target c)) (vy (in_target c)) (py (in_image c)), - (1) * py (in_image c))].
Lemma rows_equations h c :
  (forall a b, In (a, b) (corr_rows c) -> sum8 (fun j => a j * h j) = b) <-> equations h c.
Proof.
  destruct c as [[u v] [x y z]]. unfold corr_rows, equations, plane_point, homography_matrix. cbn [in_image in_target px py vx vy vz].
  geo_unfold. split.
  - intros H. pose proof (H _ _ (or_introl eq_refl)) as Hu. pose proof (H _ _ (or_intror (or_introl eq_refl))) as Hv.
    unfold sum8, homography_row_u, homography_row_v in Hu, Hv. cbn [nth] in Hu, Hv. lra.
  - intros [Hu Hv] a b [E | [E | []]]; injection E as <- <-; unfold sum8, homography_row_u, homography_row_v; cbn [nth]; lra.
Qed.
Lemma system_out cs l :
  homography_system cs l = (if forallb (fun i => Nat.ltb i (List.length cs)) l
    then Ok (flat_map (fun i => match nth_error cs i with Some c => corr_rows c | None => [] end) l)
    else Throw OutOfRange).
Proof.
  unfold homography_system.
  assert (G : forall acc, foldM (fun rows corr_idx =>
      do corr <- at_ cs corr_idx;
      let x := vx (in_target corr) in
      let y := vy (in_target corr) in
      let u := px (in_image corr) in
      let v := py (in_image corr) in
      Ok (rows ++ [(homography_row_u x y u, - (1) * px (in_image corr));
                   (homography_row_v x y v, - (1) * py (in_image corr))])%list) l acc =
    (if forallb (fun i => Nat.ltb i (List.length cs)) l
    then Ok (acc ++ flat_map (fun i => match nth_error cs i with Some c => corr_rows c | None => [] end) l)
    else Throw OutOfRange)).
  { induction l as [ | i l IH]; intros acc; cbn [foldM forallb flat_map].
    - rewrite app_nil_r. reflexivity.
    - unfold at_. destruct (nth_error cs i) as [c | ] eqn:E; cbn [bind].
      + assert (L : (i < List.length cs)%nat) by (apply nth_error_Some; rewrite E; discriminate).
        apply Nat.ltb_lt in L. rewrite L. cbn [andb]. cbv zeta. rewrite IH. rewrite <- app_assoc. reflexivity.
      + apply nth_error_None in E. assert (L : Nat.ltb i (List.length cs) = false) by (apply Nat.ltb_ge; exact E).
        rewrite L. reflexivity. }
  apply (G []).
Qed.
Lemma system_solves cs l sys h : homography_system cs l = Ok sys ->
  solves h sys <-> (forall i c, In i l -> nth_error cs i = Some c -> equations h c).
Proof.
  rewrite system_out. destruct (forallb _ l) eqn:F; [ | discriminate ]. intros E. injection E as <-.
  unfold solves. split.
  - intros S i c Hi Ec. apply rows_equations. intros a b Hab. apply S. apply in_flat_map. exists i. split; [ exact Hi | ]. rewrite Ec. exact Hab.
  - intros S a b Hab. apply in_flat_map in Hab. destruct Hab as (i & Hi & Hab).
    destruct (nth_error cs i) as [c | ] eqn:Ec; [ | contradiction ].
    apply (proj2 (rows_equations h c) (S i c Hi Ec)). exact Hab.
Qed.

(** ** Outcomes *)
Lemma homography_outcome lu cs l :
  calculateHomographyError lu cs l =
  if Nat.ltb (List.length cs) (2 * List.length l) then Throw RuntimeError
  else if forallb (fun i => Nat.ltb i (List.length cs)) l
  then Ok (map (homography_error (homography_matrix (lu (flat_map (fun i => match nth_error cs i with Some c => corr_rows c | None => [] end) l)))) cs)
  else Throw OutOfRange.
Proof.
  unfold calculateHomographyError. destruct (Nat.ltb _ _); [ reflexivity | ]. rewrite system_out.
  destruct (forallb _ l); reflexivity.
Qed.
Lemma forallb_below n l : forallb (fun i => Nat.ltb i n) l = true <-> Forall (fun i => i < n)%nat l.
Proof. rewrite forallb_forall, Forall_forall. setoid_rewrite Nat.ltb_lt. reflexivity. Qed.
Lemma homography_throws lu cs l :
  calculateHomographyError lu cs l = Throw RuntimeError <-> (List.length cs < 2 * List.length l)%nat.
Proof.
  rewrite homography_outcome. destruct (Nat.ltb_spec (List.length cs) (2 * List.length l)); [ tauto | ].
  destruct (forallb _ l); split; intros; try discriminate; lia.
Qed.
Lemma homography_returns lu cs l :
  (exists es, calculateHomographyError lu cs l = Ok es /\ List.length es = List.length cs) <->
  (2 * List.length l <= List.length cs)%nat /\ Forall (fun i => i < List.length cs)%nat l.
Proof.
  rewrite homography_outcome. destruct (Nat.ltb_spec (List.length cs) (2 * List.length l)) as [L | L].
  - split; [ intros (? & ? & _); discriminate | lia ].
  - destruct (forallb _ l) eqn:F.
    + apply forallb_below in F. split; [ intros _; split; assumption | ]. intros _. eexists. split; [ reflexivity | apply map_length ].
    + split; [ intros (? & ? & _); discriminate | ]. intros [_ F']. apply forallb_below in F'. congruence.
Qed.
Lemma error_is_norm H c : let q := mvec H (plane_point (in_target c)) in
  m22 H = 1 -> homography_error H c = norm2 (V2 (px (in_image c) - vx q / vz q) (py (in_image c) - vy q / vz q)).
Proof.
  cbv zeta. intros E. unfold homography_error, plane_point. destruct c as [[u v] [x y z]]. destruct H as [a b c d e f g h i]. cbn in E. subst i.
  geo_unfold. cbn [in_image in_target px py vx vy vz]. replace (g * x + h * y + 1 * 1) with (g * x + h * y + 1) by ring.
  f_equal. f_equal; unfold Rdiv; ring.
Qed.
Lemma norm2_zero v : norm2 v = 0 <-> px v = 0 /\ py v = 0.
Proof.
  unfold norm2. split.
  - intros E. apply sqrt_eq_0 in E; [ | nra ]. nra.
  - intros [-> ->]. rewrite Rmult_0_l, Rplus_0_l. apply sqrt_0.
Qed.
Lemma error_zero H c : m22 H = 1 -> vz (mvec H (plane_point (in_target c))) <> 0 ->
  homography_error H c = 0 <-> related H c.
Proof.
  intros E Hz. rewrite error_is_norm by exact E. rewrite norm2_zero. unfold related. cbn [px py]. cbv zeta. split.
  - intros [A B]. repeat split; [ exact Hz | lra | lra ].
  - intros (_ & A & B). split; lra.
Qed.
Lemma equations_related h c : vz (mvec (homography_matrix h) (plane_point (in_target c))) <> 0 ->
  equations h c <-> related (homography_matrix h) c.
Proof.
  intros Hz. unfold equations, related. cbv zeta. set (q := mvec _ _) in *. split.
  - intros [A B]. repeat split; [ exact Hz | rewrite A; field; exact Hz | rewrite B; field; exact Hz ].
  - intros (_ & A & B). split; [ rewrite A | rewrite B ]; field; exact Hz.
Qed.
(** The equations hold for a homography that relates the points, scaled so that its last entry is one. *)
Definition normalized_entries (H : mat3) (j : nat) : R :=
  nth j [m00 H / m22 H; m01 H / m22 H; m02 H / m22 H; m10 H / m22 H; m11 H / m22 H; m12 H / m22 H; m20 H / m22 H; m21 H / m22 H] 0.
Lemma normalized_matrix H : m22 H <> 0 -> homography_matrix (normalized_entries H) = mscale (/ m22 H) H.
Proof.
  intros E. unfold homography_matrix, normalized_entries, mscale. cbn [nth]. f_equal; try (unfold Rdiv; ring). field. exact E.
Qed.
Lemma related_scale k H c : k <> 0 -> related (mscale k H) c <-> related H c.
Proof.
  intros Hk. unfold related. rewrite mvec_mscale. cbv zeta. set (q := mvec H _). cbn [vx vy vz vscale].
  assert (X : vz q <> 0 -> forall t, k * t / (k * vz q) = t / vz q) by (intros; field; split; assumption).
  split; intros (A & B & C).
  - assert (N : vz q <> 0) by (intros E; apply A; rewrite E; ring). rewrite X in B, C by exact N. repeat split; assumption.
  - rewrite !X by exact A. repeat split; [ apply Rmult_integral_contrapositive_currified; assumption | assumption | assumption ].
Qed.
Lemma related_equations H c : m22 H <> 0 -> related H c -> equations (normalized_entries H) c.
Proof.
  intros E R. apply (related_scale (/ m22 H)) in R; [ | apply Rinv_neq_0_compat; exact E ]. rewrite <- normalized_matrix in R by exact E.
  apply equations_related; [ exact (proj1 R) | exact R ].
Qed.
(** Any solution of the equations is the homography up to scale. *)
Lemma solution_is_homography H h c1 c2 c3 c4 : det H <> 0 ->
  general_position (in_target c1) (in_target c2) (in_target c3) (in_target c4) ->
  related H c1 -> related H c2 -> related H c3 -> related H c4 ->
  equations h c1 -> equations h c2 -> equations h c3 -> equations h c4 ->
  exists k, homography_matrix h = mscale k H.
Proof.
  intros D Gp R1 R2 R3 R4 E1 E2 E3 E4. apply general_dets in Gp. cbv zeta in Gp. destruct Gp as (D0 & D1 & D2 & D3).
  assert (K : forall c, related H c -> equations h c ->
    mvec (homography_matrix h) (plane_point (in_target c)) =
    vscale (vz (mvec (homography_matrix h) (plane_point (in_target c))) / vz (mvec H (plane_point (in_target c))))
           (mvec H (plane_point (in_target c)))).
  { intros c (Hz & Hu & Hv) (Eu & Ev). cbv zeta in *. set (q := mvec (homography_matrix h) _) in *. set (p := mvec H _) in *.
    apply vec3_ext; cbn [vx vy vz vscale].
    - rewrite Eu, Hu. field. exact Hz.
    - rewrite Ev, Hv. field. exact Hz.
    - field. exact Hz. }
  eexists. apply (four_points _ H _ _ _ _ _ _ _ _ D D0 D1 D2 D3 (K c1 R1 E1) (K c2 R2 E2) (K c3 R3 E3) (K c4 R4 E4)).
Qed.

(** ** C24 *)
Section Perfect.
Variables (lu : lu_solver) (cs : list (correspondence vec2)) (l : list nat) (es : list R).
Hypothesis Hlu : exact_solver lu.
Hypothesis Hok : calculateHomographyError lu cs l = Ok es.
Lemma ok_system : exists sys, homography_system cs l = Ok sys /\
  es = map (homography_error (homography_matrix (lu sys))) cs.
Proof.
  unfold calculateHomographyError in Hok. destruct (Nat.ltb _ _); [ discriminate | ].
  destruct (homography_system cs l) as [sys | | ]; cbn [bind] in Hok; try discriminate.
  injection Hok as <-. exists sys. split; reflexivity.
Qed.
Lemma perfect_zero H c1 c2 c3 c4 i1 i2 i3 i4 : det H <> 0 -> m22 H <> 0 ->
  (forall c, In c cs -> related H c) ->
  incl [i1; i2; i3; i4] l -> nth_error cs i1 = Some c1 -> nth_error cs i2 = Some c2 ->
  nth_error cs i3 = Some c3 -> nth_error cs i4 = Some c4 ->
  general_position (in_target c1) (in_target c2) (in_target c3) (in_target c4) ->
  forall e, In e es -> e = 0.
Proof.
  intros D M R I N1 N2 N3 N4 Gp e He. destruct ok_system as (sys & Es & ->).
  assert (S : solves (lu sys) sys).
  { apply Hlu. exists (normalized_entries H). apply (system_solves _ _ _ _ Es). intros i c Hi Hc.
    apply related_equations; [ exact M | apply R; exact (nth_error_In _ _ Hc) ]. }
  pose proof (proj1 (system_solves _ _ _ _ Es) S) as Q.
  destruct (solution_is_homography H (lu sys) c1 c2 c3 c4 D Gp) as [k Ek];
    try (apply R; eapply nth_error_In; eassumption);
    try (eapply Q; [ apply I | eassumption ]; cbn; tauto).
  assert (K : 1 = k * m22 H) by exact (f_equal m22 Ek).
  assert (K0 : k <> 0) by (intros ->; lra).
  apply in_map_iff in He. destruct He as (c & <- & Hc).
  pose proof (R c Hc) as Rc. apply (related_scale k H c K0) in Rc. rewrite <- Ek in Rc.
  apply error_zero; [ reflexivity | exact (proj1 Rc) | exact Rc ].
Qed.
Lemma sampled_zero :
  (exists H0, m22 H0 = 1 /\ forall i c, In i l -> nth_error cs i = Some c -> fits H0 c) ->
  exists H, m22 H = 1 /\ es = map (transfer_error H) cs /\
    (forall i c, In i l -> nth_error cs i = Some c -> fits H c) /\
    (forall i c, In i l -> nth_error cs i = Some c -> vz (mvec H (plane_point (in_target c))) <> 0 ->
       nth_error es i = Some 0).
Proof.
  intros (H0 & M & F0). destruct ok_system as (sys & Es & E).
  assert (S : solves (lu sys) sys).
  { apply Hlu. exists (normalized_entries H0). apply (system_solves _ _ _ _ Es). intros i c Hi Hc.
    unfold equations. rewrite normalized_matrix by lra. rewrite M, Rinv_1.
    replace (mscale 1 H0) with H0 by (unfold mscale; destruct H0; cbn; f_equal; ring). exact (F0 i c Hi Hc). }
  pose proof (proj1 (system_solves _ _ _ _ Es) S) as Q.
  exists (homography_matrix (lu sys)). split; [ reflexivity | ]. split; [ | split; [ exact Q | ] ].
  - rewrite E. apply map_ext. intros c. apply error_is_norm. reflexivity.
  - intros i c Hi Hc Hz. rewrite E, nth_error_map, Hc. cbn [option_map]. f_equal.
    apply error_zero; [ reflexivity | exact Hz | ]. apply equations_related; [ exact Hz | ]. exact (Q i c Hi Hc).
Qed.
End Perfect.

(** A homography that does not map the target origin to a finite point is beyond the parametrization. *)
Lemma origin_unseen H H' cs l c1 c2 c3 c4 i1 i2 i3 i4 : det H <> 0 -> m22 H = 0 ->
  (forall c, In c cs -> related H c) ->
  incl [i1; i2; i3; i4] l -> nth_error cs i1 = Some c1 -> nth_error cs i2 = Some c2 ->
  nth_error cs i3 = Some c3 -> nth_error cs i4 = Some c4 ->
  general_position (in_target c1) (in_target c2) (in_target c3) (in_target c4) ->
  m22 H' = 1 -> ~ (forall i c, In i l -> nth_error cs i = Some c -> fits H' c).
Proof.
  intros D M R I N1 N2 N3 N4 Gp M' F.
  assert (Q : forall i c, In i l -> nth_error cs i = Some c -> equations (normalized_entries H') c).
  { intros i c Hi Hc. unfold equations. rewrite normalized_matrix by lra. rewrite M', Rinv_1.
    replace (mscale 1 H') with H' by (unfold mscale; destruct H'; cbn; f_equal; ring). exact (F i c Hi Hc). }
  destruct (solution_is_homography H (normalized_entries H') c1 c2 c3 c4 D Gp) as [k Ek];
    try (apply R; eapply nth_error_In; eassumption);
    try (eapply Q; [ apply I | eassumption ]; cbn; tauto).
  pose proof (f_equal m22 Ek) as K. cbn in K. rewrite M in K. lra.
Qed.

(** ** Flat targets *)
(** The homography from the target plane to a camera. *)
Definition plane_to_camera (T : iso) : mat3 :=
  let A := lin T in let t := tr T in
  M3 (m00 A) (m01 A) (vx t) (m10 A) (m11 A) (vy t) (m20 A) (m21 A) (vz t).
Definition camera_mat (k : intrinsics) : mat3 := M3 (fx k) 0 (cx k) 0 (fy k) (cy k) 0 0 1.
Lemma plane_to_camera_app T p : vz p = 0 -> mvec (plane_to_camera T) (plane_point p) = iso_app T p.
Proof. intros E. destruct p as [x y z]. cbn in E. subst z. unfold plane_to_camera, plane_point. geo_unfold. f_equal; ring. Qed.
Lemma plane_to_camera_det T : rigid T -> det (plane_to_camera T) = dot (col2 (lin T)) (tr T).
Proof.
  intros R. pose proof (is_rot_adj _ R) as A. destruct T as [[a b c d e f g h i] [x y z]]. unfold plane_to_camera. cbn [lin tr] in *.
  pose proof (f_equal m20 A) as A0. pose proof (f_equal m21 A) as A1. pose proof (f_equal m22 A) as A2.
  unfold adj in *. geo_unfold. rewrite A0, A1, A2. ring.
Qed.
Lemma camera_homography k T c : seen_by_camera k T c -> related (mmul (camera_mat k) (plane_to_camera T)) c.
Proof.
  intros (Z & N & E). unfold related. rewrite mvec_mmul, plane_to_camera_app by exact Z. cbv zeta. set (q := iso_app T (in_target c)) in *.
  rewrite E. unfold pinhole. cbn [px py]. destruct q as [x y z]. cbn [vz vx vy] in *. unfold camera_mat. geo_unfold.
  replace (0 * x + 0 * y + 1 * z) with z by ring. repeat split; [ exact N | field; exact N | field; exact N ].
Qed.
Lemma sensor_homography T c : seen_by_sensor T c -> related (plane_to_camera T) (flatten_correspondence c).
Proof.
  intros (Z & N & E). unfold related, flatten_correspondence. cbn [in_target in_image px py].
  rewrite plane_to_camera_app by exact Z. rewrite E. repeat split; exact N.
Qed.
Lemma camera_zero lu cs l es k T c1 c2 c3 c4 i1 i2 i3 i4 : exact_solver lu ->
  calculateHomographyError lu cs l = Ok es ->
  fx k <> 0 -> fy k <> 0 -> rigid T -> dot (col2 (lin T)) (tr T) <> 0 -> vz (tr T) <> 0 ->
  (forall c, In c cs -> seen_by_camera k T c) ->
  incl [i1; i2; i3; i4] l -> nth_error cs i1 = Some c1 -> nth_error cs i2 = Some c2 ->
  nth_error cs i3 = Some c3 -> nth_error cs i4 = Some c4 ->
  general_position (in_target c1) (in_target c2) (in_target c3) (in_target c4) ->
  forall e, In e es -> e = 0.
Proof.
  intros Hlu Hok Fx Fy R Pl Or Sn I N1 N2 N3 N4 Gp.
  apply (perfect_zero lu cs l es Hlu Hok (mmul (camera_mat k) (plane_to_camera T)) c1 c2 c3 c4 i1 i2 i3 i4); try assumption.
  - rewrite det_mmul, plane_to_camera_det by exact R. replace (det (camera_mat k)) with (fx k * fy k) by (unfold camera_mat; geo_unfold; ring).
    repeat apply Rmult_integral_contrapositive_currified; assumption.
  - unfold camera_mat, plane_to_camera. geo_unfold. lra.
  - intros c Hc. apply camera_homography, Sn, Hc.
Qed.
Lemma sensor_outcome lu cs l es : calculateHomographyError3D lu cs l = Ok es ->
  exists e2, calculateHomographyError lu (map flatten_correspondence cs) l = Ok e2 /\
    es = map (fun ez => fst ez * snd ez) (combine e2 (map (fun c => vz (in_image c)) cs)).
Proof.
  unfold calculateHomographyError3D. cbv zeta. destruct (calculateHomographyError lu _ l) as [e2 | | ]; cbn [bind]; try discriminate.
  intros E. injection E as <-. exists e2. split; reflexivity.
Qed.
Lemma sensor_zero lu cs l es T c1 c2 c3 c4 i1 i2 i3 i4 : exact_solver lu ->
  calculateHomographyError3D lu cs l = Ok es ->
  rigid T -> dot (col2 (lin T)) (tr T) <> 0 -> vz (tr T) <> 0 ->
  (forall c, In c cs -> seen_by_sensor T c) ->
  incl [i1; i2; i3; i4] l -> nth_error cs i1 = Some c1 -> nth_error cs i2 = Some c2 ->
  nth_error cs i3 = Some c3 -> nth_error cs i4 = Some c4 ->
  general_position (in_target c1) (in_target c2) (in_target c3) (in_target c4) ->
  forall e, In e es -> e = 0.
Proof.
  intros Hlu Hok R Pl Or Sn I N1 N2 N3 N4 Gp e He. destruct (sensor_outcome _ _ _ _ Hok) as (e2 & E2 & ->).
  apply in_map_iff in He. destruct He as ([e' z] & <- & He). cbn [fst snd].
  assert (Z : e' = 0).
  { apply (perfect_zero lu _ l e2 Hlu E2 (plane_to_camera T) (flatten_correspondence c1) (flatten_correspondence c2)
             (flatten_correspondence c3) (flatten_correspondence c4) i1 i2 i3 i4); try assumption;
      try (rewrite nth_error_map, ?N1, ?N2, ?N3, ?N4; reflexivity).
    - rewrite plane_to_camera_det by exact R. exact Pl.
    - intros c Hc. apply in_map_iff in Hc. destruct Hc as (c' & <- & Hc). apply sensor_homography, Sn, Hc.
    - exact (in_combine_l _ _ _ _ He). }
  rewrite Z. ring.
Qed.
Lemma sensor_scaled lu cs l es : calculateHomographyError3D lu cs l = Ok es ->
  exists e2, calculateHomographyError lu (map flatten_correspondence cs) l = Ok e2 /\
    List.length es = List.length cs /\
    forall i c, nth_error cs i = Some c -> exists e, nth_error e2 i = Some e /\ nth_error es i = Some (e * vz (in_image c)).
Proof.
  intros H. destruct (sensor_outcome _ _ _ _ H) as (e2 & E2 & ->). exists e2. split; [ exact E2 | ].
  assert (L : List.length e2 = List.length cs).
  { pose proof (homography_outcome lu (map flatten_correspondence cs) l) as O. rewrite E2 in O.
    destruct (Nat.ltb _ _); [ discriminate | ]. destruct (forallb _ _); [ | discriminate ]. injection O as ->. rewrite !map_length. reflexivity. }
  split; [ rewrite map_length, combine_length, map_length; lia | ].
  clear H E2. revert cs L. induction e2 as [ | e e2 IH]; intros [ | c cs] L i c' Hc; cbn in L; try lia; destruct i as [ | i]; cbn in Hc |- *; try discriminate.
  - injection Hc as <-. exists e. split; reflexivity.
  - apply (IH cs ltac:(lia) i c' Hc).
Qed.

(** ** An exact solver exists: Gaussian elimination *)
Fixpoint sumn (n : nat) (f : nat -> R) : R := match n with O => 0 | S k => sumn k f + f k end.
Lemma sumn_ext n f g : (forall j, (j < n)%nat -> f j = g j) -> sumn n f = sumn n g.
Proof. induction n as [ | n IH]; intros H; cbn; [ reflexivity | ]. rewrite IH, H by (intros; try apply H; lia). reflexivity. Qed.
Lemma sumn_minus n f g k : sumn n (fun j => f j - k * g j) = sumn n f - k * sumn n g.
Proof. induction n as [ | n IH]; cbn; [ ring | rewrite IH; ring ]. Qed.
Definition solves_n (n : nat) (x : nat -> R) (sys : list ((nat -> R) * R)) : Prop :=
  forall a b, In (a, b) sys -> sumn n (fun j => a j * x j) = b.
Fixpoint find_pivot (n : nat) (sys : list ((nat -> R) * R)) : option ((nat -> R) * R) :=
  match sys with
  | [] => None
  | (a, b) :: r => if Req_EM_T (a n) 0 then find_pivot n r else Some (a, b)
  end.
Lemma find_pivot_some n sys a b : find_pivot n sys = Some (a, b) -> In (a, b) sys /\ a n <> 0.
Proof.
  induction sys as [ | [a' b'] r IH]; cbn; [ discriminate | ]. destruct (Req_EM_T (a' n) 0) as [E | E].
  - intros H. destruct (IH H). tauto.
  - intros H. injection H as -> ->. tauto.
Qed.
Lemma find_pivot_none n sys a b : find_pivot n sys = None -> In (a, b) sys -> a n = 0.
Proof.
  induction sys as [ | [a' b'] r IH]; cbn; [ contradiction | ]. destruct (Req_EM_T (a' n) 0) as [E | E]; [ | discriminate ].
  intros H [X | X]; [ injection X as <- <-; exact E | exact (IH H X) ].
Qed.
Definition eliminate (n : nat) (p : (nat -> R) * R) (r : (nat -> R) * R) : (nat -> R) * R :=
  let k := fst r n / fst p n in (fun j => fst r j - k * fst p j, snd r - k * snd p).
Fixpoint gauss (n : nat) (sys : list ((nat -> R) * R)) : nat -> R :=
  match n with
  | O => fun _ => 0
  | S m =>
    match find_pivot m sys with
    | None => let x := gauss m sys in fun j => if Nat.eqb j m then 0 else x j
    | Some p =>
      let x := gauss m (map (eliminate m p) sys) in
      fun j => if Nat.eqb j m then (snd p - sumn m (fun j => fst p j * x j)) / fst p m else x j
    end
  end.
Lemma gauss_solves n sys : (exists x, solves_n n x sys) -> solves_n n (gauss n sys) sys.
Proof.
  revert sys. induction n as [ | n IH]; intros sys [x X].
  - intros a b Hab. cbn. apply (X a b Hab).
  - cbn [gauss]. destruct (find_pivot n sys) as [[p q] | ] eqn:Ep.
    + destruct (find_pivot_some _ _ _ _ Ep) as [Ip Np]. cbv zeta. cbn [fst snd].
      set (sys' := map (eliminate n (p, q)) sys). set (y := gauss n sys').
      assert (Y : solves_n n y sys').
      { apply IH. exists x. intros a' b' Ha'. apply in_map_iff in Ha'. destruct Ha' as ([a b] & E & Hab).
        unfold eliminate in E. cbn [fst snd] in E. injection E as <- <-.
        pose proof (X a b Hab) as Xa. pose proof (X p q Ip) as Xp. cbn [sumn] in Xa, Xp.
        transitivity (sumn n (fun j => a j * x j - a n / p n * (p j * x j))); [ apply sumn_ext; intros; ring | ].
        rewrite sumn_minus. rewrite <- Xa, <- Xp. field. exact Np. }
      intros a b Hab. cbn [sumn]. rewrite Nat.eqb_refl.
      rewrite (sumn_ext n _ (fun j => a j * y j)).
      2:{ intros j Hj. destruct (Nat.eqb_spec j n); [ lia | reflexivity ]. }
      pose proof (Y _ _ (in_map (eliminate n (p, q)) _ _ Hab)) as Ya. cbn [fst snd] in Ya.
      rewrite (sumn_ext n _ (fun j => a j * y j - a n / p n * (p j * y j))) in Ya by (intros; ring).
      rewrite sumn_minus in Ya. set (A := sumn n (fun j => a j * y j)) in *. set (P := sumn n (fun j => p j * y j)) in *.
      replace A with (b - a n / p n * q + a n / p n * P) by lra. field. exact Np.
    + cbv zeta. set (y := gauss n sys).
      assert (Y : solves_n n y sys).
      { apply IH. exists x. intros a b Hab. pose proof (X a b Hab) as Xa. cbn [sumn] in Xa.
        rewrite (find_pivot_none _ _ _ _ Ep Hab) in Xa. lra. }
      intros a b Hab. cbn [sumn]. rewrite Nat.eqb_refl.
      rewrite (sumn_ext n _ (fun j => a j * y j)); [ rewrite (Y a b Hab); ring | ].
      intros j Hj. destruct (Nat.eqb_spec j n); [ lia | reflexivity ].
Qed.
Lemma gauss_exact : exact_solver (gauss 8).
Proof.
  assert (E : forall x sys, solves x sys <-> solves_n 8 x sys).
  { intros x sys. unfold solves, solves_n.
    assert (Es : forall f, sum8 f = sumn 8 f) by (intros f; unfold sum8; cbn; ring).
    split; intros H a b Hab; [ rewrite <- Es | rewrite Es ]; exact (H a b Hab). }
  intros sys [x X]. apply E. apply gauss_solves. exists x. apply E. exact X.
Qed.

(** ** A concrete case: a camera one metre in front of a 2 x 4 grid of points. *)
Definition ex_grid : list (correspondence vec2) :=
  map (fun p => Corr (pinhole (Intr 500 400 320 240) (iso_app (Iso I3 (V3 0 0 1)) p)) p)
    [V3 0 0 0; V3 1 0 0; V3 2 0 0; V3 3 0 0; V3 0 1 0; V3 1 1 0; V3 2 1 0; V3 3 1 0].
Lemma ex_grid_seen : forall c, In c ex_grid -> seen_by_camera (Intr 500 400 320 240) (Iso I3 (V3 0 0 1)) c.
Proof.
  intros c Hc. apply in_map_iff in Hc. destruct Hc as (p & <- & Hp). unfold seen_by_camera. cbn [in_target in_image].
  assert (Z : vz p = 0) by (cbn in Hp; repeat destruct Hp as [<- | Hp]; try reflexivity; contradiction).
  split; [ exact Z | ]. split; [ | reflexivity ]. geo_unfold. rewrite Z. lra.
Qed.
Lemma ex_grid_corners : gridSample 2 4 1 = Ok [0; 3; 4; 7]%nat /\
  general_position (V3 0 0 0) (V3 3 0 0) (V3 0 1 0) (V3 3 1 0) /\
  exists es, calculateHomographyError (gauss 8) ex_grid [0; 3; 4; 7]%nat = Ok es.
Proof.
  split; [ reflexivity | ]. split.
  - unfold general_position, not_collinear. cbn [vx vy]. repeat split; lra.
  - destruct (homography_returns (gauss 8) ex_grid [0; 3; 4; 7]%nat) as [_ H].
    destruct H as (es & E & _); [ | exists es; exact E ]. cbn. split; [ lia | repeat constructor; lia ].
Qed.
Lemma ex_grid_zero es : calculateHomographyError (gauss 8) ex_grid [0; 3; 4; 7]%nat = Ok es -> forall e, In e es -> e = 0.
Proof.
  intros H. eapply (camera_zero (gauss 8) ex_grid [0; 3; 4; 7]%nat es (Intr 500 400 320 240) (Iso I3 (V3 0 0 1)) _ _ _ _ 0 3 4 7 gauss_exact H);
    try reflexivity; try (cbn; lra).
  - exact rigid_id.
  - geo_unfold. lra.
  - exact ex_grid_seen.
  - apply incl_refl.
  - exact (proj1 (proj2 ex_grid_corners)).
Qed.
Lemma grid_not_distinct :
  ~ (forall rows cols stride l, (1 <= stride)%nat -> gridSample rows cols stride = Ok l -> NoDup l).
Proof.
  intros H. specialize (H 1 8 1 _ (le_n _) eq_refl)%nat. cbn in H. inversion H as [ | ? ? X _]; subst. apply X. cbn. tauto.
Qed.
