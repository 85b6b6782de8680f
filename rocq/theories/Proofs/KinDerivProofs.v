(** The cost functors of the kinematic calibration give the derivatives of their residuals. *)
From Coq Require Import Reals Lra Lia List Bool Arith FunctionalExtensionality.
From Verif.Base Require Import Geom Outcome Matrix.
From Verif.Model Require Import Pose DhChain Kinematic Jet Functors.
From Verif.Spec Require Import DerivativeSpec.
From Verif.Proofs Require Import JetProofs FunctorProofs DerivProofs.
Import ListNotations.
Local Open Scope R_scope.

(** ** On doubles *)
Definition rmap {A B} (h : A -> B) (r : res A) : res B := match r with Ok a => Ok (h a) | Throw x => Throw x | UB => UB end.
Lemma rmap_bind {A B C D} (h : A -> B) (k : C -> D) (r : res A) r' (f : A -> res C) (g : B -> res D) :
  rmap h r = r' -> (forall a, rmap k (f a) = g (h a)) -> rmap k (bind r f) = bind r' g.
Proof. intros <- H. destruct r; cbn; auto. Qed.
Lemma foldM_rmap {A B X} (h : A -> B) (f : A -> X -> res A) g l :
  (forall a x, In x l -> rmap h (f a x) = g (h a) x) -> forall a, rmap h (foldM f l a) = foldM g l (h a).
Proof.
  induction l as [ | x l IH ]; intros H a; [ reflexivity | ]. cbn [foldM].
  apply (rmap_bind h h _ _ _ _ (H a x (or_introl eq_refl))). intros b. apply IH. intros c y Hy. apply H. right. exact Hy.
Qed.
Lemma i_rel t q (o : gvec4 R) :
  rmap i_of (gcreateRelativeTransform RN t q o) = createRelativeTransform t q (V4 (ge0 o) (ge1 o) (ge2 o) (ge3 o)).
Proof. unfold gcreateRelativeTransform, createRelativeTransform. cbv zeta. destruct (jtype t); reflexivity. Qed.
Lemma i_fk c joints m p :
  rmap i_of (ggetFK RN c joints (fun i j => m p (j * dof c + i)%nat)) = getFK c joints (map_offsets m p (dof c)).
Proof.
  unfold ggetFK, getFK. cbn [rows map_offsets]. destruct (Nat.ltb_spec (dof c) (length joints)) as [ L | L ]; [ reflexivity | ].
  rewrite <- (i_cast (base_offset c)) at 2. apply foldM_rmap. intros a i Hi. apply in_seq in Hi.
  unfold row4. cbn [rows ent map_offsets]. destruct (Nat.ltb_spec i (dof c)) as [ Li | Li ]; [ | lia ]. cbn [bind].
  apply (rmap_bind (fun t => t)). { destruct (at_ _ _); reflexivity. }
  intros t. apply (rmap_bind (fun t => t)). { destruct (idx _ _); reflexivity. }
  intros q. apply (rmap_bind i_of); [ apply i_rel | ]. intros b. cbn [rmap]. rewrite i_mul. reflexivity.
Qed.
Lemma i_create (t a : gvec R) : i_of (gcreateTransform RN t a) = createTransform (v_of t) (v_of a).
Proof.
  unfold gcreateTransform, createTransform. cbv zeta.
  change (gnorm RN a) with (norm (v_of a)). change (gt RN (norm (v_of a)) (eps RN)) with (if Rlt_dec DBL_EPS (norm (v_of a)) then true else false).
  destruct (Rlt_dec DBL_EPS (norm (v_of a))); [ | reflexivity ].
  rewrite <- v_normalized. reflexivity.
Qed.
Definition numbered : list nat := [0; 1; 2; 3; 4; 5; 6; 7]%nat.
Lemma i_camera_to_target cc tc jc jt y :
  rmap i_of (gcamera_to_target RN cc tc jc jt y) = dual_camera_to_target cc tc jc jt y numbered.
Proof.
  unfold gcamera_to_target, dual_camera_to_target. cbv zeta. unfold createTransform_at, numbered. cbn [idx nth_error bind plus Nat.add].
  apply (rmap_bind i_of); [ apply i_fk | ]. intros a.
  apply (rmap_bind i_of); [ apply i_fk | ]. intros b. cbn [rmap].
  rewrite i_mul, i_inv, !i_mul, !i_create. reflexivity.
Qed.

(** ** On jets *)
Section Results.
  Variables (t0 : R) (d : nat * nat) (e : R) (dirs : list (nat * nat)).
  Notation JN := (jet_num e dirs).
  Notation relI := (relI t0 d).
  Notation rel := (rel t0 d).
  Notation rel3 := (rel3 t0 d).

  Definition relRes {A A'} (r : (R -> A) -> A' -> Prop) (F : R -> res A) (J : res A') : Prop :=
    match J with
    | Ok j => exists G, (forall s, F s = Ok (G s)) /\ r G j
    | Throw x => forall s, F s = Throw x
    | UB => forall s, F s = UB
    end.
  Lemma relRes_ok {A A'} (r : (R -> A) -> A' -> Prop) G j : r G j -> relRes r (fun s => Ok (G s)) (Ok j).
  Proof. intros H. exists G. split; [ reflexivity | exact H ]. Qed.
  Lemma relRes_bind {A A' B B'} (r : (R -> A) -> A' -> Prop) (q : (R -> B) -> B' -> Prop) F J f h :
    relRes r F J -> (forall G j, r G j -> relRes q (fun s => f s (G s)) (h j)) ->
    relRes q (fun s => do a <- F s; f s a) (do a <- J; h a).
  Proof.
    destruct J as [ j | x | ]; cbn [bind].
    - intros (G & E & H) K. replace (fun s => do a <- F s; f s a) with (fun s => f s (G s)); [ auto | ].
      extensionality s. rewrite E. reflexivity.
    - intros E _ s. rewrite E. reflexivity.
    - intros E _ s. rewrite E. reflexivity.
  Qed.
  Lemma relRes_const {A B B'} (q : (R -> B) -> B' -> Prop) (c : res A) f h :
    (forall a, relRes q (fun s => f s a) (h a)) -> relRes q (fun s => do a <- c; f s a) (do a <- c; h a).
  Proof. intros H. destruct c; cbn [bind]; [ apply H | intros s; reflexivity | intros s; reflexivity ]. Qed.

  Lemma rel3_mk f g h a b c : rel f a -> rel g b -> rel h c -> rel3 (fun s => G3 (f s) (g s) (h s)) (G3 a b c).
  Proof. intros A B C. split; [ exact A | split; [ exact B | exact C ] ]. Qed.
  Lemma relI_link t q (o : R -> gvec4 R) (jo : gvec4 jet) :
    rel (fun s => ge0 (o s)) (ge0 jo) -> rel (fun s => ge1 (o s)) (ge1 jo) -> rel (fun s => ge2 (o s)) (ge2 jo) ->
    rel (fun s => ge3 (o s)) (ge3 jo) ->
    relRes relI (fun s => gcreateRelativeTransform RN t q (o s)) (gcreateRelativeTransform JN t (jet_lit q) jo).
  Proof.
    intros H0 H1 H2 H3. unfold gcreateRelativeTransform. cbv zeta.
    destruct (jtype t); cbn [bind ge0 ge1 ge2 ge3]; [ | | intros s; reflexivity ].
    all: apply relRes_ok; repeat first [ apply relI_mul | apply relI_id | apply relI_trans | apply relI_rot | apply relM_aa
      | apply rel3_cast | apply rel3_mk ]; cbn [T lit add sub mul div RN jet_num];
      repeat first [ assumption | apply rel_const | apply rel_add ].
  Qed.
  Lemma relRes_foldM {X} (f : R -> giso R -> X -> res (giso R)) (h : giso jet -> X -> res (giso jet)) l :
    (forall x G j, In x l -> relI G j -> relRes relI (fun s => f s (G s) x) (h j x)) ->
    forall G j, relI G j -> relRes relI (fun s => foldM (f s) l (G s)) (foldM h l j).
  Proof.
    induction l as [ | x l IH ]; intros H G j HG; [ apply relRes_ok; exact HG | ]. cbn [foldM].
    apply (relRes_bind relI relI (fun s => f s (G s) x) (h j x) (fun s => foldM (f s) l) (foldM h l)).
    - apply H; [ left; reflexivity | exact HG ].
    - apply IH. intros y G' j' Hy. apply H. right. exact Hy.
  Qed.
  Lemma relI_fk c joints (o : R -> nat -> nat -> R) jo : (forall i j, rel (fun s => o s i j) (jo i j)) ->
    relRes relI (fun s => ggetFK RN c joints (o s)) (ggetFK JN c joints jo).
  Proof.
    intros H. unfold ggetFK. destruct (Nat.ltb (dof c) (length joints)); [ intros s; reflexivity | ].
    apply (relRes_foldM (fun s transform i => do t <- at_ (transforms c) i; do joint <- idx joints i;
          do rel <- gcreateRelativeTransform RN t joint (G4 (o s i 0%nat) (o s i 1%nat) (o s i 2%nat) (o s i 3%nat));
          Ok (giso_mul RN transform rel)) _ _) with (G := fun _ => gcastI RN (base_offset c)); [ | apply relI_cast ].
    intros i G j _ HG. apply relRes_const. intros t. apply relRes_const. intros q.
    eapply relRes_bind; [ apply relI_link; cbn [ge0 ge1 ge2 ge3]; apply H | ].
    intros G' j' HG'. apply relRes_ok, relI_mul; assumption.
  Qed.
  Lemma relI_create T A JT JA : 0 <= e <= DBL_EPS -> clear_turn (v_of (A t0)) -> rel3 T JT -> rel3 A JA ->
    relI (fun s => gcreateTransform RN (T s) (A s)) (gcreateTransform JN JT JA).
  Proof.
    intros He HC HT HA. unfold gcreateTransform. cbv zeta. pose proof DBL_EPS_pos as Pe.
    pose proof (rel_dot t0 d e dirs A A JA JA HA HA) as D. pose proof D as [D0 _].
    assert (Z : relI (fun s => giso_mul RN (giso_id RN) (giso_trans RN (T s))) (giso_mul JN (giso_id JN) (giso_trans JN JT))).
    { apply relI_mul; [ apply relI_id | apply relI_trans, HT ]. }
    destruct HC as [ HC | HC ].
    - assert (E0 : gdot RN (A t0) (A t0) = 0).
      { change (dot (v_of (A t0)) (v_of (A t0)) = 0). rewrite HC. unfold dot. cbn [vx vy vz]. ring. }
      apply relI_if; [ | | intros _; exact Z ].
      + unfold gt, gnorm. cbn [RN real_num jet_num nsqrt eps]. unfold jet_gt, jet_sqrt. cbn [ja jet_lit].
        rewrite <- D0, E0, sqrt_0. destruct (Rlt_dec e 0) as [ L | L ]; [ lra | ].
        apply (near_imp t0 (fun s => gdot RN (A s) (A s) < DBL_EPS * DBL_EPS)).
        * intros s Hs. destruct (Rlt_dec DBL_EPS (sqrt (gdot RN (A s) (A s)))) as [ K | K ]; [ | reflexivity ]. exfalso.
          assert (0 <= gdot RN (A s) (A s)) by (unfold gdot; cbn; nra).
          pose proof (sqrt_sqrt _ H). nra.
        * apply (near_lt t0 d _ (fun _ => DBL_EPS * DBL_EPS) _ (jet_lit (DBL_EPS * DBL_EPS)) D); [ apply rel_const | ].
          rewrite E0. nra.
      + unfold gt, gnorm. cbn [jet_num nsqrt eps]. unfold jet_gt, jet_sqrt. cbn [ja jet_lit].
        rewrite <- D0, E0, sqrt_0. destruct (Rlt_dec e 0); [ lra | discriminate ].
    - assert (E0 : 0 < gdot RN (A t0) (A t0)).
      { change (0 < dot (v_of (A t0)) (v_of (A t0))). unfold norm in HC. set (q := dot _ _) in *.
        destruct (Rlt_dec 0 q) as [ L | L ]; [ exact L | ]. rewrite sqrt_neg_0 in HC by lra. lra. }
      assert (M : relI (fun s => giso_rot RN (gaa_matrix RN (gnorm RN (A s)) (gnormalized RN (A s))))
                    (giso_rot JN (gaa_matrix JN (gnorm JN JA) (gnormalized JN JA)))).
      { apply relI_rot, relM_aa; [ apply rel_norm | apply rel3_normalized ]; assumption. }
      pose proof (rel_norm t0 d e dirs A JA E0 HA) as N. pose proof N as [N0 _].
      apply relI_if; [ | intros _; apply relI_mul; [ exact Z | exact M ] | ].
      + unfold gt. cbn [RN real_num jet_num eps]. unfold jet_gt. cbn [ja jet_lit].
        change (norm (v_of (A t0))) with (gnorm RN (A t0)) in HC. rewrite <- N0.
        destruct (Rlt_dec e (gnorm RN (A t0))) as [ L | L ]; [ | lra ].
        apply (near_imp t0 (fun s => DBL_EPS < gnorm RN (A s))).
        * intros s Hs. destruct (Rlt_dec DBL_EPS (gnorm RN (A s))) as [ K | K ]; [ reflexivity | contradiction ].
        * apply (near_lt t0 d (fun _ => DBL_EPS) _ (jet_lit DBL_EPS) (gnorm JN JA)); [ apply rel_const | exact N | exact HC ].
      + unfold gt. cbn [jet_num eps]. unfold jet_gt. cbn [ja jet_lit]. rewrite <- N0.
        change (norm (v_of (A t0))) with (gnorm RN (A t0)) in HC. destruct (Rlt_dec e (gnorm RN (A t0))); [ discriminate | lra ].
  Qed.
End Results.

Section Costs.
  Variables (e : R) (dirs : list (nat * nat)) (x : values).
  Notation JN := (jet_num e dirs).
  Hypothesis He : 0 <= e <= DBL_EPS.
  Hypotheses (T3 : clear_turn (read3 x 3)) (T5 : clear_turn (read3 x 5)) (T7 : clear_turn (read3 x 7)).
  Variables (cc tc : dh_chain) (jc jt : list R).

  Lemma relI_camera_to_target b i : relRes (relI (x b i) (b, i)) (fun s => gcamera_to_target RN cc tc jc jt (with_value x b i s))
    (gcamera_to_target JN cc tc jc jt (seed x)).
  Proof.
    unfold gcamera_to_target. cbv zeta.
    eapply relRes_bind; [ apply relI_fk; intros; apply rel_seed | ]. intros G j HG. cbv beta.
    eapply relRes_bind; [ apply relI_fk; intros; apply rel_seed | ]. intros G' j' HG'. cbv beta.
    apply relRes_ok. apply relI_mul; [ apply relI_inv, relI_mul; [ exact HG | ] | apply relI_mul; [ apply relI_mul; [ | exact HG' ] | ] ].
    all: apply relI_create; [ exact He | rewrite with_same; assumption | apply rel3_read | apply rel3_read ].
  Qed.
  (** A result that depends on the parameters smoothly: one family of lists gives the derivatives *)
  Lemma gives_res (F : values -> res (list R)) (J : res (list jet)) r :
    F x = Ok r -> (forall b i, relRes (relL (x b i) (b, i)) (fun s => F (with_value x b i s)) J) ->
    (forall y, is_ok (F y)) -> gives_derivatives_res F x J.
  Proof.
    intros E H K. pose (G := fun y => match F y with Ok l => l | _ => [] end).
    assert (EG : forall y, F y = Ok (G y)). { intros y. unfold G. destruct (K y) as [l ->]. reflexivity. }
    destruct J as [ L | er | ].
    - exists G, L. split; [ exact EG | ]. split; [ reflexivity | ]. apply gives_relL. intros b i.
      destruct (H b i) as (G' & E' & R). replace (fun s => G (with_value x b i s)) with G'; [ exact R | ].
      extensionality s. specialize (E' s). rewrite EG in E'. injection E'. auto.
    - specialize (H 0%nat 0%nat). cbn [relRes] in H. specialize (H (x 0%nat 0%nat)). rewrite with_same, E in H. discriminate.
    - specialize (H 0%nat 0%nat). cbn [relRes] in H. specialize (H (x 0%nat 0%nat)). rewrite with_same, E in H. discriminate.
  Qed.
End Costs.

(** Whether the residual can be computed does not depend on the parameters. *)
Lemma foldM_ok {A X} (f g : A -> X -> res A) l : (forall a b x, In x l -> is_ok (f a x) -> is_ok (g b x)) ->
  forall a b, is_ok (foldM f l a) -> is_ok (foldM g l b).
Proof.
  induction l as [ | x l IH ]; intros H a b; [ intros; eexists; reflexivity | ]. cbn [foldM]. intros K.
  destruct (f a x) as [ a' | | ] eqn:E; cbn [bind] in K; try (destruct K as [? K]; discriminate).
  destruct (H a b x (or_introl eq_refl)) as [b' Eb]; [ rewrite E; eexists; reflexivity | ]. rewrite Eb. cbn [bind].
  apply (IH (fun a b y Hy => H a b y (or_intror Hy)) a'). exact K.
Qed.
Lemma fk_ok c joints m m' p : is_ok (getFK c joints (map_offsets m p (dof c))) -> is_ok (getFK c joints (map_offsets m' p (dof c))).
Proof.
  unfold getFK. cbn [rows map_offsets]. destruct (Nat.ltb _ _); [ intros [? K]; discriminate | ].
  apply foldM_ok. intros a b i _ [r K]. unfold row4 in *. cbn [rows map_offsets] in *.
  destruct (Nat.ltb i (dof c)); cbn [bind] in *; [ | discriminate ].
  destruct (at_ (transforms c) i) as [ t | | ]; cbn [bind] in *; try discriminate.
  destruct (idx joints i) as [ q | | ]; cbn [bind] in *; try discriminate.
  unfold createRelativeTransform in *. destruct (jtype t); cbn [bind] in *; try discriminate; eexists; reflexivity.
Qed.
Lemma camera_ok cc tc jc jt m m' : is_ok (dual_camera_to_target cc tc jc jt m numbered) ->
  is_ok (dual_camera_to_target cc tc jc jt m' numbered).
Proof.
  unfold dual_camera_to_target, createTransform_at, numbered. cbn [idx nth_error bind Nat.add]. intros [r K].
  destruct (getFK cc jc (map_offsets m 0 (dof cc))) as [ a | | ] eqn:E; cbn [bind] in K; try discriminate.
  destruct (fk_ok cc jc m m' 0) as [a' ->]; [ rewrite E; eexists; reflexivity | ]. cbn [bind].
  destruct (getFK tc jt (map_offsets m 1 (dof tc))) as [ b | | ] eqn:E2; cbn [bind] in K; try discriminate.
  destruct (fk_ok tc jt m m' 1) as [b' ->]; [ rewrite E2; eexists; reflexivity | ]. eexists. reflexivity.
Qed.

Section Costs2.
  Variables (e : R) (dirs : list (nat * nat)) (x : values).
  Notation JN := (jet_num e dirs).
  Hypothesis He : 0 <= e <= DBL_EPS.
  Hypotheses (T3 : clear_turn (read3 x 3)) (T5 : clear_turn (read3 x 5)) (T7 : clear_turn (read3 x 7)).
  Variables (cc tc : dh_chain) (jc jt : list R).
  Lemma dual_generic obs p intr y : gdualCost2D3D RN obs p intr cc tc jc jt y = dualCost2D3D obs p intr cc tc jc jt numbered y.
  Proof.
    unfold gdualCost2D3D, dualCost2D3D. rewrite <- i_camera_to_target. destruct (gcamera_to_target RN cc tc jc jt y) as [ a | | ]; try reflexivity.
    cbn [bind rmap]. cbv zeta. replace (iso_app (i_of a) p) with (v_of (giso_app RN a (gcast RN p))) by (rewrite i_app, v_cast; reflexivity).
    rewrite <- v_project_eig. reflexivity.
  Qed.
  Lemma dual_derivatives obs p intr C :
    dual_camera_to_target cc tc jc jt x numbered = Ok C -> vz (iso_app C p) <> 1 / 10 ^ 10 ->
    gives_derivatives_res (dualCost2D3D obs p intr cc tc jc jt numbered) x (gdualCost2D3D JN obs p intr cc tc jc jt (seed x)).
  Proof.
    intros EC Hz. eapply gives_res.
    - unfold dualCost2D3D. rewrite EC. reflexivity.
    - intros b i. replace (fun s => dualCost2D3D obs p intr cc tc jc jt numbered (with_value x b i s))
        with (fun s => gdualCost2D3D RN obs p intr cc tc jc jt (with_value x b i s)) by (extensionality s; apply dual_generic).
      unfold gdualCost2D3D.
      pose proof (relI_camera_to_target e dirs x He T3 T5 T7 cc tc jc jt b i) as H. revert H.
      pose proof (i_camera_to_target cc tc jc jt x) as EX. rewrite EC in EX.
      destruct (gcamera_to_target JN cc tc jc jt (seed x)) as [ j | er | ]; intros H; cbn [relRes] in H.
      + destruct H as (G & E & HG). cbn [bind]. eexists. split; [ intros s; rewrite E; reflexivity | ]. cbv beta zeta.
        rewrite <- (with_same x b i) in EX. rewrite E in EX. cbn [rmap] in EX. injection EX as EX.
        destruct (rel2_project_eig (x b i) (b, i) e dirs intr (fun s => giso_app RN (G s) (gcast RN p)) (giso_app JN j (gcast JN p))) as [A B].
        * rewrite <- EX, <- (v_cast p), <- i_app in Hz. exact Hz.
        * apply rel3_app; [ exact HG | apply rel3_cast ].
        * repeat apply relL_cons; try apply relL_nil; (apply rel_sub; [ assumption | apply rel_const ]).
      + specialize (H (x b i)). rewrite with_same in H. rewrite H in EX. discriminate.
      + specialize (H (x b i)). rewrite with_same in H. rewrite H in EX. discriminate.
    - intros y. unfold dualCost2D3D. destruct (camera_ok cc tc jc jt x y) as [C' ->]; [ rewrite EC; eexists; reflexivity | ].
      eexists. reflexivity.
  Qed.
End Costs2.
