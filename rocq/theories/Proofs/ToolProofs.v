(** The loops of the calibration tools. *)
From Coq Require Import Reals Arith Lia Lra String List.
From Verif.Base Require Import Geom Outcome.
From Verif.Model Require Import Pose HandEye Homography Pnp IntrinsicValidation DataSet ExampleTools.
From Verif.Spec Require Import StatSpec ToolSpec.
From Verif.Proofs Require Import ListLemmas HomographyProofs StatProofs.
Import ListNotations.
Local Open Scope R_scope.

Lemma chosen_app {A B} (P : A -> B -> Prop) l1 l2 r1 r2 : chosen P l1 r1 -> chosen P l2 r2 -> chosen P (l1 ++ l2) (r1 ++ r2).
Proof. intros H H2. induction H; cbn; [ exact H2 | constructor; assumption | constructor 3; assumption ]. Qed.
Lemma chosen_in {A B} (P : A -> B -> Prop) l r : chosen P l r -> forall a b, In (a, b) r -> In a l /\ P a b.
Proof.
  intros H. induction H as [ | a b l r Hp H IH | a l r Hn H IH]; intros x y Hi.
  - destruct Hi.
  - destruct Hi as [E | Hi]; [ injection E as <- <-; split; [ left; reflexivity | exact Hp ] | destruct (IH x y Hi); split; [ right | ]; assumption ].
  - destruct (IH x y Hi). split; [ right | ]; assumption.
Qed.

Lemma fold_plus l s : fold_left Rplus l s = s + total l.
Proof. unfold total. revert s. induction l as [ | x l IH]; intros s; cbn; [ ring | rewrite IH; ring ]. Qed.
Lemma array_mean_average l : l <> [] -> array_mean l = Ok (average l).
Proof. intros N. unfold array_mean. destruct l as [ | x l]; [ congruence | ]. rewrite fold_plus. unfold average. do 2 f_equal. ring. Qed.

Lemma foldM_pairs {A S} (f : S -> A -> res S) (inv : list A -> S -> Prop) l s0 s :
  inv [] s0 -> (forall pre a post t t', l = pre ++ a :: post -> inv pre t -> f t a = Ok t' -> inv (pre ++ [a]) t') ->
  foldM f l s0 = Ok s -> inv l s.
Proof.
  intros H0 HS. assert (G : forall rest pre t, l = pre ++ rest -> inv pre t -> foldM f rest t = Ok s -> inv l s).
  { induction rest as [ | a rest IH]; intros pre t E I H; cbn in H.
    - injection H as <-. rewrite app_nil_r in E. rewrite E. exact I.
    - destruct (f t a) as [t' | |] eqn:F; cbn in H; try discriminate.
      apply (IH (pre ++ [a]) t'); [ rewrite <- app_assoc; exact E | | exact H ]. exact (HS pre a rest t t' E I F). }
  exact (G l [] s0 eq_refl H0).
Qed.

(** Loops over positions of a list of pairs. *)
Lemma foldM_index {A T} (f : T -> nat -> res T) (g : T -> A -> res T) l :
  (forall pre a post s, l = pre ++ a :: post -> f s (List.length pre) = g s a) ->
  forall s, foldM f (seq 0 (List.length l)) s = foldM g l s.
Proof.
  intros H. assert (G : forall rest pre s, l = pre ++ rest ->
    foldM f (seq (List.length pre) (List.length rest)) s = foldM g rest s).
  { induction rest as [ | a rest IH]; intros pre s E; cbn [seq List.length foldM]; [ reflexivity | ].
    rewrite (H pre a rest s E). destruct (g s a) as [s' | |]; cbn [bind]; [ | reflexivity | reflexivity ].
    replace (S (List.length pre)) with (List.length (pre ++ [a])) by (rewrite app_length; cbn; lia).
    apply IH. rewrite <- app_assoc. exact E. }
  exact (fun s => G l [] s eq_refl).
Qed.
Lemma idx_middle {A B} (h : A -> B) pre a post : idx (map h (pre ++ a :: post)) (List.length pre) = Ok (h a).
Proof. unfold idx. rewrite map_app, nth_error_app2, map_length, Nat.sub_diag by (rewrite map_length; lia). reflexivity. Qed.

(** The handlers catch what they are said to catch. *)
Lemma std_is e : std_runtime_error e = runtime_error e.
Proof. destruct e; reflexivity. Qed.

Section Loops.
  Context {image features G : Type} (v : vision image features)
          (lu : lu_solver) (seeded : nat -> G) (uniform_int : nat -> nat -> G -> nat * G).
  Notation check := (checkHomography lu seeded uniform_int).
  Notation fit := (flat lu seeded uniform_int).

  Lemma sampler_third n : mk_random_sampler n (n / 3) RANDOM_SEED = if Nat.ltb n 12 then Throw RuntimeError else Ok (RS n (n / 3) 1).
  Proof.
    unfold mk_random_sampler, RANDOM_SEED. destruct (Nat.ltb_spec n 12) as [H | H].
    - destruct (Nat.ltb_spec (n / 3) 4) as [H' | H']; [ reflexivity | ].
      exfalso. pose proof (Nat.mul_div_le n 3). lia.
    - destruct (Nat.ltb_spec (n / 3) 4) as [H' | H'].
      + exfalso. pose proof (Nat.mul_succ_div_gt n 3). lia.
      + destruct (Nat.ltb_spec n (n / 3)) as [H2 | H2]; [ | reflexivity ]. exfalso. pose proof (Nat.mul_div_le n 3). lia.
  Qed.
  Lemma errors_length cs l es : calculateHomographyError lu cs l = Ok es -> List.length es = List.length cs.
  Proof.
    unfold calculateHomographyError. destruct (Nat.ltb _ _); [ discriminate | ].
    destruct (homography_system cs l); cbn [bind]; try discriminate. intros E. injection E as <-. apply map_length.
  Qed.
  Lemma check_ok t cs : check t cs = Ok tt <-> fit t cs.
  Proof.
    unfold checkHomography, flat. rewrite sampler_third. destruct (Nat.ltb_spec (List.length cs) 12) as [H | H]; cbn [bind].
    - split; [ discriminate | ]. intros [L _]. lia.
    - destruct (calculateHomographyError lu cs _) as [es | e |] eqn:E; cbn [bind].
      + pose proof (errors_length _ _ _ E) as L. rewrite array_mean_average by (intros ->; cbn in L; lia). cbn [bind].
        destruct (Rlt_dec t (average es)) as [X | X]; split; try discriminate; try reflexivity.
        * intros (_ & es' & E' & A). injection E' as <-. lra.
        * intros _. split; [ exact H | ]. exists es. split; [ reflexivity | lra ].
      + split; [ discriminate | ]. intros (_ & es' & E' & _). discriminate.
      + split; [ discriminate | ]. intros (_ & es' & E' & _). discriminate.
  Qed.
  Lemma check_guarded t cs : in_bounds uniform_int -> guarded (check t cs).
  Proof.
    intros B. unfold checkHomography. rewrite sampler_third. destruct (Nat.ltb_spec (List.length cs) 12) as [H | H]; cbn [bind]; [ reflexivity | ].
    pose proof (sampler_third (List.length cs)) as M. destruct (Nat.ltb_spec (List.length cs) 12) as [? | _]; [ lia | ].
    destruct (random_draws seeded uniform_int _ _ _ _ M B) as [L F].
    destruct (proj2 (homography_returns lu cs (randomSample seeded uniform_int (RS (List.length cs) (List.length cs / 3) 1)))) as (es & E & Le).
    { split; [ | exact F ]. rewrite L. pose proof (Nat.mul_div_le (List.length cs) 3). lia. }
    rewrite E. cbn [bind]. rewrite array_mean_average by (intros ->; cbn in Le; lia). cbn [bind].
    destruct (Rlt_dec t (average es)); [ reflexivity | exact I ].
  Qed.

  (** ** Hand-eye tools *)
  Section HandEye.
    Variable mount : list (correspondence vec2) -> iso -> observation vec2.
    Variable t : R.
    Notation use := (usable v lu seeded uniform_int t).

    (** One image and its pose. *)
    Definition process (p : image * iso) : res (features * list (correspondence vec2)) :=
      do f <- findFeatures v (fst p); do cs <- create v f; do _ <- check t cs; Ok (f, cs).
    Definition round (st : list (observation vec2) * list image) (p : image * iso) :=
      let failed st := do _ <- show_image v (fst p); Ok st in
      match process p with
      | Ok (f, cs) =>
          let st' := (fst st ++ [mount cs (snd p)], snd st ++ [fst p])%list in
          catch_runtime (do _ <- show_features v (fst p) f; Ok st') (failed st')
      | Throw e => if runtime_error e then failed st else Throw e
      | UB => UB
      end.
    Lemma collect_pairs ps : collectObservations v lu seeded uniform_int mount t (data_of ps) = foldM round ps ([], []).
    Proof.
      unfold collectObservations, data_of. cbn [ds_images]. rewrite map_length.
      apply foldM_index. intros pre [img T] post [os is] E. unfold collectObservation. cbn [ds_images ds_tool_poses].
      rewrite E, !idx_middle. cbn [bind fst snd]. unfold round, process. cbn [fst snd].
      destruct (findFeatures v img) as [f | e |]; cbn [bind]; [ | reflexivity | reflexivity ].
      destruct (create v f) as [cs | e |]; cbn [bind]; [ | reflexivity | reflexivity ].
      destruct (check t cs) as [[] | e |]; reflexivity.
    Qed.
    Lemma process_ok p f cs : process p = Ok (f, cs) -> use p cs.
    Proof.
      unfold process, findFeatures, usable, sees. destruct (find v (fst p)) as [f' | |] eqn:F; cbn [bind]; try discriminate.
      destruct (none v f') eqn:N; cbn [bind]; [ discriminate | ]. destruct (create v f') as [cs' | |] eqn:C; cbn [bind]; try discriminate.
      destruct (check t cs') as [[] | |] eqn:K; cbn [bind]; try discriminate. intros E. injection E as <- <-.
      split; [ exists f'; auto | apply check_ok, K ].
    Qed.
    Lemma process_complete p cs : use p cs -> exists f, process p = Ok (f, cs).
    Proof.
      intros [(f & F & N & C) K]. apply check_ok in K. exists f. unfold process, findFeatures. rewrite F. cbn [bind].
      rewrite N. cbn [bind]. rewrite C. cbn [bind]. rewrite K. reflexivity.
    Qed.
    Definition inv (done : list (image * iso)) (st : list (observation vec2) * list image) : Prop :=
      exists sel, chosen use done sel /\ fst st = map (fun s => mount (snd s) (snd (fst s))) sel /\ snd st = map (fun s => fst (fst s)) sel.
    Lemma inv_skip pre p st : (forall f cs, process p <> Ok (f, cs)) -> inv pre st -> inv (pre ++ [p]) st.
    Proof.
      intros N (sel & C & E1 & E2). exists sel. split; [ | auto ]. rewrite <- (app_nil_r sel). apply chosen_app; [ exact C | ].
      apply chosen_no; [ | constructor ]. intros cs U. destruct (process_complete p cs U) as (f & F). exact (N f cs F).
    Qed.
    Lemma inv_take pre p st f cs : process p = Ok (f, cs) -> inv pre st ->
      inv (pre ++ [p]) (fst st ++ [mount cs (snd p)], snd st ++ [fst p])%list.
    Proof.
      intros E (sel & C & E1 & E2). exists (sel ++ [(p, cs)]). split; [ | cbn [fst snd]; rewrite E1, E2, !map_app; auto ].
      apply chosen_app; [ exact C | ]. constructor; [ exact (process_ok _ _ _ E) | constructor ].
    Qed.
    Lemma round_inv pre p st st' : inv pre st -> round st p = Ok st' -> inv (pre ++ [p]) st'.
    Proof.
      intros I. unfold round. destruct (process p) as [[f cs] | e |] eqn:E; [ | | discriminate ].
      - pose proof (inv_take pre p st f cs E I) as K. unfold catch_runtime. cbv zeta.
        destruct (show_features v (fst p) f) as [[] | e |]; cbn [bind]; [ | | discriminate ].
        + intros X. injection X as <-. exact K.
        + destruct (runtime_error e); [ | discriminate ]. destruct (show_image v (fst p)) as [[] | |]; cbn [bind]; try discriminate.
          intros X. injection X as <-. exact K.
      - destruct (runtime_error e); [ | discriminate ]. cbv zeta. destruct (show_image v (fst p)) as [[] | |]; cbn [bind]; try discriminate.
        intros X. injection X as <-. apply inv_skip; [ rewrite E; discriminate | exact I ].
    Qed.
    Lemma collected ps obs imgs : collectObservations v lu seeded uniform_int mount t (data_of ps) = Ok (obs, imgs) ->
      exists sel, chosen use ps sel /\ obs = map (fun s => mount (snd s) (snd (fst s))) sel /\ imgs = map (fun s => fst (fst s)) sel.
    Proof.
      rewrite collect_pairs. intros H.
      apply (foldM_pairs round inv ps ([], []) (obs, imgs)); [ | | exact H ].
      - exists []. repeat split; constructor.
      - intros pre p post st st' _ I E. exact (round_inv pre p st st' I E).
    Qed.
    Lemma round_harmless st p : in_bounds uniform_int -> harmless v (fst p) -> exists st', round st p = Ok st'.
    Proof.
      intros B (Hf & Hs & Hc). unfold round, process, findFeatures. destruct (find v (fst p)) as [f | e |] eqn:F; cbn [bind].
      - destruct (Hc f eq_refl) as [Hc1 Hc2]. destruct (none v f); cbn [bind runtime_error]; [ rewrite Hs; eexists; reflexivity | ].
        destruct (create v f) as [cs | e |]; cbn [bind].
        + pose proof (check_guarded t cs B) as Hk. destruct (check t cs) as [[] | e |]; cbn [bind].
          * destruct (show_features v (fst p) f) as [[] | e |]; cbn [bind catch_runtime]; [ eexists; reflexivity | | destruct Hc2 ].
            cbn [guarded] in Hc2. rewrite std_is in Hc2. rewrite Hc2, Hs. eexists; reflexivity.
          * cbn [guarded] in Hk. rewrite std_is in Hk. rewrite Hk, Hs. eexists; reflexivity.
          * destruct Hk.
        + cbn [guarded] in Hc1. rewrite std_is in Hc1. rewrite Hc1, Hs. eexists; reflexivity.
        + destruct Hc1.
      - cbn [guarded] in Hf. rewrite std_is in Hf. rewrite Hf, Hs. eexists; reflexivity.
      - destruct Hf.
    Qed.
    Lemma collects ps : in_bounds uniform_int -> (forall p, In p ps -> harmless v (fst p)) ->
      exists obs imgs, collectObservations v lu seeded uniform_int mount t (data_of ps) = Ok (obs, imgs).
    Proof.
      intros B H. rewrite collect_pairs.
      destruct (foldM_ok_inv (fun _ _ => True) round ps ([], [])) as ([obs imgs] & E & _); [ exact I | | exists obs, imgs; exact E ].
      intros pre p post st -> _. destruct (round_harmless st p B) as [st' E]; [ apply H, in_or_app; right; left; reflexivity | ].
      exists st'. split; [ exact E | exact I ].
    Qed.
    (** An exception that is no runtime error ends the loop. *)
    Lemma collect_stops l1 p l2 e : in_bounds uniform_int -> (forall q, In q l1 -> harmless v (fst q)) ->
      find v (fst p) = Throw e -> std_runtime_error e = false ->
      collectObservations v lu seeded uniform_int mount t (data_of (l1 ++ p :: l2)) = Throw e.
    Proof.
      intros B H F R. destruct (collects l1 B H) as (obs & imgs & E). rewrite collect_pairs in E |- *. rewrite foldM_app, E.
      cbn [bind foldM]. unfold round, process, findFeatures. rewrite F. cbn [bind]. rewrite std_is in R. rewrite R. reflexivity.
    Qed.
  End HandEye.
End Loops.
