(** The measurements file of the kinematic calibration example. *)
From Coq Require Import Reals ZArith Lia Lra String List.
From Verif.Base Require Import Geom Outcome Matrix.
From Verif.Model Require Import DhChain Kinematic Yaml Loaders KinematicExample.
From Verif.Spec Require Import YamlSpec KinSpec KinReport KinExampleSpec.
From Verif.Proofs Require Import GeomLemmas RotLemmas ListLemmas YamlProofs LoaderProofs KinematicProofs.
Import ListNotations.
Local Open Scope R_scope.

Lemma subscript_some key n v : subscript key (Some n) = Ok (Some v) <-> has key n v.
Proof.
  rewrite <- field_ok. unfold subscript, field. destruct n; try (split; discriminate).
  destruct (find_str key m); split; congruence.
Qed.
Lemma subscript_none key n v : subscript key (Some n) = Ok None -> ~ has key n v.
Proof. intros E H. apply subscript_some in H. congruence. Qed.
Lemma number_of_ok key n r : number_of key n = Ok r <-> exists v, n = Some v /\ number_at key v r.
Proof.
  unfold number_of. rewrite bind_ok. split.
  - intros ([v | ] & E & H); [ | discriminate ]. destruct n as [n | ]; [ | discriminate ].
    exists n. split; [ reflexivity | ]. exists v. split; [ apply subscript_some, E | apply double_ok, H ].
  - intros (w & -> & v & A & B). exists (Some v). split; [ apply subscript_some, A | apply double_ok, B ].
Qed.
Lemma mapM_forall2_iff {A B} (f : A -> res B) (P : A -> B -> Prop) l : (forall a b, f a = Ok b <-> P a b) ->
  forall bs, mapM f l = Ok bs <-> Forall2 P l bs.
Proof.
  intros H. induction l as [ | a l IH ]; intros bs; cbn.
  - split; [ intros E; injection E as <-; constructor | intros E; inversion E; reflexivity ].
  - rewrite bind_ok. split.
    + intros (b & E & F). apply bind_ok in F. destruct F as (bs' & F & G). injection G as <-.
      constructor; [ apply H, E | apply IH, F ].
    + intros E. inversion E as [ | ? b ? bs' F G ]; subst. exists b. split; [ apply H, F | ]. apply bind_ok. exists bs'.
      split; [ apply IH, G | reflexivity ].
Qed.
Lemma mapM_map {A B C} (f : B -> res C) (g : A -> B) l : mapM f (map g l) = mapM (fun a => f (g a)) l.
Proof. induction l; cbn; [ reflexivity | rewrite IHl; reflexivity ]. Qed.
Lemma items_seq l : forall pre, mapM (fun i => do v <- item i (YSeq (pre ++ l)); as_double v) (seq (List.length pre) (List.length l)) = mapM as_double l.
Proof.
  induction l as [ | x l IH ]; intros pre; [ reflexivity | ]. cbn [List.length seq mapM].
  replace (item (List.length pre) (YSeq (pre ++ x :: l))) with (Ok x) by (unfold item; rewrite nth_error_app2, Nat.sub_diag by lia; reflexivity).
  cbn [bind]. destruct (as_double x) as [r | e | ]; cbn [bind]; [ | reflexivity | reflexivity ].
  specialize (IH (pre ++ [x])%list). rewrite <- app_assoc in IH. cbn [app] in IH.
  rewrite app_length in IH. cbn [List.length] in IH. rewrite Nat.add_1_r in IH. rewrite IH. reflexivity.
Qed.
Lemma joints_ok j q : readJoints (Some j) = Ok q <-> (exists l, j = YSeq l /\ Forall2 number l q) \/ q = [] /\ no_entries j.
Proof.
  unfold readJoints, no_entries. destruct j; cbn [ysize].
  6: { pose proof (items_seq l []) as I. cbn [app List.length] in I. rewrite I. rewrite (mapM_forall2_iff _ number l double_ok). split.
    - intros H. left. exists l. auto.
    - intros [(l' & E & H) | [-> [H _]]]; [ injection E as ->; exact H | ].
      destruct l as [ | x l ]; [ constructor | destruct (H x l eq_refl) ]. }
  6: { destruct m as [ | x m ].
    - cbn. split; [ intros E; injection E as <-; right; split; [ reflexivity | split; discriminate ] | ].
      intros [(l & E & _) | [-> _]]; [ discriminate | reflexivity ].
    - split; [ cbn; discriminate | ]. intros [(l & E & _) | [_ [_ H]]]; [ discriminate | destruct (H x m eq_refl) ]. }
  all: cbn; split; [ intros E; injection E as <-; right; split; [ reflexivity | split; discriminate ] | ];
    intros [(l & E & _) | [-> _]]; [ discriminate | reflexivity ].
Qed.
Lemma subscript_joints key n q : (exists m, n = YMap m) ->
  ((exists j, subscript key (Some n) = Ok j /\ readJoints j = Ok q) <-> accepts_joints key n q).
Proof.
  intros [m ->]. unfold accepts_joints, says_joints. split.
  - intros ([j | ] & E & H).
    + apply subscript_some in E. apply joints_ok in H. destruct H as [(l & -> & H) | [-> H]]; [ left; eauto | right ].
      split; [ reflexivity | ]. intros v Hv. apply subscript_some in E, Hv. assert (v = j) by congruence. subst. exact H.
    + injection H as <-. right. split; [ reflexivity | ]. intros v Hv. destruct (subscript_none _ _ _ E Hv).
  - intros [(l & H & F) | [-> H]].
    + exists (Some (YSeq l)). split; [ apply subscript_some, H | apply joints_ok; left; eauto ].
    + cbn [subscript]. destruct (find_str key m) as [j | ] eqn:E; [ | exists None; auto ].
      exists (Some j). split; [ reflexivity | ]. apply joints_ok. right. split; [ reflexivity | ]. apply H, subscript_some. cbn. rewrite E. reflexivity.
Qed.
Lemma has_map key n v : has key n v -> exists m, n = YMap m.
Proof. intros (m1 & m2 & -> & _). eauto. Qed.
Lemma number_at_map key n r : number_at key n r -> exists m, n = YMap m.
Proof. intros (v & H & _). apply (has_map _ _ _ H). Qed.

Lemma measurement_ok n m : readMeasurement n = Ok m <-> accepts_measurement n m.
Proof.
  unfold readMeasurement, accepts_measurement. split.
  - intros H. apply bind_ok in H as (j1 & E1 & H). apply bind_ok in H as (q1 & F1 & H).
    apply bind_ok in H as (j2 & E2 & H). apply bind_ok in H as (q2 & F2 & H). apply bind_ok in H as (p & E3 & H).
    apply bind_ok in H as (x & X & H). apply bind_ok in H as (y & Y & H). apply bind_ok in H as (z & Z & H).
    apply bind_ok in H as (w & W & H). apply bind_ok in H as (a & A & H). apply bind_ok in H as (b & B & H).
    apply bind_ok in H as (c & C & H). cbv zeta in H. rewrite iso_trans_rot in H.
    apply number_of_ok in X as (p' & -> & X). apply number_of_ok in Y as (p1 & Ep & Y). injection Ep as <-.
    apply number_of_ok in Z as (p1 & Ep & Z). injection Ep as <-. apply number_of_ok in W as (p1 & Ep & W). injection Ep as <-.
    apply number_of_ok in A as (p1 & Ep & A). injection Ep as <-. apply number_of_ok in B as (p1 & Ep & B). injection Ep as <-.
    apply number_of_ok in C as (p1 & Ep & C). injection Ep as <-.
    apply subscript_some in E3. pose proof (has_map _ _ _ E3) as M. injection H as <-. cbn [km_camera_to_target km_camera_chain_joints km_target_chain_joints].
    split; [ apply subscript_joints; eauto | split; [ apply subscript_joints; eauto | ] ].
    exists p', (V3 x y z), (Q w a b c). split; [ exact E3 | ]. split; [ repeat split; assumption | reflexivity ].
  - intros (J1 & J2 & p & t & q & Hp & ((X & Y' & Z') & W & A & B & C) & E).
    destruct m as [T jc jt]. cbn [km_camera_to_target km_camera_chain_joints km_target_chain_joints] in *. subst T.
    pose proof (has_map _ _ _ Hp) as M.
    apply (proj2 (subscript_joints _ _ _ M)) in J1, J2. destruct J1 as (j1 & -> & F1), J2 as (j2 & -> & F2). cbn [bind]. rewrite F1, F2. cbn [bind].
    apply subscript_some in Hp. rewrite Hp. cbn [bind].
    assert (N : forall key r, number_at key p r -> number_of key (Some p) = Ok r) by (intros key r H; apply number_of_ok; eauto).
    rewrite (N _ _ X), (N _ _ Y'), (N _ _ Z'), (N _ _ W), (N _ _ A), (N _ _ B), (N _ _ C). cbn [bind]. cbv zeta.
    rewrite iso_trans_rot. destruct t, q. reflexivity.
Qed.

(** ** The file *)

Lemma yo_subscript key n : yaml_only (subscript key n).
Proof. destruct n as [[] | ]; first [ apply yo_ok | apply yo_throw ]. Qed.
Lemma yo_number_of key n : yaml_only (number_of key n).
Proof. apply yo_bind; [ apply yo_subscript | intros [v | ]; [ apply yo_double | apply yo_throw ] ]. Qed.
Lemma yo_joints j : yaml_only (readJoints j).
Proof.
  destruct j as [j | ]; [ | apply yo_ok ]. apply yo_mapM. intros i. apply yo_bind; [ | apply yo_double ].
  unfold item. destruct j; try apply yo_throw. destruct (nth_error l i); [ apply yo_ok | apply yo_throw ].
Qed.
Lemma yo_measurement n : yaml_only (readMeasurement n).
Proof.
  unfold readMeasurement. repeat (apply yo_bind; [ first [ apply yo_subscript | apply yo_joints | apply yo_number_of ] | intros ? ]). apply yo_ok.
Qed.
Lemma load_outcomes load f : bf (loadMeasurements load f).
Proof.
  unfold loadMeasurements, LoadFile. destruct (load f) as [n | ]; [ | right; reflexivity ]. cbn [bind].
  assert (Y : yaml_only (match n with YMap m => mapM (fun it => readMeasurement (snd it)) m | YSeq (_ :: _) => Throw YamlException | _ => Ok [] end)).
  { destruct n; try apply yo_ok; [ destruct l; [ apply yo_ok | apply yo_throw ] | apply yo_mapM; intros; apply yo_measurement ]. }
  destruct Y as [[a ->] | ->]; cbn; [ left; eauto | right; reflexivity ].
Qed.
Lemma load_ok load f ms : loadMeasurements load f = Ok ms <-> exists n, load f = Some n /\
  ((exists m, n = YMap m /\ Forall2 accepts_measurement (map snd m) ms) \/ ms = [] /\ no_entries n).
Proof.
  unfold loadMeasurements, LoadFile. destruct (load f) as [n | ]; cbn [bind]; [ | split; [ discriminate | intros (n & E & _); discriminate ] ].
  assert (B : forall (x : res (list kin_measurement)) l, bad_file x = Ok l <-> x = Ok l).
  { intros [a | e | ] l; cbn; [ reflexivity | destruct e; split; discriminate | split; discriminate ]. }
  rewrite B. transitivity ((exists m, n = YMap m /\ Forall2 accepts_measurement (map snd m) ms) \/ ms = [] /\ no_entries n);
    [ | split; [ intros H; exists n; auto | intros (n' & E & H); injection E as <-; exact H ] ].
  unfold no_entries. destruct n.
  6: { destruct l as [ | x l ].
    - split; [ intros E; injection E as <-; right; split; [ reflexivity | split; discriminate ] | ].
      intros [(m & E & _) | [-> _]]; [ discriminate | reflexivity ].
    - split; [ discriminate | ]. intros [(m & E & _) | [_ [H _]]]; [ discriminate | destruct (H x l eq_refl) ]. }
  6: { rewrite <- (mapM_map readMeasurement snd m), (mapM_forall2_iff _ accepts_measurement _ measurement_ok). split.
    - intros H. left. eauto.
    - intros [(m' & E & H) | [-> [_ H]]]; [ injection E as <-; exact H | ].
      destruct m as [ | x m ]; [ constructor | destruct (H x m eq_refl) ]. }
  all: split; [ intros E; injection E as <-; right; split; [ reflexivity | split; discriminate ] | ];
    intros [(m & E & _) | [-> _]]; [ discriminate | reflexivity ].
Qed.
Lemma says_accepts n m : says_measurement n m -> accepts_measurement n m.
Proof. intros (A & B & C). split; [ left; exact A | split; [ left; exact B | exact C ] ]. Qed.
Lemma load_written load f entries ms : load f = Some (YMap entries) -> Forall2 says_measurement (map snd entries) ms ->
  loadMeasurements load f = Ok ms.
Proof.
  intros L H. apply load_ok. exists (YMap entries). split; [ exact L | left ]. exists entries. split; [ reflexivity | ].
  induction H; constructor; [ apply says_accepts; assumption | assumption ].
Qed.
Lemma has_unique key n v w : has key n v -> has key n w -> v = w.
Proof. intros A B. apply subscript_some in A, B. congruence. Qed.
Lemma accepts_lists key n q l : accepts_joints key n q -> has key n (YSeq l) -> says_joints key n q.
Proof.
  intros [H | [-> H]] Hl; [ exact H | ]. destruct (H _ Hl) as [N _]. destruct l as [ | x l ]; [ | destruct (N x l eq_refl) ].
  exists []. split; [ exact Hl | constructor ].
Qed.
Lemma load_partial load f entries ms : load f = Some (YMap entries) -> (forall e, In e entries -> lists_joints (snd e)) ->
  loadMeasurements load f = Ok ms -> Forall2 says_measurement (map snd entries) ms.
Proof.
  intros L H E. apply load_ok in E as (n & L' & E). rewrite L in L'. injection L' as <-. 
  assert (A : Forall2 accepts_measurement (map snd entries) ms).
  { destruct E as [(m & E & A) | [-> [_ N]]]; [ injection E as <-; exact A | ].
    destruct entries as [ | x m ]; [ constructor | destruct (N x m eq_refl) ]. }
  clear E L. revert ms A. induction entries as [ | [k e] entries IH ]; intros ms A; inversion A as [ | ? m ? ms' (A1 & A2 & A3) A4 ]; subst; [ constructor | ].
  cbn [map snd] in *. destruct (H (k, e) (or_introl eq_refl)) as [(l1 & H1) (l2 & H2)]. cbn [snd] in *.
  constructor; [ | apply IH; [ intros e' H'; apply H; right; exact H' | exact A4 ] ].
  split; [ apply (accepts_lists _ _ _ l1); assumption | split; [ apply (accepts_lists _ _ _ l2); assumption | exact A3 ] ].
Qed.
Lemma unit_rigid t q : qnorm2 q = 1 -> rigid (Iso (q_matrix q) t).
Proof. intros H. unfold rigid. cbn [lin]. apply q_matrix_rot, H. Qed.

(** ** Examples *)
Local Open Scope string_scope.
Definition pose_node (w : R) : yaml :=
  YMap [("qw", YReal w); ("qx", YReal 0); ("qy", YReal 0); ("qz", YReal (w - 1)); ("x", YReal (1/2)); ("y", YInt 0); ("z", YReal 2)].
Definition entry_node (w : R) : yaml :=
  YMap [("camera_joints", YSeq []); ("pose", pose_node w); ("target_joints", YSeq [YReal (1/4); YInt 1])].
Definition entry_meas (w : R) : kin_measurement := KMeas (Iso (q_matrix (Q w 0 0 (w - 1))) (V3 (1/2) 0 2)) [] [1/4; 1].
Lemma has_cons_eq key v m : has key (YMap ((key, v) :: m)) v.
Proof. exists [], m. split; [ reflexivity | intros [] ]. Qed.
Lemma has_cons_ne key k v w m : key <> k -> has key (YMap m) v -> has key (YMap ((k, w) :: m)) v.
Proof.
  intros N (m1 & m2 & E & H). injection E as ->. exists ((k, w) :: m1), m2. split; [ reflexivity | ].
  intros [E | H']; [ cbn in E; congruence | exact (H H') ].
Qed.
Ltac has := repeat first [ apply has_cons_eq | apply has_cons_ne; [ discriminate | ] ].
Lemma pose_node_says w : says_pose (pose_node w) (V3 (1/2) 0 2) (Q w 0 0 (w - 1)).
Proof.
  unfold pose_node. repeat split; cbn [vx vy vz qw qx qy qz]; (eexists; split; [ has | ]); try (left; reflexivity).
  right. exists 0%Z. split; reflexivity.
Qed.
Lemma entry_says w : says_measurement (entry_node w) (entry_meas w).
Proof.
  split; [ | split ]; cbn [km_camera_to_target km_camera_chain_joints km_target_chain_joints entry_meas].
  - exists [YReal (1/4); YInt 1]. split; [ unfold entry_node; has | ].
    constructor; [ left; reflexivity | constructor; [ right; exists 1%Z; split; reflexivity | constructor ] ].
  - exists []. split; [ unfold entry_node; has | constructor ].
  - exists (pose_node w), (V3 (1/2) 0 2), (Q w 0 0 (w - 1)). split; [ unfold entry_node; has | split; [ apply pose_node_says | reflexivity ] ].
Qed.
(** A file with one entry. *)
Definition one_entry (n : yaml) : string -> option yaml := fun _ => Some (YMap [("1593701755", n)]).
Lemma entry_loads w f : loadMeasurements (one_entry (entry_node w)) f = Ok [entry_meas w].
Proof. apply (load_written _ _ [("1593701755", entry_node w)]); [ reflexivity | constructor; [ apply entry_says | constructor ] ]. Qed.

(** Without joints. *)
Definition jointless : yaml := YMap [("pose", pose_node 1)].
Lemma jointless_loads f : loadMeasurements (one_entry jointless) f = Ok [KMeas (Iso (q_matrix (Q 1 0 0 (1 - 1))) (V3 (1/2) 0 2)) [] []].
Proof.
  apply load_ok. exists (YMap [("1593701755", jointless)]). split; [ reflexivity | left ]. eexists. split; [ reflexivity | ].
  constructor; [ | constructor ].
  assert (N : forall key v, key <> "pose" -> ~ has key jointless v).
  { intros key v K H. apply subscript_some in H. cbn in H. destruct (String.eqb_spec key "pose"); [ congruence | discriminate ]. }
  split; [ | split ]; cbn [km_camera_to_target km_camera_chain_joints km_target_chain_joints].
  - right. split; [ reflexivity | ]. intros v H. destruct (N "target_joints" v); [ discriminate | exact H ].
  - right. split; [ reflexivity | ]. intros v H. destruct (N "camera_joints" v); [ discriminate | exact H ].
  - exists (pose_node 1), (V3 (1/2) 0 2), (Q 1 0 0 (1 - 1)). split; [ unfold jointless; has | split; [ apply pose_node_says | reflexivity ] ].
Qed.
Lemma accepts_more : ~ (forall load f ms, loadMeasurements load f = Ok ms ->
  exists entries, load f = Some (YMap entries) /\ Forall2 says_measurement (map snd entries) ms).
Proof.
  intros H. destruct (H _ _ _ (jointless_loads "f")) as (m & E & F). injection E as <-.
  inversion F as [ | ? ? ? ? ((l & Hl & _) & _) _ ]; subst. apply subscript_some in Hl. discriminate Hl.
Qed.
Lemma accepts_unrigid : ~ (forall load f ms, loadMeasurements load f = Ok ms -> forall m, In m ms -> rigid (km_camera_to_target m)).
Proof.
  intros H. pose proof (H _ _ _ (entry_loads 2 "f") _ (or_introl eq_refl)) as [O _].
  apply (f_equal m00) in O. unfold entry_meas in O. cbn in O. lra.
Qed.
Lemma scalar_loads f : loadMeasurements (fun _ => Some (YStr "measurements")) f = Ok [].
Proof. reflexivity. Qed.
