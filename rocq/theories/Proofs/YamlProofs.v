(** YAML conversions. *)
From Coq Require Import Reals Lra Lia ZArith String Arith Bool List.
From Verif.Base Require Import Geom Outcome.
From Verif.Model Require Import Pose Covariance HandEye DhChain Yaml Serialization.
From Verif.Spec Require Import YamlSpec.
From Verif.Proofs Require Import GeomLemmas RotLemmas ListLemmas.
Import ListNotations.
Local Open Scope R_scope.

(** ** Reading *)

Lemma bind_ok {A B} (a : res A) (f : A -> res B) b : bind a f = Ok b <-> exists x, a = Ok x /\ f x = Ok b.
Proof. destruct a; cbn; split; intros H; try discriminate; try (destruct H as (x & E & _); discriminate); [ eauto | destruct H as (x & E & H); injection E as ->; exact H ]. Qed.
Lemma find_str_has {V} key (m : list (string * V)) v : find_str key m = Some v <-> exists m1 m2, m = m1 ++ (key, v) :: m2 /\ ~ In key (map fst m1).
Proof.
  induction m as [ | [k w] r IH]; cbn.
  - split; [ discriminate | intros ([ | x m1] & m2 & E & _); discriminate ].
  - destruct (String.eqb_spec key k) as [-> | N].
    + split.
      * intros E. injection E as ->. exists [], r. split; [ reflexivity | intros [] ].
      * intros ([ | [k' w'] m1] & m2 & E & H); cbn in E; injection E as; subst; [ reflexivity | exfalso; apply H; left; reflexivity ].
    + rewrite IH. split.
      * intros (m1 & m2 & -> & H). exists ((k, w) :: m1), m2. split; [ reflexivity | cbn; intros [E | E]; [ congruence | auto ] ].
      * intros ([ | [k' w'] m1] & m2 & E & H); cbn in E; injection E as; subst; [ congruence | ]. exists m1, m2. split; [ reflexivity | intros I; apply H; right; exact I ].
Qed.
Lemma field_ok key n v : field key n = Ok v <-> has key n v.
Proof.
  unfold field, has. destruct n; try (split; [ discriminate | intros (m1 & m2 & E & _); discriminate ]).
  split.
  - intros H. destruct (find_str key m) as [w | ] eqn:E; [ | discriminate ]. injection H as ->. apply find_str_has in E. destruct E as (m1 & m2 & -> & N). exists m1, m2. auto.
  - intros (m1 & m2 & E & N). injection E as ->. rewrite (proj2 (find_str_has key _ v)); [ reflexivity | exists m1, m2; auto ].
Qed.
Lemma field_throw key n : (forall v, ~ has key n v) -> field key n = Throw YamlException.
Proof.
  intros H. destruct (field key n) as [v | e | ] eqn:E; [ apply field_ok in E; destruct (H v E) | | ]; unfold field in E; destruct n; try discriminate; try congruence; destruct (find_str key m); congruence.
Qed.
Lemma double_ok n r : as_double n = Ok r <-> number n r.
Proof.
  unfold as_double, as_, decode_double, number. destruct n; cbn; split; intros H; try discriminate;
    try (destruct H as [H | (z' & H & _)]; discriminate).
  - injection H as <-. right. eauto.
  - destruct H as [H | (z' & H & ->)]; [ discriminate | injection H as ->; reflexivity ].
  - injection H as ->. left. reflexivity.
  - destruct H as [H | (z' & H & _)]; [ injection H as ->; reflexivity | discriminate ].
Qed.
Lemma read_ok key n r : (do v <- field key n; as_double v) = Ok r <-> number_at key n r.
Proof. rewrite bind_ok. unfold number_at. split; intros (v & A & B); exists v; [ rewrite <- field_ok, <- double_ok | rewrite field_ok, double_ok ]; auto. Qed.
(** Reading a number and going on. *)
Lemma read_bind {A} key n (f : R -> res A) a : (do v <- field key n; do r <- as_double v; f r) = Ok a <-> exists r, number_at key n r /\ f r = Ok a.
Proof.
  rewrite bind_ok. split.
  - intros (v & E & H). apply bind_ok in H. destruct H as (r & E' & H). exists r. split; [ exists v; split; [ apply field_ok | apply double_ok ]; assumption | exact H ].
  - intros (r & (v & E & E') & H). exists v. split; [ apply field_ok; exact E | ]. apply bind_ok. exists r. split; [ apply double_ok; exact E' | exact H ].
Qed.

(** Everything that goes wrong is a YAML exception. *)
Definition yaml_only {A} (x : res A) : Prop := (exists a, x = Ok a) \/ x = Throw YamlException.
Lemma yo_ok {A} (a : A) : yaml_only (Ok a). Proof. left; eauto. Qed.
Lemma yo_throw {A} : yaml_only (@Throw A YamlException). Proof. right; reflexivity. Qed.
Lemma yo_bind {A B} (x : res A) (f : A -> res B) : yaml_only x -> (forall a, yaml_only (f a)) -> yaml_only (bind x f).
Proof. intros [[a ->] | ->] H; cbn; [ apply H | apply yo_throw ]. Qed.
Lemma yo_field key n : yaml_only (field key n).
Proof. unfold field. destruct n; try apply yo_throw. destruct (find_str key m); [ apply yo_ok | apply yo_throw ]. Qed.
Lemma yo_as {A} (d : decoder A) n : yaml_only (d n) -> yaml_only (as_ d n).
Proof. intros H. apply yo_bind; [ exact H | ]. intros [a | ]; [ apply yo_ok | apply yo_throw ]. Qed.
Lemma yo_double n : yaml_only (as_double n).
Proof. apply yo_as. destruct n; apply yo_ok. Qed.
Lemma yo_bool n : yaml_only (as_bool n).
Proof. apply yo_as. destruct n; apply yo_ok. Qed.
Lemma yo_read {A} key n (f : R -> res A) : (forall r, yaml_only (f r)) -> yaml_only (do v <- field key n; do r <- as_double v; f r).
Proof. intros H. apply yo_bind; [ apply yo_field | intros v; apply yo_bind; [ apply yo_double | exact H ] ]. Qed.
Lemma yo_mapM {A B} (f : A -> res B) l : (forall a, yaml_only (f a)) -> yaml_only (mapM f l).
Proof. intros H. induction l; cbn; [ apply yo_ok | ]. apply yo_bind; [ apply H | intros; apply yo_bind; [ exact IHl | intros; apply yo_ok ] ]. Qed.
Lemma yo_seq {A} (d : decoder A) n : (forall m, yaml_only (d m)) -> yaml_only (decode_seq d n).
Proof. intros H. unfold decode_seq. destruct n; try apply yo_ok. apply yo_bind; [ apply yo_mapM; intros; apply yo_as, H | intros; apply yo_ok ]. Qed.
Lemma yo_sub {A B} key n (d : decoder A) (f : A -> res B) : (forall m, yaml_only (d m)) -> (forall r, yaml_only (f r)) -> yaml_only (do v <- field key n; do r <- as_ d v; f r).
Proof. intros D H. apply yo_bind; [ apply yo_field | intros v; apply yo_bind; [ apply yo_as, D | exact H ] ]. Qed.
Ltac yo := repeat (first [ apply yo_ok | apply yo_throw | apply yo_read; intros ? | apply yo_sub; [ intros ? | intros ? ] | apply yo_seq; intros ? |
  match goal with |- yaml_only (if ?b then _ else _) => destruct b end ]).
Lemma yo_vec2 n : yaml_only (decode_vec2 n). Proof. unfold decode_vec2. yo. Qed.
Lemma yo_vec3 n : yaml_only (decode_vec3 n). Proof. unfold decode_vec3. yo. Qed.
Lemma yo_iso n : yaml_only (decode_iso n). Proof. unfold decode_iso. yo. Qed.
Lemma yo_intr n : yaml_only (decode_intr n). Proof. unfold decode_intr. yo. Qed.
Lemma yo_corr {I} (di : decoder I) n : (forall m, yaml_only (di m)) -> yaml_only (decode_corr di n).
Proof. intros H. unfold decode_corr. destruct (negb _); [ apply yo_ok | ]. apply yo_sub; [ exact H | intros; apply yo_sub; [ apply yo_vec3 | intros; apply yo_ok ] ]. Qed.
Lemma yo_obs {I} (di : decoder I) n : (forall m, yaml_only (di m)) -> yaml_only (decode_obs di n).
Proof.
  intros H. unfold decode_obs. destruct (negb _); [ apply yo_ok | ]. apply yo_sub; [ intros; apply yo_seq; intros; apply yo_corr, H | intros ].
  apply yo_sub; [ apply yo_iso | intros ]. apply yo_sub; [ apply yo_iso | intros; apply yo_ok ].
Qed.
Lemma yo_problem2 n : yaml_only (decode_problem2D3D n).
Proof.
  unfold decode_problem2D3D. destruct (negb _); [ apply yo_ok | ]. apply yo_sub; [ apply yo_intr | intros ]. apply yo_sub; [ apply yo_iso | intros ]. apply yo_sub; [ apply yo_iso | intros ].
  apply yo_sub; [ intros; apply yo_seq; intros; apply yo_obs, yo_vec2 | intros; apply yo_ok ].
Qed.
Lemma yo_problem3 n : yaml_only (decode_problem3D3D n).
Proof.
  unfold decode_problem3D3D. destruct (negb _); [ apply yo_ok | ]. apply yo_sub; [ apply yo_iso | intros ]. apply yo_sub; [ apply yo_iso | intros ].
  apply yo_sub; [ intros; apply yo_seq; intros; apply yo_obs, yo_vec3 | intros; apply yo_ok ].
Qed.

(** ** What is read *)

Lemma as_ok {A} (d : decoder A) n a : as_ d n = Ok a <-> d n = Ok (Some a).
Proof.
  unfold as_. rewrite bind_ok. split.
  - intros ([b | ] & E & H); [ injection H as ->; exact E | discriminate ].
  - intros E. exists (Some a). auto.
Qed.
Lemma vec2_reads n v : as_ decode_vec2 n = Ok v <-> says_vec2 n v.
Proof.
  rewrite as_ok. unfold decode_vec2, says_vec2. rewrite read_bind. split.
  - intros (x & X & H). apply read_bind in H. destruct H as (y & Y & H). injection H as <-. auto.
  - intros (X & Y). exists (px v). split; [ exact X | ]. apply read_bind. exists (py v). split; [ exact Y | destruct v; reflexivity ].
Qed.
Lemma vec3_reads n v : as_ decode_vec3 n = Ok v <-> says_vec3 n v.
Proof.
  rewrite as_ok. unfold decode_vec3, says_vec3. rewrite read_bind. split.
  - intros (x & X & H). apply read_bind in H. destruct H as (y & Y & H). apply read_bind in H. destruct H as (z & Z & H). injection H as <-. auto.
  - intros (X & Y & Z). exists (vx v). split; [ exact X | ]. apply read_bind. exists (vy v). split; [ exact Y | ]. apply read_bind. exists (vz v). split; [ exact Z | destruct v; reflexivity ].
Qed.
Lemma iso_reads n T : as_ decode_iso n = Ok T <-> exists q, says_pose n (tr T) q /\ lin T = q_matrix q.
Proof.
  rewrite as_ok. unfold decode_iso, says_pose, says_vec3. split.
  - intros H. do 7 (apply read_bind in H; destruct H as (? & ? & H)). injection H as <-. cbn [tr lin vx vy vz]. eexists (Q _ _ _ _). cbn [qw qx qy qz]. split; [ | reflexivity ]. repeat split; eassumption.
  - intros ([w x y z] & ((X & Y & Z) & W & I & J & K) & L). cbn [qw qx qy qz] in *. destruct T as [m [a b c]]. cbn [lin tr vx vy vz] in *. subst m.
    do 7 (apply read_bind; eexists; split; [ eassumption | ]). reflexivity.
Qed.
Lemma intr_reads n k : as_ decode_intr n = Ok k <-> says_intr n k.
Proof.
  rewrite as_ok. unfold decode_intr, says_intr. split.
  - intros H. destruct (Nat.eqb_spec (ysize n) 4) as [E | E]; cbn [negb] in H; [ | discriminate ].
    do 4 (apply read_bind in H; destruct H as (? & ? & H)). injection H as <-. cbn [fx fy cx cy]. split; [ | auto ].
    match goal with N : number_at _ n _ |- _ => destruct N as (v & (m1 & m2 & -> & _) & _) end. eexists. split; [ reflexivity | exact E ].
  - intros ((m & -> & L) & A & B & C & D). cbn [ysize]. rewrite L. cbn [Nat.eqb negb]. do 4 (apply read_bind; eexists; split; [ eassumption | ]). destruct k; reflexivity.
Qed.

(** ** Round trips *)

Lemma vec2_round v : as_ decode_vec2 (encode_vec2 v) = Ok v.
Proof. destruct v. reflexivity. Qed.
Lemma vec3_round v : as_ decode_vec3 (encode_vec3 v) = Ok v.
Proof. destruct v. reflexivity. Qed.
Lemma iso_round T : rigid T -> as_ decode_iso (encode_iso T) = Ok T.
Proof.
  intros H. transitivity (Ok (Iso (q_matrix (quat_of_mat (lin T))) (tr T))).
  - unfold encode_iso. generalize (quat_of_mat (lin T)). intros [w x y z]. destruct T as [m [a b c]]. reflexivity.
  - rewrite q_matrix_quat_of_mat by exact H. destruct T; reflexivity.
Qed.
Lemma intr_round k : as_ decode_intr (encode_intr k) = Ok k.
Proof. destruct k. reflexivity. Qed.
Lemma seq_round {A} (e : A -> yaml) (d : decoder A) l : (forall a, In a l -> as_ d (e a) = Ok a) -> as_ (decode_seq d) (encode_seq e l) = Ok l.
Proof.
  intros H. apply as_ok. unfold decode_seq, encode_seq.
  assert (E : mapM (as_ d) (map e l) = Ok l).
  { induction l as [ | a r IH]; [ reflexivity | ]. cbn. rewrite (H a (or_introl eq_refl)). cbn. rewrite IH by (intros b Hb; apply H; right; exact Hb). reflexivity. }
  rewrite E. reflexivity.
Qed.
Lemma corr_round {I} (ei : I -> yaml) (di : decoder I) c : (forall i, as_ di (ei i) = Ok i) -> as_ (decode_corr di) (encode_corr ei c) = Ok c.
Proof.
  intros H. apply as_ok. unfold decode_corr, encode_corr. cbn [ysize List.length Nat.eqb negb field find_str String.eqb Ascii.eqb Bool.eqb bind]. rewrite H, vec3_round. cbn [bind]. destruct c. reflexivity.
Qed.
Lemma obs_round {I} (ei : I -> yaml) (di : decoder I) o : (forall i, as_ di (ei i) = Ok i) -> rigid_observation o -> as_ (decode_obs di) (encode_obs ei o) = Ok o.
Proof.
  intros H [Rc Rt]. apply as_ok. unfold decode_obs, encode_obs. cbn [ysize List.length Nat.eqb negb field find_str String.eqb Ascii.eqb Bool.eqb bind].
  rewrite seq_round by (intros; apply corr_round, H). cbn [bind]. rewrite !iso_round by assumption. destruct o. reflexivity.
Qed.
Lemma problem2_round p : rigid (h2_camera_guess p) -> rigid (h2_target_guess p) -> (forall o, In o (h2_observations p) -> rigid_observation o) ->
  as_ decode_problem2D3D (encode_problem2D3D p) = Ok (HEP2 (h2_observations p) (h2_intr p) (h2_target_guess p) (h2_camera_guess p) default_he_labels).
Proof.
  intros Rc Rt H. apply as_ok. unfold decode_problem2D3D, encode_problem2D3D. cbn [ysize List.length Nat.eqb negb field find_str String.eqb Ascii.eqb Bool.eqb bind].
  rewrite intr_round. cbn [bind]. rewrite !iso_round by assumption. cbn [bind]. rewrite seq_round; [ reflexivity | ]. intros o Ho. apply obs_round; [ exact vec2_round | apply H, Ho ].
Qed.
Lemma problem3_round p : rigid (h3_camera_guess p) -> rigid (h3_target_guess p) -> (forall o, In o (h3_observations p) -> rigid_observation o) ->
  as_ decode_problem3D3D (encode_problem3D3D p) = Ok (HEP3 (h3_observations p) (h3_target_guess p) (h3_camera_guess p) default_he_labels).
Proof.
  intros Rc Rt H. apply as_ok. unfold decode_problem3D3D, encode_problem3D3D. cbn [ysize List.length Nat.eqb negb field find_str String.eqb Ascii.eqb Bool.eqb bind].
  rewrite !iso_round by assumption. cbn [bind]. rewrite seq_round; [ reflexivity | ]. intros o Ho. apply obs_round; [ exact vec3_round | apply H, Ho ].
Qed.

(** ** Wrong sizes *)

Lemma wrong_size n :
  (ysize n <> 4 -> as_ decode_intr n = Throw YamlException /\ as_ decode_problem2D3D n = Throw YamlException)%nat /\
  (ysize n <> 2 -> forall I (di : decoder I), as_ (decode_corr di) n = Throw YamlException)%nat /\
  (ysize n <> 3 -> (forall I (di : decoder I), as_ (decode_obs di) n = Throw YamlException) /\ as_ decode_problem3D3D n = Throw YamlException)%nat /\
  (ysize n <> 7 -> forall c, as_ (decode_result c) n = Throw YamlException)%nat.
Proof.
  repeat apply conj; intros H; [ split | | split | ]; intros; unfold as_, decode_intr, decode_problem2D3D, decode_corr, decode_obs, decode_problem3D3D, decode_result;
    rewrite (proj2 (Nat.eqb_neq _ _) H); reflexivity.
Qed.

(** ** DH chains *)

Lemma unsigned_small z : (0 <= z < 2 ^ 32)%Z -> as_unsigned 32 (YInt z) = Ok z.
Proof.
  intros H. unfold as_unsigned, as_, decode_unsigned. rewrite (proj2 (Z.ltb_lt _ _)) by lia. rewrite (proj2 (Z.ltb_lt _ _)) by lia. cbn [andb bind]. rewrite Z.mod_small by lia. reflexivity.
Qed.
Lemma joint_reads text seed n t : says_joint n t -> as_ (decode_dh_transform text seed) n = Ok (DHT (params t) (jtype t) PI (- PI) (jname t) seed).
Proof.
  intros ((z & J & T) & D & Th & Rr & Al & N). apply as_ok. unfold decode_dh_transform. apply field_ok in T. rewrite T. cbn [bind].
  rewrite unsigned_small by (destruct (jtype t); cbn in J; try discriminate; injection J as <-; lia). cbn [bind].
  assert (E : (match z with 0%Z => Ok LINEAR | 1%Z => Ok REVOLUTE | _ => Throw RuntimeError end) = Ok (jtype t)) by (destruct (jtype t); cbn in J; try discriminate; injection J as <-; reflexivity).
  rewrite E. cbn [bind]. do 4 (apply read_bind; eexists; split; [ eassumption | ]). apply field_ok in N. rewrite N. cbn [bind]. destruct (params t). reflexivity.
Qed.
Lemma chain_reads text seeds n base q bn l js : has "base_transform" n bn -> says_pose bn (tr base) q -> lin base = q_matrix q ->
  has "dh_transforms" n (YSeq l) -> Forall2 says_joint l js ->
  exists c, as_ (decode_dh_chain text seeds) n = Ok c /\ base_offset c = base /\
    Forall2 (fun t j => params t = params j /\ jtype t = jtype j /\ jname t = jname j /\ jmax t = PI /\ jmin t = - PI) (transforms c) js.
Proof.
  intros HB SB LB HT F. apply field_ok in HB. apply field_ok in HT.
  assert (B : as_ decode_iso bn = Ok base) by (apply iso_reads; eauto).
  assert (M : exists ts, mapM (fun i => do v <- item i (YSeq l); as_ (decode_dh_transform text (seeds i)) v) (seq 0 (List.length l)) = Ok ts /\
    Forall2 (fun t j => params t = params j /\ jtype t = jtype j /\ jname t = jname j /\ jmax t = PI /\ jmin t = - PI) ts js).
  { assert (G : forall pre k, List.length pre = k -> exists ts, mapM (fun i => do v <- item i (YSeq (pre ++ l)); as_ (decode_dh_transform text (seeds i)) v) (seq k (List.length l)) = Ok ts /\
      Forall2 (fun t j => params t = params j /\ jtype t = jtype j /\ jname t = jname j /\ jmax t = PI /\ jmin t = - PI) ts js).
    { clear HB SB LB HT B. induction F as [ | v j l js Hj F IH]; intros pre k Hk; [ exists []; split; [ reflexivity | constructor ] | ].
      destruct (IH (pre ++ [v]) (S k)) as (ts & E & G); [ rewrite app_length; cbn; lia | ]. rewrite <- app_assoc in E. cbn [app] in E.
      exists (DHT (params j) (jtype j) PI (- PI) (jname j) (seeds k) :: ts). split; [ | constructor; [ cbn; auto | exact G ] ].
      cbn [List.length seq mapM]. unfold item at 1. rewrite nth_error_app2 by lia. rewrite Hk, Nat.sub_diag. cbn [nth_error bind]. rewrite (joint_reads text (seeds k) v j Hj). cbn [bind]. rewrite E. reflexivity. }
    destruct (G [] 0%nat eq_refl) as (ts & E & X). exists ts. auto. }
  destruct M as (ts & E & X). exists (DHChain ts base). split; [ | split; [ reflexivity | exact X ] ].
  apply as_ok. unfold decode_dh_chain. rewrite HB. cbn [bind]. rewrite B. cbn [bind]. rewrite HT. cbn [bind ysize]. rewrite E. reflexivity.
Qed.
Lemma bad_joint text seed n z : has "type" n (YInt z) -> (2 <= z < 2 ^ 32)%Z -> as_ (decode_dh_transform text seed) n = Throw RuntimeError.
Proof.
  intros H Hz. apply field_ok in H. unfold as_, decode_dh_transform. rewrite H. cbn [bind]. rewrite unsigned_small by lia. cbn [bind].
  destruct z as [ | [ p | p | ] | ]; try lia; reflexivity.
Qed.

(** ** Labels *)

Lemma labels_lost p2 p3 : h2_labels p2 <> default_he_labels -> h3_labels p3 <> default_he_labels ->
  as_ decode_problem2D3D (encode_problem2D3D p2) <> Ok p2 /\ as_ decode_problem3D3D (encode_problem3D3D p3) <> Ok p3.
Proof.
  intros H2 H3. split; intros E; apply as_ok in E.
  - unfold decode_problem2D3D in E. destruct (negb _); [ discriminate | ].
    repeat (apply bind_ok in E; destruct E as (? & _ & E)). injection E as E. apply H2. rewrite <- E. reflexivity.
  - unfold decode_problem3D3D in E. destruct (negb _); [ discriminate | ].
    repeat (apply bind_ok in E; destruct E as (? & _ & E)). injection E as E. apply H3. rewrite <- E. reflexivity.
Qed.
(** Nothing but a YAML exception. *)
Lemma fails_with_yaml n :
  (forall v, as_ decode_iso n <> Ok v) -> as_ decode_iso n = Throw YamlException.
Proof.
  intros H. pose proof (yo_iso n) as [(a & E) | E]; unfold as_ in *; rewrite E in *; cbn [bind] in *; [ | reflexivity ].
  destruct a as [a | ]; [ exfalso; exact (H a eq_refl) | reflexivity ].
Qed.
