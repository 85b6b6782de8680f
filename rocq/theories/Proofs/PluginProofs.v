(** The target finder plugins. *)
From Coq Require Import Reals Lra Lia ZArith String List Bool.
From Verif.Base Require Import Geom Outcome.
From Verif.Model Require Import Yaml CircleDetector Targets Loaders Plugins.
From Verif.Spec Require Import YamlSpec LoaderSpec PluginSpec.
From Verif.Proofs Require Import YamlProofs LoaderProofs.
Import ListNotations.
Local Open Scope R_scope.

(** Conversions that fail with a YAML exception only. *)
Lemma yo_d_int n : yaml_only (decode_int n). Proof. unfold decode_int. destruct n; try apply yo_ok. destruct (_ && _)%bool; apply yo_ok. Qed.
Lemma yo_d_unsigned b n : yaml_only (decode_unsigned b n). Proof. unfold decode_unsigned. destruct n; try apply yo_ok. destruct (_ && _)%bool; apply yo_ok. Qed.
Lemma yo_d_double n : yaml_only (decode_double n). Proof. unfold decode_double. destruct n; apply yo_ok. Qed.
Lemma yo_d_bool n : yaml_only (decode_bool n). Proof. unfold decode_bool. destruct n; apply yo_ok. Qed.

Lemma member_iff {A} (d : decoder A) n key a : getMember d n key = Ok a <-> exists v, has key n v /\ as_ d v = Ok a.
Proof.
  unfold getMember. split.
  - destruct (do v <- field key n; as_ d v) as [b | [] | ] eqn:E; try discriminate. intros H. injection H as ->. apply bind_ok in E. destruct E as (v & F & E). exists v. split; [ apply field_ok, F | exact E ].
  - intros (v & H & E). apply field_ok in H. rewrite H. cbn [bind]. rewrite E. reflexivity.
Qed.
Definition re {A} (x : res A) : Prop := (exists a, x = Ok a) \/ x = Throw RuntimeError.
Lemma re_member {A} (d : decoder A) n key : (forall m, yaml_only (d m)) -> re (getMember d n key).
Proof.
  intros H. unfold getMember. assert (Y : yaml_only (do v <- field key n; as_ d v)) by (apply yo_bind; [ apply yo_field | intros v; apply yo_as, H ]).
  destruct Y as [[a ->] | ->]; [ left; eauto | right; reflexivity ].
Qed.
Lemma re_bind {A B} (x : res A) (f : A -> res B) : re x -> (forall a, re (f a)) -> re (bind x f).
Proof. intros [[a ->] | ->] H; [ apply H | right; reflexivity ]. Qed.
Lemma re_size n key : re (get_size n key).
Proof. unfold get_size. apply re_bind; [ apply re_member, yo_d_unsigned | left; eauto ]. Qed.

Lemma as_int_iff v z : as_ decode_int v = Ok z <-> v = YInt z /\ (- 2 ^ 31 <= z < 2 ^ 31)%Z.
Proof.
  rewrite as_ok. unfold decode_int. split.
  - destruct v; try discriminate. destruct (_ && _)%bool eqn:E; [ | discriminate ]. intros H. injection H as ->. apply andb_true_iff in E. destruct E as [E1 E2]. apply Z.leb_le in E1. apply Z.ltb_lt in E2. auto.
  - intros (-> & L & U). rewrite (proj2 (Z.leb_le _ _) L), (proj2 (Z.ltb_lt _ _) U). reflexivity.
Qed.
Lemma int_iff n key z : getMember decode_int n key = Ok z <-> int_at key n z.
Proof.
  rewrite member_iff. unfold int_at. split.
  - intros (v & H & E). apply as_int_iff in E. destruct E as [-> E]. auto.
  - intros [H E]. exists (YInt z). split; [ exact H | apply as_int_iff; auto ].
Qed.
Lemma size_iff n key c : get_size n key = Ok c <-> size_at key n c.
Proof.
  unfold get_size, size_at. rewrite bind_ok. split.
  - intros (z & E & H). injection H as <-. apply member_iff in E. destruct E as (v & H & E). apply as_ok in E. unfold decode_unsigned in E. destruct v as [ | w | | | | | ]; try discriminate.
    destruct (_ && _)%bool eqn:B; [ | discriminate ]. injection E as <-. apply andb_true_iff in B. destruct B as [B1 B2]. apply Z.ltb_lt in B1, B2. exists w. split; [ exact H | ].
    pose proof (Z.mod_pos_bound w (2 ^ 64) ltac:(lia)). rewrite Z2Nat.id by lia. destruct (Z.neg_nonneg_cases w) as [N | N]; [ right | left ]; (split; [ lia | ]).
    + rewrite <- (Z.mod_small (w + 2 ^ 64) (2 ^ 64)) by lia. rewrite Z.add_mod, Z.mod_same, Z.add_0_r, Z.mod_mod by lia. reflexivity.
    + apply Z.mod_small. lia.
  - intros (z & H & C).
    assert (M : (z mod 2 ^ 64 = Z.of_nat c)%Z).
    { destruct C as [[B C] | [B C]]; [ rewrite C; apply Z.mod_small; lia | ]. rewrite C. rewrite <- (Z.mod_small (z + 2 ^ 64) (2 ^ 64)) by lia. rewrite Z.add_mod, Z.mod_same, Z.add_0_r, Z.mod_mod by lia. reflexivity. }
    exists (z mod 2 ^ 64)%Z. split; [ | rewrite M, Nat2Z.id; reflexivity ]. apply member_iff. exists (YInt z). split; [ exact H | ]. apply as_ok. unfold decode_unsigned.
    rewrite (proj2 (Z.ltb_lt (- 2 ^ 64) z)) by lia. rewrite (proj2 (Z.ltb_lt z (2 ^ 64))) by lia. reflexivity.
Qed.
Lemma float_iff n key r : get_float n key = Ok r <-> number_at key n r.
Proof.
  unfold get_float. rewrite member_iff. unfold number_at. split; intros (v & H & E); exists v; (split; [ exact H | ]); apply double_ok; exact E.
Qed.
Lemma bool_iff n key b : get_bool n key = Ok b <-> bool_at key n b.
Proof.
  unfold get_bool, bool_at. rewrite member_iff. split.
  - intros (v & H & E). apply as_ok in E. destruct v; try discriminate. injection E as ->. exact H.
  - intros H. exists (YBool b). split; [ exact H | reflexivity ].
Qed.
Lemma color_mod z : ((z mod 2 ^ 16) mod 2 ^ 8 = z mod 256)%Z.
Proof. change (2 ^ 8)%Z with 256%Z. change (2 ^ 16)%Z with (256 * 256)%Z. rewrite Z.rem_mul_r by lia. rewrite Z.mul_comm, Z.mod_add by lia. apply Z.mod_mod. lia. Qed.

Lemma detector_iff n p : loadCircleDetectorParams n = Ok p <-> says_detector n p.
Proof.
  unfold loadCircleDetectorParams, says_detector. split.
  - intros H. repeat (apply bind_ok in H; let a := fresh "a" in let E := fresh "E" in destruct H as (a & E & H)). injection H as <-.
    cbn [nThresholds minThreshold maxThreshold minRepeatability circleInclusionRadius maxRadiusDiff maxAverageEllipseError filterByColor circleColor filterByArea minArea maxArea filterByCircularity minCircularity maxCircularity filterByInertia minInertiaRatio maxInertiaRatio filterByConvexity minConvexity maxConvexity].
    repeat split; try (apply size_iff; assumption); try (apply float_iff; assumption); try (apply bool_iff; assumption).
    eexists. split; [ apply int_iff; eassumption | ]. rewrite color_mod, Z2Nat.id; [ reflexivity | ]. apply Z.mod_pos_bound. lia.
  - intros (H0 & H1 & H2 & H3 & H4 & H5 & H6 & H7 & (z & H8 & Hz) & H9 & H10 & H11 & H12 & H13 & H14 & H15 & H16 & H17 & H18 & H19 & H20).
    apply size_iff in H0, H3. apply float_iff in H1, H2, H4, H5, H6, H10, H11, H13, H14, H16, H17, H19, H20. apply bool_iff in H7, H9, H12, H15, H18. apply int_iff in H8.
    repeat match goal with H : _ = Ok _ |- bind ?x _ = _ => rewrite H; cbn [bind]; clear H end.
    rewrite color_mod, <- Hz, Nat2Z.id. destruct p. reflexivity.
Qed.
Lemma re_detector n : re (loadCircleDetectorParams n).
Proof.
  unfold loadCircleDetectorParams. repeat (apply re_bind; [ first [ apply re_size | apply re_member; first [ apply yo_d_double | apply yo_d_bool | apply yo_d_int ] ] | intros ? ]). left. eauto.
Qed.

(** ** Circle grids *)

Definition detector_node (config : yaml) : yaml := match field "circle_detector_params" config with Ok n => n | _ => YNull end.
Lemma has_unique key n v w : has key n v -> has key n w -> v = w.
Proof. intros H K. apply field_ok in H, K. congruence. Qed.
Lemma null_says p : ~ says_detector YNull p.
Proof. intros ((z & (m1 & m2 & E & _) & _) & _). discriminate. Qed.
Lemma node_says config p : says_detector (detector_node config) p <-> exists n, has "circle_detector_params" config n /\ says_detector n p.
Proof.
  unfold detector_node. split.
  - destruct (field "circle_detector_params" config) as [n | | ] eqn:F; intros H; try (exfalso; exact (null_says p H)). exists n. split; [ apply field_ok, F | exact H ].
  - intros (n & F & H). apply field_ok in F. rewrite F. exact H.
Qed.
Lemma float_max_is : float_max = (2 ^ 24 - 1) * 2 ^ 104.
Proof. unfold float_max. replace (2 ^ 127) with (2 ^ 23 * 2 ^ 104) by (rewrite <- pow_add; reflexivity). replace (2 ^ 24) with (2 * 2 ^ 23) by reflexivity. field. Qed.
Lemma default_is p : default_detector p <-> p = default_params.
Proof.
  unfold default_detector. rewrite <- float_max_is. split.
  - destruct p as [a b c d e f g h i j k l m n o q r s t u v]. cbn [minThreshold maxThreshold nThresholds minRepeatability circleInclusionRadius maxRadiusDiff maxAverageEllipseError filterByColor circleColor filterByArea minArea maxArea filterByCircularity minCircularity maxCircularity filterByInertia minInertiaRatio maxInertiaRatio filterByConvexity minConvexity maxConvexity].
    intros H. repeat match goal with H : _ /\ _ |- _ => destruct H end. subst. reflexivity.
  - intros ->. repeat split; reflexivity.
Qed.
Lemma detector_choice config target :
  match loadCircleDetectorParams (detector_node config) with Ok p => make_finder target p | Throw _ => make_finder target default_params | UB => UB end =
  match loadCircleDetectorParams (detector_node config) with Ok p => make_finder target p | _ => make_finder target default_params end.
Proof. destruct (re_detector (detector_node config)) as [[p ->] | ->]; reflexivity. Qed.
Lemma finder_choice config target f :
  match loadCircleDetectorParams (detector_node config) with Ok p => make_finder target p | Throw _ => make_finder target default_params | UB => UB end = Ok f <->
  exists p, detector_of config p /\ make_finder target p = Ok f.
Proof.
  rewrite detector_choice. unfold detector_of. destruct (loadCircleDetectorParams (detector_node config)) as [p | e | ] eqn:E.
  - apply detector_iff in E. split.
    + intros H. exists p. split; [ left; apply node_says, E | exact H ].
    + intros (q & [D | [_ D]] & H).
      * apply node_says in D. apply detector_iff in E, D. rewrite E in D. injection D as <-. exact H.
      * exfalso. apply D. apply node_says in E. destruct E as (n & A & B). eauto.
  - assert (N : ~ exists n q, has "circle_detector_params" config n /\ says_detector n q). { intros (n & q & A & B). assert (D : says_detector (detector_node config) q) by (apply node_says; eauto). apply detector_iff in D. congruence. }
    split; [ intros H; exists default_params; split; [ right; split; [ apply default_is; reflexivity | exact N ] | exact H ] | ]. intros (q & [(n & A & B) | [D _]] & H); [ exfalso; eauto | apply default_is in D; subst q; exact H ].
  - destruct (re_detector (detector_node config)) as [[p E'] | E']; congruence.
Qed.
Lemma to_unsigned_eq z c : Z.of_nat c = (z mod 2 ^ 32)%Z <-> c = to_unsigned z.
Proof.
  unfold to_unsigned. pose proof (Z.mod_pos_bound z (2 ^ 32) ltac:(lia)). split; [ intros E; rewrite <- E, Nat2Z.id; reflexivity | intros ->; apply Z2Nat.id; lia ].
Qed.
Lemma to_unsigned_zero z : (- 2 ^ 31 <= z < 2 ^ 31)%Z -> (to_unsigned z = 0%nat <-> z = 0%Z).
Proof.
  intros B. split; [ | intros ->; reflexivity ]. intros E. unfold to_unsigned in E. pose proof (Z.mod_pos_bound z (2 ^ 32) ltac:(lia)). assert (M : (z mod 2 ^ 32 = 0)%Z) by lia.
  apply Z.mod_divide in M; [ | lia ]. destruct M as [k ->]. lia.
Qed.
Lemma make_finder_iff target p f : make_finder target p = Ok f <-> cg_rows target <> 0%nat /\ cg_cols target <> 0%nat /\ f = CF target p.
Proof.
  unfold make_finder. destruct (Nat.eqb_spec (cg_cols target) 0) as [C | C]; cbn [orb]; [ split; [ discriminate | intros (_ & H & _); contradiction ] | ].
  destruct (Nat.eqb_spec (cg_rows target) 0) as [W | W]; [ split; [ discriminate | intros (H & _); contradiction ] | ]. split; [ intros H; injection H as <-; auto | intros (_ & _ & ->); reflexivity ].
Qed.
Lemma int_field key n z : (do v <- field key n; as_int v) = Ok z <-> int_at key n z.
Proof.
  rewrite bind_ok. unfold int_at. split.
  - intros (v & F & E). apply field_ok in F. apply as_int_iff in E. destruct E as [-> E]. auto.
  - intros [F E]. exists (YInt z). split; [ apply field_ok, F | apply as_int_iff; auto ].
Qed.
Lemma int_bind {A} key n (f : Z -> res A) a : (do v <- field key n; do z <- as_int v; f z) = Ok a <-> exists z, int_at key n z /\ f z = Ok a.
Proof.
  rewrite bind_ok. split.
  - intros (v & F & E). apply bind_ok in E. destruct E as (z & E & H). exists z. split; [ apply int_field; rewrite F; exact E | exact H ].
  - intros (z & I & H). apply int_field in I. apply bind_ok in I. destruct I as (v & F & E). exists v. split; [ exact F | rewrite E; exact H ].
Qed.
Lemma init_circle_iff config f : init_circle config = Ok f <->
  exists rows cols spacing, says_circle_grid config rows cols spacing /\ rows <> 0%Z /\ cols <> 0%Z /\
    detector_of config (cf_params f) /\ cg_spacing (cf_target f) = spacing /\
    Z.of_nat (cg_rows (cf_target f)) = (rows mod 2 ^ 32)%Z /\ Z.of_nat (cg_cols (cf_target f)) = (cols mod 2 ^ 32)%Z.
Proof.
  unfold init_circle, says_circle_grid. rewrite int_bind. fold (detector_node config). split.
  - intros (rows & Hr & H). apply int_bind in H. destruct H as (cols & Hc & H). apply read_bind in H. destruct H as (spacing & Hs & H).
    apply finder_choice in H. destruct H as (p & D & H). apply make_finder_iff in H. cbn [cg_rows cg_cols] in H. destruct H as (R0 & C0 & ->). exists rows, cols, spacing. cbn [cf_params cf_target cg_spacing cg_rows cg_cols].
    rewrite to_unsigned_zero in R0 by apply Hr. rewrite to_unsigned_zero in C0 by apply Hc. rewrite !to_unsigned_eq. auto 10.
  - intros (rows & cols & spacing & (Hr & Hc & Hs) & R0 & C0 & D & S & Er & Ec). exists rows. split; [ exact Hr | ]. apply int_bind. exists cols. split; [ exact Hc | ]. apply read_bind. exists spacing. split; [ exact Hs | ].
    apply finder_choice. exists (cf_params f). split; [ exact D | ]. apply make_finder_iff. cbn [cg_rows cg_cols]. rewrite !to_unsigned_zero by (apply Hr || apply Hc). split; [ exact R0 | split; [ exact C0 | ] ].
    apply to_unsigned_eq in Er, Ec. destruct f as [[r c s] p]. cbn in *. subst. reflexivity.
Qed.
(** What else can happen. *)
Lemma init_circle_fails config : (~ exists rows cols spacing, says_circle_grid config rows cols spacing) -> init_circle config = Throw YamlException.
Proof.
  intros N. unfold init_circle.
  destruct (yo_bind (field "rows" config) (fun v => as_int v) (yo_field _ _) (fun v => yo_as _ _ (yo_d_int v))) as [[rows Er] | Er].
  - destruct (yo_bind (field "cols" config) (fun v => as_int v) (yo_field _ _) (fun v => yo_as _ _ (yo_d_int v))) as [[cols Ec] | Ec].
    + destruct (yo_bind (field "spacing" config) (fun v => as_double v) (yo_field _ _) yo_double) as [[s Es] | Es].
      * exfalso. apply N. exists rows, cols, s. split; [ apply int_field, Er | split; [ apply int_field, Ec | apply read_ok, Es ] ].
      * apply bind_ok in Er. destruct Er as (v & -> & Er). cbn [bind]. rewrite Er. cbn [bind]. apply bind_ok in Ec. destruct Ec as (w & -> & Ec). cbn [bind]. rewrite Ec. cbn [bind].
        destruct (field "spacing" config) as [u | e | ]; cbn [bind] in *; [ rewrite Es; reflexivity | injection Es as ->; reflexivity | discriminate ].
    + apply bind_ok in Er. destruct Er as (v & -> & Er). cbn [bind]. rewrite Er. cbn [bind].
      destruct (field "cols" config) as [u | e | ]; cbn [bind] in *; [ rewrite Ec; reflexivity | injection Ec as ->; reflexivity | discriminate ].
  - destruct (field "rows" config) as [u | e | ]; cbn [bind] in *; [ rewrite Er; reflexivity | injection Er as ->; reflexivity | discriminate ].
Qed.
Lemma init_circle_zero config rows cols spacing : says_circle_grid config rows cols spacing -> (rows = 0 \/ cols = 0)%Z -> init_circle config = UB.
Proof.
  intros (Hr & Hc & Hs) Z. apply int_field in Hr, Hc. apply read_ok in Hs. apply bind_ok in Hr. destruct Hr as (v & Fr & Er). apply bind_ok in Hc. destruct Hc as (w & Fc & Ec). apply bind_ok in Hs. destruct Hs as (u & Fs & Es).
  unfold init_circle. rewrite Fr. cbn [bind]. rewrite Er. cbn [bind]. rewrite Fc. cbn [bind]. rewrite Ec. cbn [bind]. rewrite Fs. cbn [bind]. rewrite Es. cbn [bind]. fold (detector_node config). rewrite detector_choice.
  assert (M : forall p, make_finder (CG (to_unsigned rows) (to_unsigned cols) spacing) p = UB) by (intros p; unfold make_finder; cbn [cg_rows cg_cols]; destruct Z as [-> | ->]; change (to_unsigned 0) with 0%nat; rewrite ?Bool.orb_true_r; reflexivity).
  destruct (loadCircleDetectorParams _); apply M.
Qed.

(** ** ChArUco boards *)

Lemma init_charuco_value {T} (create : Z -> Z -> R -> R -> Z -> res T) config rows cols a b dict :
  says_charuco config rows cols a b dict -> init_charuco create config = create rows cols a b dict.
Proof.
  intros (Hc & Hr & Ha & Hb & Hd). apply int_field in Hr, Hc, Hd. apply read_ok in Ha, Hb.
  apply bind_ok in Hr. destruct Hr as (v & Fr & Er). apply bind_ok in Hc. destruct Hc as (w & Fc & Ec). apply bind_ok in Ha. destruct Ha as (u & Fa & Ea). apply bind_ok in Hb. destruct Hb as (x & Fb & Eb). apply bind_ok in Hd. destruct Hd as (y & Fd & Ed).
  unfold init_charuco. rewrite Fc. cbn [bind]. rewrite Ec. cbn [bind]. rewrite Fr. cbn [bind]. rewrite Er. cbn [bind]. rewrite Fa. cbn [bind]. rewrite Ea. cbn [bind]. rewrite Fb. cbn [bind]. rewrite Eb. cbn [bind]. rewrite Fd. cbn [bind]. rewrite Ed. reflexivity.
Qed.
Lemma init_charuco_ok {T} (create : Z -> Z -> R -> R -> Z -> res T) config t : init_charuco create config = Ok t <->
  exists rows cols a b dict, says_charuco config rows cols a b dict /\ create rows cols a b dict = Ok t.
Proof.
  split.
  - unfold init_charuco, says_charuco. intros H. apply int_bind in H. destruct H as (cols & Hc & H). apply int_bind in H. destruct H as (rows & Hr & H). apply read_bind in H. destruct H as (a & Ha & H). apply read_bind in H. destruct H as (b & Hb & H). apply int_bind in H. destruct H as (d & Hd & H).
    exists rows, cols, a, b, d. auto 10.
  - intros (rows & cols & a & b & d & S & E). rewrite (init_charuco_value create _ _ _ _ _ _ S). exact E.
Qed.

(** ** From a parameter *)

Lemma same_int_inv z y : same_value (XInt z) y -> y = YInt z.
Proof. intros H. inversion H as [? ? S | | | ]; subst. inversion S. reflexivity. Qed.
Lemma same_double_inv r y : same_value (XDouble r) y -> y = YReal r.
Proof. intros H. inversion H as [? ? S | | | ]; subst. inversion S. reflexivity. Qed.
Lemma from_param v config rows cols spacing : toYAML v = Ok config -> member "rows" v (XInt rows) -> member "cols" v (XInt cols) -> member "spacing" v (XDouble spacing) ->
  (0 < rows < 2 ^ 31)%Z -> (0 < cols < 2 ^ 31)%Z -> exists f, init_circle config = Ok f /\ cf_target f = CG (Z.to_nat rows) (Z.to_nat cols) spacing.
Proof.
  intros E Mr Mc Ms Br Bc. destruct (toYAML_member _ _ _ _ E Mr) as (yr & Hr & Vr). destruct (toYAML_member _ _ _ _ E Mc) as (yc & Hc & Vc). destruct (toYAML_member _ _ _ _ E Ms) as (ys & Hs & Vs).
  apply same_int_inv in Vr, Vc. apply same_double_inv in Vs. subst.
  assert (G : says_circle_grid config rows cols spacing). { split; [ split; [ exact Hr | lia ] | split; [ split; [ exact Hc | lia ] | exists (YReal spacing); split; [ exact Hs | left; reflexivity ] ] ]. }
  assert (D : exists p, detector_of config p).
  { unfold detector_of. destruct (loadCircleDetectorParams (detector_node config)) as [p | e | ] eqn:L.
    - exists p. left. apply node_says, detector_iff, L.
    - exists default_params. right. split; [ apply default_is; reflexivity | ]. intros (n & q & A & B). assert (Q : says_detector (detector_node config) q) by (apply node_says; eauto). apply detector_iff in Q. congruence.
    - destruct (re_detector (detector_node config)) as [[p L'] | L']; congruence. }
  destruct D as [p D]. exists (CF (CG (Z.to_nat rows) (Z.to_nat cols) spacing) p). split; [ | reflexivity ]. apply init_circle_iff. exists rows, cols, spacing. cbn [cf_params cf_target cg_spacing cg_rows cg_cols].
  rewrite !Z2Nat.id by lia. rewrite !Z.mod_small by lia. repeat split; try apply G; try lia. exact D.
Qed.
(** A negative number of rows is taken for a huge one. *)
Lemma negative_rows : exists f, init_circle (YMap [("rows", YInt (-1)); ("cols", YInt 5); ("spacing", YReal 0.025)])%string = Ok f /\ Z.of_nat (cg_rows (cf_target f)) = (2 ^ 32 - 1)%Z.
Proof.
  set (config := YMap _). exists (CF (CG (to_unsigned (-1)) (to_unsigned 5) 0.025) default_params).
  assert (E : Z.of_nat (to_unsigned (-1)) = (2 ^ 32 - 1)%Z) by (change (2 ^ 32 - 1)%Z with ((-1) mod 2 ^ 32)%Z; apply to_unsigned_eq; reflexivity). split; [ | exact E ].
  apply init_circle_iff. exists (-1)%Z, 5%Z, 0.025. cbn [cf_params cf_target cg_spacing cg_rows cg_cols]. split.
  - split; [ split; [ | lia ] | split; [ split; [ | lia ] | exists (YReal 0.025); split; [ | left; reflexivity ] ] ]; apply field_ok; reflexivity.
  - split; [ lia | split; [ lia | split ] ].
    + right. split; [ apply default_is; reflexivity | ]. intros (n & q & H & _). apply field_ok in H. discriminate.
    + split; [ reflexivity | split; [ exact E | apply to_unsigned_eq; reflexivity ] ].
Qed.
