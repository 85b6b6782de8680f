(** C98: the search for keypoints. *)
From Coq Require Import ZArith Reals Lra Psatz Lia Bool List.
From Flocq Require Import Core BinarySingleNaN.
From Verif.Base Require Import Geom Outcome Float.
From Verif.Model Require Import CircleDetector Targets CircleGridFinder.
From Verif.Spec Require Import SearchSpec.
From Verif.Proofs Require Import FloatLemmas GridOrderProofs GridWalkProofs.
Import ListNotations.
Local Open Scope R_scope.

(** ** Gains *)
Fixpoint gain64 (i : nat) : f64 := match i with O => dint 1 | S j => dadd (gain64 j) d0_01 end.
Lemma gains_list n : forall rounds i, (n < rounds)%nat ->
  (forall j, (i <= j < i + n)%nat -> dle (gain64 j) (dint 3) = true) -> dle (gain64 (i + n)) (dint 3) = false ->
  gains_from rounds (gain64 i) = map gain64 (seq i n).
Proof.
  induction n as [|n IH]; intros rounds i R T F.
  - destruct rounds; [ lia | ]. rewrite Nat.add_0_r in F. cbn [gains_from seq map]. rewrite F. reflexivity.
  - destruct rounds as [|rounds]; [ lia | ]. cbn [gains_from seq map]. rewrite T by lia. f_equal.
    apply (IH rounds (S i)); [ lia | intros j Hj; apply T; lia | rewrite Nat.add_succ_comm; exact F ].
Qed.
(** The loop in one pass, for computing *)
Fixpoint counted (n : nat) (alpha : f64) : bool :=
  match n with O => negb (dle alpha (dint 3)) | S m => dle alpha (dint 3) && counted m (dadd alpha d0_01) end.
Lemma counted_spec n : forall i, counted n (gain64 i) = true ->
  (forall j, (i <= j < i + n)%nat -> dle (gain64 j) (dint 3) = true) /\ dle (gain64 (i + n)) (dint 3) = false.
Proof.
  induction n as [|n IH]; intros i H; cbn [counted] in H.
  - rewrite Nat.add_0_r. split; [ intros; lia | ]. destruct (dle (gain64 i) (dint 3)); [ discriminate | reflexivity ].
  - apply andb_true_iff in H as [H1 H2]. destruct (IH (S i) H2) as [T F]. rewrite Nat.add_succ_comm in F. split; [ | exact F ].
    intros j Hj. destruct (Nat.eq_dec j i) as [-> | N]; [ exact H1 | apply T; lia ].
Qed.
Lemma gains_count : counted 201 (gain64 0) = true.
Proof. vm_compute. reflexivity. Qed.
Lemma gains_stop : gains = map (fun i => dval (gain64 i)) (seq 0 201).
Proof.
  destruct (counted_spec 201 0 gains_count) as [T F]. unfold gains. rewrite <- (map_map gain64 dval).
  change (dint 1) with (gain64 0). rewrite (gains_list 201 1000 0); [ reflexivity | lia | exact T | exact F ].
Qed.

Lemma d0_01_val : dfin d0_01 = true /\ Rabs (dval d0_01 - 1 / 100) <= 1 / 10 ^ 18.
Proof.
  destruct (dnum_val 5764607523034235 (-59) ltac:(reflexivity) ltac:(lia)) as [V F]. split; [ exact F | ].
  unfold d0_01. rewrite V. change (bpow radix2 (-59)) with (/ IZR 576460752303423488). apply Rabs_le. lra.
Qed.
Lemma gain_near i : (i <= 201)%nat -> dfin (gain64 i) = true /\ Rabs (dval (gain64 i) - (1 + INR i / 100)) <= INR i / (2 * 10 ^ 15).
Proof.
  induction i as [|i IH]; intros H.
  - destruct (dint_val 1 ltac:(reflexivity)) as [V F]. cbn [gain64]. rewrite V. split; [ exact F | ].
    cbn [INR]. apply Rabs_le. lra.
  - destruct (IH ltac:(lia)) as [F B]. cbn [gain64]. destruct d0_01_val as [F1 B1].
    assert (Li : INR i <= 200) by (change 200 with (IZR (Z.of_nat 200)); rewrite INR_IZR_INZ; apply IZR_le; lia).
    pose proof (pos_INR i) as Pi. rewrite S_INR. apply Rabs_le_inv in B, B1.
    destruct (dadd_ok (gain64 i) d0_01 2 ltac:(lia) F F1) as [F2 V2].
    { change (bpow radix2 2) with 4. apply Rabs_le. lra. }
    split; [ exact F2 | ]. rewrite V2. destruct (rnd_err (dval (gain64 i) + dval d0_01)) as (d & e & D & E & ->).
    assert (U : u64 <= 1 / (9 * 10 ^ 15)).
    { unfold u64. change (bpow radix2 (-53)) with (/ IZR 9007199254740992). lra. }
    assert (L : eta64 <= 1 / 10 ^ 18).
    { apply Rle_trans with (bpow radix2 (-60)); [ apply bpow_le; lia | ]. change (bpow radix2 (-60)) with (/ IZR 1152921504606846976). lra. }
    apply Rabs_le_inv in D, E. set (v := dval (gain64 i) + dval d0_01) in *.
    assert (V : 0 <= v <= 31 / 10) by (unfold v; lra).
    assert (Q : Rabs (v * d) <= 31 / 10 * (1 / (9 * 10 ^ 15))).
    { rewrite Rabs_mult. apply Rmult_le_compat; try apply Rabs_pos; [ apply Rabs_le; lra | apply Rabs_le; lra ]. }
    apply Rabs_le_inv in Q. apply Rabs_le. replace (v * (1 + d) + e) with (v + v * d + e) by ring. unfold v in *. lra.
Qed.

(** ** The search *)
(** One loop over the tries *)
Fixpoint run {A} (d : A -> res (list keypoint)) (enough : nat) (ts : list A) (ks : list keypoint) : res (bool * list keypoint) :=
  match ts with
  | [] => Ok (false, ks)
  | t :: r => do ks <- d t; if Nat.leb enough (length ks) then Ok (true, ks) else run d enough r ks
  end.
Lemma run_app A (d : A -> res (list keypoint)) enough a b : forall ks,
  run d enough (a ++ b) ks = bind (run d enough a ks) (fun f => if fst f then Ok f else run d enough b (snd f)).
Proof.
  induction a as [|x a IH]; intros ks; cbn; [ reflexivity | ]. destruct (d x); cbn; try reflexivity.
  destruct (Nat.leb enough _); [ reflexivity | apply IH ].
Qed.
Lemma run_map A B (f : B -> A) (d : A -> res (list keypoint)) enough l : forall ks,
  run d enough (map f l) ks = run (fun b => d (f b)) enough l ks.
Proof. induction l as [|x l IH]; intros ks; cbn; [ reflexivity | ]. destruct (d (f x)); cbn; try reflexivity. now rewrite IH. Qed.
Lemma beta_run d enough bs : forall ks, search_beta d enough bs ks = run d enough bs ks.
Proof. induction bs as [|x l IH]; intros ks; cbn; [ reflexivity | ]. destruct (d x); cbn; try reflexivity. now rewrite IH. Qed.
Lemma alpha_run d enough gs : forall ks,
  search_alpha d enough gs ks = bind (run (fun t => d (fst t) (snd t)) enough (tries gs) ks) (fun f => Ok (snd f)).
Proof.
  induction gs as [|g gs IH]; intros ks; [ reflexivity | ].
  change (tries (g :: gs)) with (map (pair g) (seq 0 101) ++ tries gs).
  change (search_alpha d enough (g :: gs) ks) with
    (bind (search_beta (d g) enough (seq 0 101) ks) (fun f => if fst f then Ok (snd f) else search_alpha d enough gs (snd f))).
  rewrite run_app, run_map. cbn [fst snd]. rewrite beta_run. destruct (run (d g) enough (seq 0 101) ks) as [[[] k]|e|]; cbn [bind fst snd]; try reflexivity.
  apply IH.
Qed.
Lemma run_spec A (d : A -> res (list keypoint)) enough bs : forall k0 b ks, run d enough bs k0 = Ok (b, ks) <->
  (b = true /\ exists before x after, bs = before ++ x :: after /\
     Forall (fun y => exists k, d y = Ok k /\ (length k < enough)%nat) before /\ d x = Ok ks /\ (enough <= length ks)%nat) \/
  (b = false /\ Forall (fun y => exists k, d y = Ok k /\ (length k < enough)%nat) bs /\
     ((bs = [] /\ ks = k0) \/ exists before x, bs = before ++ [x] /\ d x = Ok ks)).
Proof.
  induction bs as [|x bs IH]; intros k0 b ks; cbn [run].
  - split.
    + intros H. injection H as <- <-. right. auto.
    + intros [(_ & before & y & after & E & _) | (-> & _ & [(_ & ->) | (before & y & E & _)])];
        [ destruct before; discriminate | reflexivity | destruct before; discriminate ].
  - destruct (d x) as [k|e|] eqn:Dx; cbn [bind].
    + destruct (Nat.leb_spec enough (length k)) as [L|L].
      * split.
        -- intros H. injection H as <- <-. left. split; [ reflexivity | ]. exists [], x, bs. auto.
        -- intros [(-> & before & y & after & E & Fb & Dy & Ly) | (_ & Fa & _)].
           ++ destruct before as [|z before]; [ injection E as <- <-; congruence | ].
              injection E as <- E. inversion Fb as [|? ? (k' & Hk & Lk) _]. rewrite Dx in Hk. injection Hk as <-. lia.
           ++ inversion Fa as [|? ? (k' & Hk & Lk) _]. rewrite Dx in Hk. injection Hk as <-. lia.
      * rewrite IH. split.
        -- intros [(-> & before & y & after & -> & Fb & Dy & Ly) | (-> & Fa & C)].
           ++ left. split; [ reflexivity | ]. exists (x :: before), y, after. split; [ reflexivity | ]. split; [ constructor; eauto | auto ].
           ++ right. split; [ reflexivity | ]. split; [ constructor; eauto | ]. right.
              destruct C as [(-> & ->) | (before & y & -> & Dy)]; [ exists [], x; auto | exists (x :: before), y; auto ].
        -- intros [(-> & before & y & after & E & Fb & Dy & Ly) | (-> & Fa & C)].
           ++ destruct before as [|z before]; injection E as <- E; [ rewrite Dx in Dy; injection Dy as <-; lia | ].
              left. split; [ reflexivity | ]. exists before, y, after. inversion Fb; auto.
           ++ right. split; [ reflexivity | ]. inversion Fa as [|? ? _ Fa']. split; [ exact Fa' | ].
              destruct C as [(E & _) | (before & y & E & Dy)]; [ discriminate | ].
              destruct before as [|z before]; injection E as <- E; [ left; split; [ exact E | congruence ] | right; exists before, y; auto ].
    + split; [ discriminate | ]. intros [(_ & before & y & after & E & Fb & Dy & _) | (_ & Fa & _)].
      * destruct before as [|z before]; injection E as <- E; [ congruence | inversion Fb as [|? ? (k' & Hk & _) _]; congruence ].
      * inversion Fa as [|? ? (k' & Hk & _) _]; congruence.
    + split; [ discriminate | ]. intros [(_ & before & y & after & E & Fb & Dy & _) | (_ & Fa & _)].
      * destruct before as [|z before]; injection E as <- E; [ congruence | inversion Fb as [|? ? (k' & Hk & _) _]; congruence ].
      * inversion Fa as [|? ? (k' & Hk & _) _]; congruence.
Qed.

Lemma run_throw A (d : A -> res (list keypoint)) enough e bs : forall k0, run d enough bs k0 = Throw e <->
  exists before x after, bs = before ++ x :: after /\
    Forall (fun y => exists k, d y = Ok k /\ (length k < enough)%nat) before /\ d x = Throw e.
Proof.
  induction bs as [|x bs IH]; intros k0; cbn [run].
  - split; [ discriminate | ]. intros ([|? ?] & ? & ? & E & _); discriminate.
  - destruct (d x) as [k|e'|] eqn:Dx; cbn [bind].
    + destruct (Nat.leb_spec enough (length k)) as [L|L].
      * split; [ discriminate | ]. intros ([|y before] & z & after & E & F & D); injection E as <- E; [ congruence | ].
        inversion F as [|? ? (k' & Hk & Lk) _]. rewrite Dx in Hk. injection Hk as <-. lia.
      * rewrite IH. split.
        -- intros (before & z & after & -> & F & D). exists (x :: before), z, after. split; [ reflexivity | ].
           split; [ constructor; eauto | exact D ].
        -- intros ([|y before] & z & after & E & F & D); injection E as <- E; [ congruence | ].
           exists before, z, after. inversion F; auto.
    + split.
      * intros H. injection H as <-. exists [], x, bs. auto.
      * intros ([|y before] & z & after & E & F & D); injection E as <- E; [ congruence | ].
        inversion F as [|? ? (k' & Hk & _) _]; congruence.
    + split; [ discriminate | ]. intros ([|y before] & z & after & E & F & D); injection E as <- E; [ congruence | ].
      inversion F as [|? ? (k' & Hk & _) _]; congruence.
Qed.

(** ** What is returned *)
Lemma erase_first_in A (f : A -> bool) x l : In x l -> In x (erase_first f l) \/ f x = true.
Proof.
  induction l as [|a l IH]; [ intros [] | ]. cbn [erase_first]. intros [-> | H].
  - destruct (f x); [ right; reflexivity | left; left; reflexivity ].
  - destruct (f a); [ left; exact H | ]. destruct (IH H); [ left; right; assumption | right; assumption ].
Qed.
Lemma erase_first_length A (f : A -> bool) l : (length l <= S (length (erase_first f l)))%nat.
Proof. induction l as [|a l IH]; cbn; [ lia | ]. destruct (f a); cbn; lia. Qed.
Lemma unmatched_nil ks : forall fc, unmatched ks fc = [] ->
  (length fc <= length ks)%nat /\ Forall (fun p => exists k, In k ks /\ same_point FLT_EPS p (kp_pt k) = true) fc.
Proof.
  induction ks as [|k ks IH]; intros fc U.
  - cbn in U. subst fc. split; [ cbn; lia | constructor ].
  - change (unmatched (k :: ks) fc) with (unmatched ks (erase_first (fun pt => same_point FLT_EPS pt (kp_pt k)) fc)) in U.
    destruct (IH _ U) as [L F]. split.
    + pose proof (erase_first_length _ (fun pt => same_point FLT_EPS pt (kp_pt k)) fc). cbn [length]. lia.
    + apply Forall_forall. intros x Hx. destruct (erase_first_in _ (fun pt => same_point FLT_EPS pt (kp_pt k)) x fc Hx) as [I | E].
      * rewrite Forall_forall in F. destruct (F x I) as (k' & I' & E). exists k'. split; [ right; exact I' | exact E ].
      * exists k. split; [ left; reflexivity | exact E ].
Qed.
Lemma mapM_idx_in (l : list vec2) is vs : mapM (idx l) is = Ok vs -> Forall (fun v => In v l) vs.
Proof.
  revert vs. induction is as [|i is IH]; intros vs; cbn [mapM].
  - intros H. injection H as <-. constructor.
  - unfold idx at 1. destruct (nth_error l i) eqn:N; cbn [bind]; [ | discriminate ].
    destruct (mapM (idx l) is) as [vs'|e|]; cbn [bind]; try discriminate. intros H. injection H as <-.
    constructor; [ eapply nth_error_In; exact N | apply IH; reflexivity ].
Qed.
Lemma order_in fc ss rows cols flipped pts : order_points fc ss rows cols flipped = Ok pts -> Forall (fun v => In v fc) pts.
Proof.
  unfold order_points, visit.
  do 3 (destruct (index_sub _ _); cbn [bind]; try discriminate).
  do 4 (destruct (idx fc _); cbn [bind]; try discriminate).
  repeat (first [ destruct (index_sub _ _); cbn [bind]; [ | discriminate | discriminate ] | destruct (avg_rel_size _ _ _ _); cbn [bind]; [ | discriminate | discriminate ] ]).
  repeat (match goal with |- (if ?b then _ else _) = _ -> _ => destruct b end; try discriminate; try apply mapM_idx_in).
Qed.
Lemma same_point_near tol a b : same_point tol a b = true -> Rabs (px a - px b) < tol /\ Rabs (py a - py b) < tol.
Proof. unfold same_point, isEqual, rltb. destruct (Rlt_dec _ _); [ | discriminate ]. cbn. destruct (Rlt_dec _ _); [ auto | discriminate ]. Qed.
Lemma extracted detector fc rows cols flipped pts : extractKeyPoints detector fc rows cols flipped = Ok pts ->
  exists ks, search_keypoints detector rows cols = Ok ks /\ (rows * cols <= length ks)%nat /\
    Forall (fun p => exists k, In k ks /\ Rabs (px p - px (kp_pt k)) < / 2 ^ 23 /\ Rabs (py p - py (kp_pt k)) < / 2 ^ 23) pts.
Proof.
  unfold extractKeyPoints. destruct (search_keypoints detector rows cols) as [ks|e|]; cbn [bind]; try discriminate.
  destruct (unmatched ks fc) eqn:U; [ | discriminate ]. intros H. exists ks. split; [ reflexivity | ].
  destruct (unmatched_nil ks fc U) as [L F]. split.
  - destruct (Nat.lt_ge_cases (length fc) (rows * cols)) as [Q|Q]; [ rewrite order_short in H by exact Q; discriminate | lia ].
  - apply order_in in H. rewrite Forall_forall in *. intros p Hp. destruct (F p (H p Hp)) as (k & I & E).
    exists k. split; [ exact I | apply same_point_near; exact E ].
Qed.

Lemma search_spec : exists gs, length gs = 201%nat /\
  (forall i, (i < 201)%nat -> Rabs (nth i gs 0 - (1 + INR i / 100)) <= 1 / 10 ^ 12) /\
  (forall detector rows cols ks, search_keypoints detector rows cols = Ok ks <->
    first_enough detector (rows * cols) (tries gs) ks \/ never_enough detector (rows * cols) (tries gs) ks) /\
  forall detector rows cols e, search_keypoints detector rows cols = Throw e <->
    exists before t after, tries gs = before ++ t :: after /\ Forall (too_few detector (rows * cols)) before /\
      detector (fst t) (snd t) = Throw e.
Proof.
  exists gains. rewrite gains_stop. split; [ rewrite map_length, seq_length; reflexivity | ]. split.
  - intros i H. rewrite nth_indep with (d' := dval (gain64 0)) by (rewrite map_length, seq_length; exact H).
    rewrite (map_nth (fun i => dval (gain64 i))), seq_nth by exact H. cbn [Nat.add].
    destruct (gain_near i ltac:(lia)) as [_ B]. eapply Rle_trans; [ exact B | ].
    assert (INR i <= 200) by (change 200 with (IZR (Z.of_nat 200)); rewrite INR_IZR_INZ; apply IZR_le; lia). lra.
  - split; [ | intros d rows cols e; unfold search_keypoints; rewrite gains_stop, alpha_run;
    rewrite <- (run_throw _ (fun t => d (fst t) (snd t)) (rows * cols) e _ []);
    destruct (run _ _ _ _) as [[b k]|e'|]; cbn [bind]; split; intros Q; congruence || discriminate ].
    intros d rows cols ks. unfold search_keypoints. rewrite gains_stop.
    set (gs := map (fun i => dval (gain64 i)) (seq 0 201)). rewrite alpha_run.
    assert (NE : tries gs <> []) by discriminate.
    generalize dependent (tries gs). intros ts NE. set (d' := fun t : R * nat => d (fst t) (snd t)). split.
    + destruct (run d' (rows * cols) ts []) as [[b k]|e|] eqn:E; cbn [bind]; try discriminate. intros Q. injection Q as <-.
      apply run_spec in E. destruct E as [(-> & before & x & after & -> & F & D & L) | (-> & F & [(-> & _) | (before & x & -> & D)])].
      * left. exists before, x, after. auto.
      * congruence.
      * right. exists before, x. auto.
    + intros [(before & x & after & E & F & D & L) | (before & x & E & F & D)].
      * assert (run d' (rows * cols) ts [] = Ok (true, ks)) as ->; [ | reflexivity ].
        apply run_spec. left. split; [ reflexivity | ]. exists before, x, after. auto.
      * assert (run d' (rows * cols) ts [] = Ok (false, ks)) as ->; [ | reflexivity ].
        apply run_spec. right. split; [ reflexivity | ]. split; [ exact F | ]. right. exists before, x. auto.
Qed.

Lemma features_found : exists gs, length gs = 201%nat /\
  (forall i, (i < 201)%nat -> Rabs (nth i gs 0 - (1 + INR i / 100)) <= 1 / 10 ^ 12) /\
  forall find detector t pts, extractModifiedCircleGrid find detector t = Ok pts ->
  exists ks, first_enough detector (cg_rows t * cg_cols t) (tries gs) ks /\
    Forall (fun p => exists k, In k ks /\ Rabs (px p - px (kp_pt k)) < / 2 ^ 23 /\ Rabs (py p - py (kp_pt k)) < / 2 ^ 23) pts.
Proof.
  destruct search_spec as (gs & L & G & S & _). exists gs. split; [ exact L | ]. split; [ exact G | ].
  intros find detector t pts. unfold extractModifiedCircleGrid.
  destruct (if (_ && _)%bool then _ else _) as [centers flipped]. destruct (length centers =? 0)%nat; [ discriminate | ].
  intros H. destruct (extracted _ _ _ _ _ _ H) as (ks & E & Le & F). exists ks. split; [ | exact F ].
  apply S in E. destruct E as [E | (before & x & E & Fa & D)]; [ exact E | exfalso ].
  rewrite E in Fa. apply Forall_app in Fa. destruct Fa as [_ Fa]. inversion Fa as [|? ? (k & Dk & Lk) _]. rewrite D in Dk. injection Dk as <-. lia.
Qed.

(** Ten keypoints as soon as the gain is above 2.005: found with the gain 2.01 *)
Definition ex_search_keypoints : list keypoint := repeat (KP (V2 0 0) 1) 10.
Definition ex_search_detector (gain : R) (offset : nat) : res (list keypoint) :=
  Ok (if Rlt_dec (2005 / 1000) gain then ex_search_keypoints else []).
Lemma ex_search : search_keypoints ex_search_detector 2 5 = Ok ex_search_keypoints /\
  search_keypoints ex_search_detector 3 5 = Ok ex_search_keypoints /\
  search_keypoints (fun gain offset => if Rlt_dec (2005 / 1000) gain then Throw RuntimeError else Ok []) 2 5 = Throw RuntimeError.
Proof.
  destruct search_spec as (gs & L & G & S & S').
  assert (Lo : forall i, (i <= 100)%nat -> ~ 2005 / 1000 < nth i gs 0).
  { intros i Hi. specialize (G i ltac:(lia)). apply Rabs_le_inv in G. assert (INR i <= 100).
    { change 100 with (IZR (Z.of_nat 100)). rewrite INR_IZR_INZ. apply IZR_le. lia. } lra. }
  assert (Hi : forall i, (100 < i < 201)%nat -> 2005 / 1000 < nth i gs 0).
  { intros i Hi. specialize (G i ltac:(lia)). apply Rabs_le_inv in G. assert (101 <= INR i).
    { change 101 with (IZR (Z.of_nat 101)). rewrite (INR_IZR_INZ i). apply IZR_le. lia. } lra. }
  assert (Q : tries gs = tries (firstn 101 gs) ++ (nth 101 gs 0, 0%nat) :: map (pair (nth 101 gs 0)) (seq 1 100) ++ tries (skipn 102 gs)).
  { assert (E : gs = firstn 101 gs ++ nth 101 gs 0 :: skipn 102 gs).
    { rewrite <- (firstn_skipn 101 gs) at 1. f_equal.
      do 101 (destruct gs as [|? gs]; [ discriminate | ]). destruct gs; [ discriminate | reflexivity ]. }
    rewrite E at 1. unfold tries. rewrite flat_map_app. reflexivity. }
  assert (B : forall t, In t (tries (firstn 101 gs)) -> ~ 2005 / 1000 < fst t).
  { intros t Ht. unfold tries in Ht. apply in_flat_map in Ht as (g & Ig & It). apply in_map_iff in It as (o & <- & _). cbn [fst].
    apply (In_nth _ _ 0) in Ig as (i & Li & <-). rewrite firstn_length in Li. rewrite <- (firstn_skipn 101 gs) in Lo.
    specialize (Lo i ltac:(lia)). rewrite app_nth1 in Lo by (rewrite firstn_length; lia). exact Lo. }
  split; [ | split ].
  - apply S. left. exists (tries (firstn 101 gs)), (nth 101 gs 0, 0%nat), (map (pair (nth 101 gs 0)) (seq 1 100) ++ tries (skipn 102 gs)).
    split; [ exact Q | ]. split; [ | split ].
    + apply Forall_forall. intros t Ht. exists []. unfold ex_search_detector. destruct (Rlt_dec _ _) as [C|C]; [ elim (B t Ht C) | ]. split; [ reflexivity | cbn; lia ].
    + unfold ex_search_detector. cbn [fst]. destruct (Rlt_dec _ _) as [C|C]; [ reflexivity | elim C; apply Hi; lia ].
    + cbn. lia.
  - apply S. right.
    assert (E : gs = removelast gs ++ [nth 200 gs 0]).
    { rewrite (app_removelast_last 0) at 1 by (intros ->; discriminate). f_equal. f_equal.
      clear - L. do 201 (destruct gs as [|? gs]; [ discriminate | ]). destruct gs; [ reflexivity | discriminate ]. }
    exists (tries (removelast gs) ++ map (pair (nth 200 gs 0)) (seq 0 100)), (nth 200 gs 0, 100%nat). split; [ | split ].
    + rewrite E at 1. unfold tries. rewrite flat_map_app, <- app_assoc. reflexivity.
    + apply Forall_forall. intros t Ht. unfold too_few, ex_search_detector. destruct (Rlt_dec _ _); eexists; (split; [ reflexivity | cbn; lia ]).
    + unfold ex_search_detector. cbn [fst]. destruct (Rlt_dec _ _) as [C|C]; [ reflexivity | elim C; apply Hi; lia ].
  - apply S'. exists (tries (firstn 101 gs)), (nth 101 gs 0, 0%nat), (map (pair (nth 101 gs 0)) (seq 1 100) ++ tries (skipn 102 gs)).
    split; [ exact Q | ]. split.
    + apply Forall_forall. intros t Ht. exists []. destruct (Rlt_dec _ _) as [C|C]; [ elim (B t Ht C) | ]. split; [ reflexivity | cbn; lia ].
    + cbn [fst]. destruct (Rlt_dec _ _) as [C|C]; [ reflexivity | elim C; apply Hi; lia ].
Qed.
