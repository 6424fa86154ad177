(** Properties of the distance functions over exact reals: C41, C42 and C43, and the search
    theorems C16, C23, C25 and C27 restated with textbook distances. *)

From Coq Require Import List Arith ZArith NArith Lia Bool Reals Lra Permutation Sorted.
From Verif Require Import PyBase BaseLemmas Payload StorageModel StorageSpec StorageRun StorageOk
  Num SimilarityModel RealNum ClientModel DbSpec ClientRun ClientProofs FlatModel FlatProofs
  IvfModel IvfProofs HnswModel HnswProofs PropsFlat PropsIvf PropsHnsw.
Import ListNotations.
Open Scope R_scope.

(** ** C41 *)

(** A distance between one-dimensional arrays of length [n] is a metric. *)
Definition metric_on (n : nat) (d : ndarray R -> ndarray R -> result R) : Prop :=
  forall x y, length x = n -> length y = n ->
  exists dxy, d (Vec x) (Vec y) = Ok dxy /\ d (Vec y) (Vec x) = Ok dxy /\ 0 <= dxy /\
    (dxy = 0 <-> x = y) /\
    forall z dxz dzy, length z = n -> d (Vec x) (Vec z) = Ok dxz -> d (Vec z) (Vec y) = Ok dzy ->
      dxy <= dxz + dzy.

Lemma checked_eq {A} x y (k : list R -> list R -> result A) :
  length x = length y -> checked (Vec x) (Vec y) k = k x y.
Proof. intros E. simpl. now rewrite E, Nat.eqb_refl. Qed.

Lemma sq_dist_sym x : forall y, sq_dist x y = sq_dist y x.
Proof. induction x as [|a x IH]; intros [|b y]; simpl; auto. rewrite IH. lra. Qed.

Lemma sq_dist_zero x : forall y, length x = length y -> (sq_dist x y = 0 <-> x = y).
Proof.
  induction x as [|a x IH]; intros [|b y] E; simpl in *; try discriminate; [tauto|].
  injection E as E. pose proof (sq_dist_pos x y). pose proof (pow2_ge_0 (a - b)). simpl in *. split.
  - intros Hz. assert ((a - b) * (a - b) = 0) as H2 by lra. apply Rmult_integral in H2.
    f_equal; [destruct H2; lra|]. apply IH; auto. lra.
  - intros Hxy. injection Hxy as -> ->. rewrite (proj2 (IH y eq_refl) eq_refl). lra.
Qed.

Lemma euclid_zero x y : length x = length y -> (euclid x y = 0 <-> x = y).
Proof.
  intros E. unfold euclid. rewrite <- (sq_dist_zero x y E). split.
  - apply sqrt_zero, sq_dist_pos.
  - intros ->. apply sqrt_0.
Qed.

Lemma sq_dist_split x : forall y z, length x = length y -> length z = length y ->
  sq_dist x y = sq_dist x z + 2 * inner (zip_with nsub x z) (zip_with nsub z y) + sq_dist z y.
Proof.
  induction x as [|a x IH]; intros [|b y] [|c z] E1 E2; simpl in *; try discriminate; [lra|].
  injection E1 as E1. injection E2 as E2. rewrite (IH y z E1 E2). simpl. lra.
Qed.

Lemma euclid_triangle x y z : length x = length y -> length z = length y ->
  euclid x y <= euclid x z + euclid z y.
Proof.
  intros E1 E2. unfold euclid.
  pose proof (sqrt_pos (sq_dist x z)) as P1. pose proof (sqrt_pos (sq_dist z y)) as P2.
  apply Rsqr_incr_0_var; [|lra]. unfold Rsqr. rewrite sqrt_def by apply sq_dist_pos.
  rewrite (sq_dist_split x y z E1 E2).
  pose proof (cauchy_schwarz (zip_with nsub x z) (zip_with nsub z y)) as Hcs.
  pose proof (Rle_abs (inner (zip_with nsub x z) (zip_with nsub z y))).
  unfold len in Hcs. rewrite !diff_inner in Hcs.
  assert (sqrt (sq_dist x z) * sqrt (sq_dist x z) = sq_dist x z) as Q1 by apply sqrt_def, sq_dist_pos.
  assert (sqrt (sq_dist z y) * sqrt (sq_dist z y) = sq_dist z y) as Q2 by apply sqrt_def, sq_dist_pos.
  lra.
Qed.

(** C41: the Euclidean distance is the square root of the sum of squared differences, and a
    metric. *)
Theorem C41_euclidean_value x y : length x = length y ->
  euclidean_distance (Vec x) (Vec y) = Ok (euclid x y) /\
  euclidean_distance_squared (Vec x) (Vec y) = Ok (sq_dist x y).
Proof.
  intros E. unfold euclidean_distance, euclidean_distance_squared. rewrite !checked_eq by auto.
  now rewrite norm_diff, dot_inner, diff_inner.
Qed.

Theorem C41_euclidean_metric n : metric_on n euclidean_distance.
Proof.
  intros x y Ex Ey. exists (euclid x y).
  split; [apply C41_euclidean_value; congruence|].
  split; [rewrite (proj1 (C41_euclidean_value y x ltac:(congruence))); unfold euclid; now rewrite sq_dist_sym|].
  split; [apply sqrt_pos|]. split; [apply euclid_zero; congruence|].
  intros z dxz dzy Ez E1 E2. rewrite (proj1 (C41_euclidean_value x z ltac:(congruence))) in E1.
  rewrite (proj1 (C41_euclidean_value z y ltac:(congruence))) in E2.
  injection E1 as <-. injection E2 as <-. apply euclid_triangle; congruence.
Qed.

(** Sum of absolute differences. *)
Fixpoint abs_dist (x y : list R) : R :=
  match x, y with a :: x', b :: y' => Rabs (a - b) + abs_dist x' y' | _, _ => 0 end.

Lemma nabs_R (a : R) : nabs a = Rabs a.
Proof.
  unfold nabs. destruct (nleb nzero a) eqn:E.
  - apply nleb_R in E. simpl in E. now rewrite Rabs_pos_eq.
  - apply nleb_R_false in E. simpl in *. rewrite Rabs_left by lra. lra.
Qed.

Theorem C41_manhattan_value x y : length x = length y ->
  manhattan_distance (Vec x) (Vec y) = Ok (abs_dist x y).
Proof.
  intros E. unfold manhattan_distance. rewrite checked_eq by auto. f_equal. rewrite nsum_R. clear E.
  revert y. induction x as [|a x IH]; intros [|b y]; simpl; auto. rewrite IH, nabs_R. reflexivity.
Qed.

Lemma abs_dist_laws x : forall y, length x = length y ->
  abs_dist x y = abs_dist y x /\ 0 <= abs_dist x y /\ (abs_dist x y = 0 <-> x = y) /\
  forall z, length z = length y -> abs_dist x y <= abs_dist x z + abs_dist z y.
Proof.
  induction x as [|a x IH]; intros [|b y] E; simpl in *; try discriminate.
  - split; auto. split; [lra|]. split; [tauto|]. intros [|c z] Ez; simpl in *; [lra|discriminate].
  - injection E as E. destruct (IH y E) as (I1 & I2 & I3 & I4). pose proof (Rabs_pos (a - b)).
    split; [rewrite Rabs_minus_sym; lra|]. split; [lra|]. split.
    + split.
      * intros Hz. assert (Rabs (a - b) = 0) as Hab by lra.
        f_equal; [|apply I3; lra]. destruct (Req_EM_T (a - b) 0); [lra|].
        now apply Rabs_no_R0 in Hab.
      * intros Hxy. injection Hxy as -> ->. rewrite Rminus_eq_0, Rabs_R0.
        rewrite (proj2 I3 eq_refl). lra.
    + intros [|c z] Ez; simpl in *; [discriminate|]. injection Ez as Ez. specialize (I4 z Ez).
      pose proof (Rabs_triang (a - c) (c - b)) as Ht. replace (a - c + (c - b)) with (a - b) in Ht by lra.
      lra.
Qed.

Theorem C41_manhattan_metric n : metric_on n manhattan_distance.
Proof.
  intros x y Ex Ey. destruct (abs_dist_laws x y ltac:(congruence)) as (L1 & L2 & L3 & L4).
  exists (abs_dist x y). rewrite !C41_manhattan_value by congruence. rewrite <- L1.
  split; auto. split; auto. split; auto. split; auto.
  intros z dxz dzy Ez E1 E2. rewrite C41_manhattan_value in E1, E2 by congruence.
  injection E1 as <-. injection E2 as <-. apply L4. congruence.
Qed.

(** [m] is the greatest absolute difference of two non-empty vectors. *)
Definition greatest_diff (x y : list R) (m : R) : Prop :=
  (exists i a b, nth_error x i = Some a /\ nth_error y i = Some b /\ m = Rabs (a - b)) /\
  (forall i a b, nth_error x i = Some a -> nth_error y i = Some b -> Rabs (a - b) <= m).

Lemma fold_max l : forall m : R,
  let r := fold_left (fun m x => if nleb m x then x else m) l m in
  (r = m \/ In r l) /\ m <= r /\ forall x, In x l -> x <= r.
Proof.
  induction l as [|a l IH]; intros m; cbn [fold_left].
  - split; [now left|]. split; [lra|]. intros x [].
  - destruct (nleb m a) eqn:E.
    + apply nleb_R in E. destruct (IH a) as (I1 & I2 & I3). split; [|split].
      * destruct I1 as [->|I1]; right; [now left|now right].
      * lra.
      * intros x [<-|Hx]; auto.
    + apply nleb_R_false in E. destruct (IH m) as (I1 & I2 & I3). split; [|split].
      * destruct I1 as [I1|I1]; [now left|right; now right].
      * lra.
      * intros x [<-|Hx]; [lra|auto].
Qed.

Lemma In_abs_diff x : forall y v, In v (map nabs (zip_with nsub x y)) <->
  exists i a b, nth_error x i = Some a /\ nth_error y i = Some b /\ v = Rabs (a - b).
Proof.
  induction x as [|a x IH]; intros [|b y] v; cbn [zip_with map].
  - split; [intros []|]. intros (i & a & b & E & _). destruct i; discriminate.
  - split; [intros []|]. intros (i & a & b' & E & _). destruct i; discriminate.
  - split; [intros []|]. intros (i & a' & b & _ & E & _). destruct i; discriminate.
  - simpl In. rewrite IH, nabs_R. split.
    + intros [<-|(i & a' & b' & E1 & E2 & E3)]; [exists 0%nat, a, b; repeat split|].
      exists (S i), a', b'. auto.
    + intros (i & a' & b' & E1 & E2 & E3). destruct i as [|i]; simpl in *.
      * injection E1 as <-. injection E2 as <-. now left.
      * right. exists i, a', b'. auto.
Qed.

Theorem C41_chebyshev_value x y : length x = length y -> x <> [] ->
  exists m, chebyshev_distance (Vec x) (Vec y) = Ok m /\ greatest_diff x y m.
Proof.
  intros E Hn. unfold chebyshev_distance. rewrite checked_eq by auto.
  destruct (map nabs (zip_with nsub x y)) as [|v l] eqn:El.
  { destruct x, y; simpl in *; try discriminate; congruence. }
  simpl. destruct (fold_max l v) as (I1 & I2 & I3).
  set (m := fold_left _ l v) in *. exists m. split; auto. split.
  - apply In_abs_diff. rewrite El. destruct I1 as [->|]; [now left|now right].
  - intros i a b Ha Hb. assert (In (Rabs (a - b)) (v :: l)) as Hin.
    { rewrite <- El. apply In_abs_diff. exists i, a, b; auto. }
    destruct Hin as [<-|Hin]; auto.
Qed.

Lemma greatest_diff_unique x y m m' : greatest_diff x y m -> greatest_diff x y m' -> m = m'.
Proof.
  intros [(i & a & b & E1 & E2 & ->) G1] [(j & a' & b' & E3 & E4 & ->) G2].
  pose proof (G1 _ _ _ E3 E4). pose proof (G2 _ _ _ E1 E2). lra.
Qed.

Theorem C41_chebyshev_metric_partial n : (0 < n)%nat -> metric_on n chebyshev_distance.
Proof.
  intros Hn x y Ex Ey.
  assert (Hne : forall v : list R, length v = n -> v <> []) by (intros [|] E; simpl in E; [lia|discriminate]).
  destruct (C41_chebyshev_value x y ltac:(congruence) (Hne x Ex)) as (m & Em & Gm).
  destruct (C41_chebyshev_value y x ltac:(congruence) (Hne y Ey)) as (m' & Em' & Gm').
  assert (m' = m) as ->.
  { apply (greatest_diff_unique y x); auto. destruct Gm as [(i & a & b & E1 & E2 & E3) G].
    split; [exists i, b, a; rewrite Rabs_minus_sym; auto|].
    intros j a' b' F1 F2. rewrite Rabs_minus_sym. eauto. }
  exists m. split; auto. split; auto. pose proof Gm as [(i & a & b & E1 & E2 & E3) G].
  split; [rewrite E3; apply Rabs_pos|]. split.
  - split.
    + intros ->. apply nth_ext with (d := 0) (d' := 0); [congruence|]. intros j Hj.
      destruct (nth_error x j) as [u|] eqn:Eu; [|apply nth_error_None in Eu; lia].
      destruct (nth_error y j) as [v|] eqn:Ev; [|apply nth_error_None in Ev; lia].
      rewrite (nth_error_nth _ _ _ Eu), (nth_error_nth _ _ _ Ev).
      pose proof (G j u v Eu Ev) as Hb. pose proof (Rle_abs (u - v)).
      pose proof (Rle_abs (- (u - v))). rewrite Rabs_Ropp in *. lra.
    + intros ->. rewrite E1 in E2. injection E2 as <-. rewrite E3, Rminus_eq_0, Rabs_R0. reflexivity.
  - intros z dxz dzy Ez F1 F2.
    destruct (C41_chebyshev_value x z ltac:(congruence) (Hne x Ex)) as (m1 & Em1 & _ & G1).
    destruct (C41_chebyshev_value z y ltac:(congruence) (Hne z Ez)) as (m2 & Em2 & _ & G2).
    rewrite F1 in Em1. injection Em1 as <-. rewrite F2 in Em2. injection Em2 as <-.
    destruct (nth_error z i) as [c|] eqn:Ec.
    + specialize (G1 i a c E1 Ec). specialize (G2 i c b Ec E2).
      pose proof (Rabs_triang (a - c) (c - b)) as Ht. replace (a - c + (c - b)) with (a - b) in Ht by lra.
      lra.
    + apply nth_error_None in Ec. assert (i < length x)%nat by (apply nth_error_Some; congruence). lia.
Qed.

(** The Chebyshev distance of two vectors of length zero raises instead of being zero. *)
Theorem C41_chebyshev_empty_refuted :
  exists x y : list R, length x = length y /\ chebyshev_distance (Vec x) (Vec y) = Raise EValue.
Proof. exists [], []. split; reflexivity. Qed.

(** The number of positions where the signs ("> 0") of two vectors differ. *)
Fixpoint sign_mismatches (x y : list R) : nat :=
  match x, y with
  | a :: x', b :: y' =>
      (if Rlt_dec 0 a then if Rlt_dec 0 b then 0 else 1 else if Rlt_dec 0 b then 1 else 0)
      + sign_mismatches x' y'
  | _, _ => 0
  end%nat.

Lemma nltb_R (a : R) : nltb nzero a = if Rlt_dec 0 a then true else false.
Proof.
  unfold nltb. simpl. destruct (Rle_dec a 0), (Rlt_dec 0 a); auto; exfalso; lra.
Qed.

Theorem C41_hamming_value x y : length x = length y ->
  hamming_distance (Vec x) (Vec y) = Ok (sign_mismatches x y).
Proof.
  intros E. unfold hamming_distance. rewrite checked_eq by auto. f_equal. clear E.
  unfold count2, binary. revert y. induction x as [|a x IH]; intros [|b y]; cbn [map combine]; auto.
  cbn [filter fst snd sign_mismatches]. rewrite !nltb_R.
  destruct (Rlt_dec 0 a), (Rlt_dec 0 b); simpl; now rewrite IH.
Qed.

(** C41: the Hamming distance is a count, symmetric, zero for equal vectors, at most the length,
    and satisfies the triangle inequality.  Missing: it is not normalised (next theorem). *)
Theorem C41_hamming_partial x y z n : length x = n -> length y = n -> length z = n ->
  exists dxy dxz dzy,
    hamming_distance (Vec x) (Vec y) = Ok dxy /\ hamming_distance (Vec y) (Vec x) = Ok dxy /\
    hamming_distance (Vec x) (Vec z) = Ok dxz /\ hamming_distance (Vec z) (Vec y) = Ok dzy /\
    (dxy <= n /\ (x = y -> dxy = 0) /\ dxy <= dxz + dzy)%nat.
Proof.
  intros Ex Ey Ez. exists (sign_mismatches x y), (sign_mismatches x z), (sign_mismatches z y).
  rewrite !C41_hamming_value by congruence.
  assert (sign_mismatches y x = sign_mismatches x y) as ->.
  { clear. revert y. induction x as [|a x IH]; intros [|b y]; simpl; auto. rewrite IH.
    destruct (Rlt_dec 0 a), (Rlt_dec 0 b); auto. }
  split; [auto|]. split; [auto|]. split; [auto|]. split; [auto|].
  assert (Hle : forall u v : list R, (sign_mismatches u v <= length u)%nat).
  { induction u as [|a u IH]; intros [|b v]; simpl; try lia. specialize (IH v).
    destruct (Rlt_dec 0 a), (Rlt_dec 0 b); lia. }
  assert (Hself : forall u : list R, sign_mismatches u u = 0%nat).
  { induction u as [|a u IH]; simpl; auto. rewrite IH. destruct (Rlt_dec 0 a); auto. }
  split; [rewrite <- Ex; apply Hle|]. split; [intros <-; apply Hself|].
  clear Hle Hself. subst n. revert y z Ey Ez.
  induction x as [|a x IH]; intros [|b y] [|c z] Ey Ez; simpl in *; try discriminate; try lia.
  specialize (IH y z ltac:(congruence) ltac:(congruence)).
  destruct (Rlt_dec 0 a), (Rlt_dec 0 b), (Rlt_dec 0 c); lia.
Qed.

(** The Hamming distance is not normalised by the length: it exceeds one. *)
Theorem C41_hamming_normalised_refuted :
  exists x y : list R, length x = length y /\ hamming_distance (Vec x) (Vec y) = Ok 2%nat.
Proof.
  exists [1; 1], [0; 0]. split; auto. rewrite C41_hamming_value by auto. simpl.
  destruct (Rlt_dec 0 1); [|lra]. destruct (Rlt_dec 0 0); [lra|]. reflexivity.
Qed.

(** ** C42 *)

Lemma nclip_id lo hi x : lo <= x <= hi -> nclip lo hi x = x.
Proof.
  intros Hx. unfold nclip. rewrite (proj2 (nleb_R lo x)) by lra.
  now rewrite (proj2 (nleb_R x hi)) by lra.
Qed.

(** C42: the value, and that clipping does not change it. *)
Theorem C42_cosine_value x y : length x = length y ->
  exists s, cosine_similarity (Vec x) (Vec y) = Ok s /\
    (zero_vec x \/ zero_vec y -> s = 0) /\
    (~ zero_vec x -> ~ zero_vec y -> s = inner x y / (len x * len y)) /\
    -1 <= s <= 1.
Proof.
  intros E. unfold cosine_similarity. rewrite checked_eq by auto. rewrite !norm_len, dot_inner.
  destruct (neqb (len x) nzero) eqn:Ex.
  { apply neqb_R in Ex. apply len_zero in Ex. exists 0. split; [reflexivity|].
    split; [auto|]. split; [contradiction|lra]. }
  destruct (neqb (len y) nzero) eqn:Ey.
  { apply neqb_R in Ey. apply len_zero in Ey. exists 0. split; [reflexivity|].
    split; [auto|]. split; [contradiction|lra]. }
  assert (~ zero_vec x) as Hx.
  { rewrite <- len_zero. intros E'. pose proof (proj2 (neqb_R (len x) nzero) E'). congruence. }
  assert (~ zero_vec y) as Hy.
  { rewrite <- len_zero. intros E'. pose proof (proj2 (neqb_R (len y) nzero) E'). congruence. }
  pose proof (cos_bounds x y Hx Hy) as Hb. exists (inner x y / (len x * len y)).
  split; [|split; [intros [|]; contradiction|split; auto]].
  cbn [orb]. f_equal. apply nclip_id. simpl. lra.
Qed.

(** C42: bounds, symmetry, self-similarity, distance between 0 and 2. *)
Theorem C42_cosine_laws x y : length x = length y ->
  exists s, cosine_similarity (Vec x) (Vec y) = Ok s /\ cosine_similarity (Vec y) (Vec x) = Ok s /\
    -1 <= s <= 1 /\ (zero_vec x \/ zero_vec y -> s = 0) /\
    (x = y -> ~ zero_vec x -> s = 1) /\
    cosine_distance (Vec x) (Vec y) = Ok (1 - s) /\ 0 <= 1 - s <= 2.
Proof.
  intros E. destruct (C42_cosine_value x y E) as (s & Es & Hz & Hv & Hb).
  destruct (C42_cosine_value y x (eq_sym E)) as (s' & Es' & Hz' & Hv' & Hb').
  assert (s' = s) as ->.
  { destruct (Req_EM_T (len x) 0) as [Hx|Hx].
    { rewrite len_zero in Hx. rewrite Hz, Hz'; auto. }
    destruct (Req_EM_T (len y) 0) as [Hy|Hy].
    { rewrite len_zero in Hy. rewrite Hz, Hz'; auto. }
    rewrite len_zero in Hx, Hy. rewrite Hv, Hv' by auto. now rewrite inner_sym, Rmult_comm. }
  exists s. split; auto. split; auto. split; auto. split; auto. split; [|split].
  - intros <- Hn. rewrite Hv by auto. rewrite len_sq. apply Rinv_r. rewrite inner_zero. auto.
  - unfold cosine_distance. now rewrite Es.
  - lra.
Qed.

(** C42: scaling either argument by a positive number changes nothing. *)
Theorem C42_cosine_scale_invariant x y c : length x = length y -> 0 < c ->
  cosine_similarity (Vec (map (fun a => c * a) x)) (Vec y) = cosine_similarity (Vec x) (Vec y) /\
  cosine_similarity (Vec x) (Vec (map (fun a => c * a) y)) = cosine_similarity (Vec x) (Vec y).
Proof.
  intros E Hc.
  assert (Hl : forall x y, length x = length y ->
    cosine_similarity (Vec (map (fun a => c * a) x)) (Vec y) = cosine_similarity (Vec x) (Vec y)).
  { clear x y E. intros x y E.
    destruct (C42_cosine_value x y E) as (s & Es & Hz & Hv & _).
    destruct (C42_cosine_value (map (fun a => c * a) x) y) as (s' & Es' & Hz' & Hv' & _);
      [now rewrite map_length|].
    rewrite Es, Es'. f_equal.
    assert (zero_vec (map (fun a => c * a) x) <-> zero_vec x) as Hzz.
    { rewrite <- !len_zero, len_scale by lra. split; [|intros ->; lra].
      intros Hm. apply Rmult_integral in Hm. lra. }
    destruct (Req_EM_T (len x) 0) as [Hx|Hx].
    { rewrite len_zero in Hx. rewrite Hz, Hz'; tauto. }
    destruct (Req_EM_T (len y) 0) as [Hy|Hy].
    { rewrite len_zero in Hy. rewrite Hz, Hz'; tauto. }
    pose proof Hx as Hx0. pose proof Hy as Hy0.
    rewrite len_zero in Hx, Hy. rewrite Hv, Hv' by tauto.
    rewrite inner_scale_l, len_scale by lra. field. lra. }
  split; [now apply Hl|].
  destruct (C42_cosine_laws x (map (fun a => c * a) y)) as (s & E1 & E2 & _); [now rewrite map_length|].
  destruct (C42_cosine_laws x y E) as (s' & E3 & E4 & _).
  rewrite E1, E3. rewrite Hl in E2 by auto. congruence.
Qed.

(** C42: the batch routine computes the same numbers. *)
Theorem C42_batch_agrees xs ys :
  (forall x y, In x xs -> In y ys -> length x = length y) ->
  exists m, batch_cosine_similarity (Mat xs) (Mat ys) = Ok m /\ length m = length xs /\
    forall i j x y row, nth_error xs i = Some x -> nth_error ys j = Some y ->
      nth_error m i = Some row ->
      exists s, nth_error row j = Some s /\ cosine_similarity (Vec x) (Vec y) = Ok s.
Proof.
  intros HE. unfold batch_cosine_similarity.
  replace (forallb (fun x => forallb (fun y => Nat.eqb (length x) (length y)) ys) xs) with true.
  2:{ symmetry. apply forallb_forall. intros x Hx. apply forallb_forall. intros y Hy.
      apply Nat.eqb_eq. auto. }
  eexists. split; [reflexivity|]. split; [now rewrite map_length|].
  intros i j x y row Hx Hy Hr. rewrite nth_error_map, Hx in Hr. cbn [option_map] in Hr.
  apply (f_equal (fun o => match o with Some r => r | None => row end)) in Hr. cbv iota in Hr. subst row.
  eexists. split; [rewrite nth_error_map, Hy; reflexivity|].
  assert (length x = length y) as E by (apply HE; eapply nth_error_In; eauto).
  destruct (C42_cosine_value x y E) as (s & Es & Hz & Hv & Hb). rewrite Es. f_equal.
  rewrite !norm_len, dot_inner.
  destruct (neqb (len x) nzero) eqn:Ex.
  { apply neqb_R in Ex. apply len_zero in Ex. rewrite Hz by auto. rewrite inner_zero_l by auto.
    rewrite nclip_id; unfold ndiv; simpl; unfold Rdiv; rewrite Rmult_0_l; [auto|lra]. }
  destruct (neqb (len y) nzero) eqn:Ey.
  { apply neqb_R in Ey. apply len_zero in Ey. rewrite Hz by auto. rewrite inner_sym, inner_zero_l by auto.
    rewrite nclip_id; unfold ndiv; simpl; unfold Rdiv; rewrite Rmult_0_l; [auto|lra]. }
  assert (~ zero_vec x) as Hx0.
  { rewrite <- len_zero. intros E'. pose proof (proj2 (neqb_R (len x) nzero) E'). congruence. }
  assert (~ zero_vec y) as Hy0.
  { rewrite <- len_zero. intros E'. pose proof (proj2 (neqb_R (len y) nzero) E'). congruence. }
  rewrite Hv by auto. symmetry. apply nclip_id. simpl. rewrite <- Hv by auto. lra.
Qed.

(** ** C43 *)

(** Textbook distance for the two metrics of the indexes. *)
Definition real_distance (mt : metric) (x y : list R) : R :=
  match mt with
  | MCosine => if Req_EM_T (len x) 0 then 1 else if Req_EM_T (len y) 0 then 1
               else 1 - inner x y / (len x * len y)
  | _ => euclid x y
  end.

Lemma cos_dist_real x y : cos_dist_spec x y (real_distance MCosine x y).
Proof.
  unfold real_distance. split.
  - intros [Hz|Hz]; apply len_zero in Hz.
    + now destruct (Req_EM_T (len x) 0).
    + destruct (Req_EM_T (len x) 0); auto. now destruct (Req_EM_T (len y) 0).
  - intros Hx Hy. rewrite <- len_zero in Hx, Hy.
    destruct (Req_EM_T (len x) 0); [contradiction|]. now destruct (Req_EM_T (len y) 0).
Qed.

(** C43: flat search, IVF and HNSW compute the same, textbook, distance. *)
Theorem C43_indexes_agree mt x y : mt = MCosine \/ mt = MEuclidean -> length x = length y ->
  row_distance mt x y = real_distance mt x y /\ pair_distance mt x y = Ok (real_distance mt x y).
Proof.
  intros Hmt E. assert (mt <> MOther) as Hm by (destruct Hmt; congruence).
  rewrite pair_distance_true by auto. destruct Hmt as [-> | ->]; cbn [row_distance real_distance true_distance].
  - split; [|f_equal]; apply (cos_dist_unique x y); try exact (cos_dist_real x y).
    + apply sk_cosine_spec.
    + apply cos_pair.
  - split; [now apply sk_euclidean_R|]. now rewrite norm_diff.
Qed.

(** ** Searches with textbook distances *)

Section Search.
  Context {Mt S : Type} `{Payload (list R) Mt} `{Unicode}.
  Implicit Types C : storage_class S (list R) Mt.

  Lemma true_distance_real mt q v : mt <> MOther -> length q = length v ->
    true_distance mt q v = real_distance mt q v.
  Proof.
    intros Hm E. destruct (C43_indexes_agree mt q v) as [_ E2]; auto.
    { destruct mt; auto; congruence. }
    rewrite pair_distance_true in E2 by auto. congruence.
  Qed.

  (** C16 over reals: the flat search answers exact nearest neighbours in the textbook distance. *)
  Theorem C16_flat_exact_knn_real C s0 p mt ops argsort q k :
    library_backend C s0 p -> flat_history p ops ->
    let recs := s_recs (db_after p fresh_db ops) in
    c_init (cl_after C (flat_class C mt) s0 ops) = true ->
    argsort_ok argsort -> mt = MCosine \/ mt = MEuclidean ->
    q <> [] -> (forall id v m, In (id, (v, m)) recs -> length v = length q) -> (0 <= k)%Z ->
    exists hits,
      fst (cl_step C (flat_class C mt) (cl_after C (flat_class C mt) s0 ops)
                   (CSearch argsort (Vec q) k)) = AHits hits /\
      nearest (fun a b => if Rle_dec a b then true else false) (real_distance mt q) recs
              (Nat.min (Z.to_nat k) (length recs)) hits.
  Proof.
    intros HB Hfit recs Hi Harg Hmt Hq Hl Hk.
    destruct (C16_flat_exact_knn C s0 p mt ops argsort q k HB Hfit Hi Harg Hmt) as (hits & E & Hn); auto.
    - unfold searchable. fold recs. rewrite !andb_true_iff. split; [split|].
      + destruct q; [congruence|reflexivity].
      + now apply forallb_forall.
      + apply forallb_forall. intros [id [v m]] Hin. simpl. rewrite (Hl id v m Hin), Nat.eqb_refl.
        now apply forallb_forall.
    - exists hits. split; auto. eapply nearest_ext; [|exact Hn].
      intros id v m Hin. apply C43_indexes_agree; auto. symmetry. eauto.
  Qed.

  (** C23 over reals. *)
  Theorem C23_ivf_untrained_exact_real C s0 p nc np mt dim ops o q k :
    library_backend C s0 p -> (1 <= nc)%Z -> mt <> MOther -> (0 < dim)%nat ->
    ivf_history dim p ops -> length q = dim -> (0 <= k)%Z ->
    let c := cl_after C (ivf_class C nc np mt) s0 ops in
    let recs := s_recs (db_after p fresh_db ops) in
    c_init c = true -> i_trained (c_index c) = false ->
    exists hits,
      fst (cl_step C (ivf_class C nc np mt) c (CSearch o (Vec q) k)) = AHits hits /\
      nearest (fun a b => if Rle_dec a b then true else false) (real_distance mt q) recs
              (Nat.min (Z.to_nat k) (length recs)) hits.
  Proof.
    intros HB Hn Hmt Hd Hfit Hq Hk c recs Hi Ht.
    destruct (C23_ivf_untrained_exact C s0 p nc np mt dim ops o q k HB Hn Hmt Hd Hfit Hq Hk Hi Ht)
      as (hits & E & Hnn).
    destruct (ivf_reach C s0 p nc np mt dim ops HB Hn Hmt Hd Hfit) as (b & sz & A & HC & _ & _ & _ & Hs).
    destruct (Hs Hi) as (_ & _ & HF & _). unfold fit_recs in HF. rewrite Forall_forall in HF.
    exists hits. split; auto. eapply nearest_ext; [|exact Hnn].
    intros id v m Hin. apply true_distance_real; auto. destruct (HF _ Hin) as [Hv _].
    simpl in Hv. congruence.
  Qed.

  (** C25 over reals. *)
  Theorem C25_ivf_full_probe_exact_real C s0 p nc np mt dim ops o q k :
    library_backend C s0 p -> (1 <= nc)%Z -> mt <> MOther -> (0 < dim)%nat ->
    ivf_history dim p ops -> length q = dim -> (0 <= k)%Z -> (nc <= np)%Z ->
    let c := cl_after C (ivf_class C nc np mt) s0 ops in
    let recs := s_recs (db_after p fresh_db ops) in
    c_init c = true ->
    exists hits,
      fst (cl_step C (ivf_class C nc np mt) c (CSearch o (Vec q) k)) = AHits hits /\
      nearest (fun a b => if Rle_dec a b then true else false) (real_distance mt q) recs
              (Nat.min (Z.to_nat k) (length recs)) hits.
  Proof.
    intros HB Hn Hmt Hd Hfit Hq Hk Hnp c recs Hi.
    destruct (C25_ivf_full_probe_exact C s0 p nc np mt dim ops o q k HB Hn Hmt Hd Hfit Hq Hk Hnp Hi)
      as (hits & E & Hnn).
    destruct (ivf_reach C s0 p nc np mt dim ops HB Hn Hmt Hd Hfit) as (b & sz & A & HC & _ & _ & _ & Hs).
    destruct (Hs Hi) as (_ & _ & HF & _). unfold fit_recs in HF. rewrite Forall_forall in HF.
    exists hits. split; auto. eapply nearest_ext; [|exact Hnn].
    intros id v m Hin. apply true_distance_real; auto. destruct (HF _ Hin) as [Hv _].
    simpl in Hv. congruence.
  Qed.

  (** C27 over reals. *)
  Theorem C27_hnsw_search_sound_real C s0 p m ef mt dim ops o q k :
    library_backend C s0 p -> (0 <= m)%Z -> mt <> MOther ->
    hnsw_history (dim_ok dim) p ops -> length q = dim -> (0 <= k)%Z ->
    let c := cl_after C (hnsw_class C m ef mt) s0 ops in
    c_init c = true ->
    exists hits,
      fst (cl_step C (hnsw_class C m ef mt) c (CSearch o (Vec q) k)) = AHits hits /\
      (forall h, In h hits -> exists v,
         read C (c_storage c) (h_id h) = Ok (Some (v, h_meta h)) /\
         h_dist h = real_distance mt q v) /\
      StronglySorted (fun a b => h_dist a <= h_dist b) hits /\
      (length hits <= Z.to_nat k)%nat.
  Proof.
    intros HB Hm Hmt Hfit Hq Hk c Hi.
    destruct (C27_hnsw_search_sound C s0 p m ef mt dim ops o q k HB Hm Hmt Hfit Hq Hk Hi)
      as (hits & E & Ht & Hso & Hl).
    destruct (hnsw_reach C s0 p m ef mt (dim_ok dim) ops HB Hm Hfit)
      as (b & sz & A & HC & _ & _ & HR & Hs').
    destruct (Hs' Hi) as (_ & _ & HF & Hnd). unfold fit_recs in HF. rewrite Forall_forall in HF.
    exists hits. split; auto. split; [|split]; auto.
    - intros h Hh. destruct (Ht h Hh) as (v & Er & Ed). exists v. split; auto. rewrite Ed.
      apply true_distance_real; auto. fold c in HR, Er.
      rewrite (Rcl_read C p b sz A HC (dim_ok dim) _ _ _ c (h_id h) HR (eq_trans (eq_sym (proj1 HR)) Hi)) in Er.
      injection Er as Er. apply sp_find_In in Er; auto. destruct (HF _ Er) as [Hv _].
      simpl in Hv. congruence.
    - clear -Hso. induction Hso as [|h hits Hso IH Hf]; constructor; auto.
      eapply Forall_impl; [|exact Hf]. intros h' Hh. now apply nleb_R in Hh.
  Qed.
End Search.

(** ** Concrete cases *)

From Verif Require Import Demo DemoIndex.

Example C41_C42_C43_hypotheses_met :
  length [3; 4] = length [0; 0] /\ euclidean_distance (Vec [3; 4]) (Vec [0; 0]) = Ok 5 /\
  ~ zero_vec [3; 4] /\ zero_vec [0; 0].
Proof.
  split; [reflexivity|]. split; [|split].
  - rewrite (proj1 (C41_euclidean_value [3; 4] [0; 0] eq_refl)). f_equal. unfold euclid. simpl.
    replace ((3 - 0) * ((3 - 0) * 1) + ((4 - 0) * ((4 - 0) * 1) + 0)) with (5 * 5) by lra.
    apply sqrt_square. lra.
  - intros Hz. inversion Hz. lra.
  - repeat constructor.
Qed.

(** Real vectors with integer metadata, for the examples. *)
#[local] Instance demo_payload_R : Payload (list R) Z := {|
  nbytes v := (4 * N.of_nat (length v))%N;
  strbytes m := 5%N;
  copyable m := (0 <=? m)%Z;
  picklable m := negb (Z.eqb m 13)
|}.

Definition real_ops {O} (o : O) : list (cop R Z O) :=
  [CInit o []; CInsert o (demo_ids 97) (Mat [[3; 4]; [0; 0]]) (Some [Some 7%Z])].

Example C16_real_hypotheses_met :
  library_backend (mem_class (V := list R) (Mt := Z)) mem_new false /\
  flat_history false (real_ops stable_argsort) /\
  c_init (cl_after mem_class (flat_class mem_class MEuclidean) mem_new (real_ops stable_argsort)) = true /\
  s_recs (db_after false fresh_db (real_ops stable_argsort)) =
    [(demo_ids 97 0, ([3; 4], Some 7%Z)); (demo_ids 97 1, ([0; 0], None))].
Proof.
  split; [constructor|]. split; [unfold real_ops; fit_demo; simpl; auto; try discriminate; try (injection H0 as <-; simpl in H1; repeat destruct H1 as [<-|H1]; split; simpl; auto; tauto)|].
  split; reflexivity.
Qed.

Example C23_C25_real_hypotheses_met o : kmeans_ok o ->
  ivf_history 2 false (real_ops o) /\
  c_init (cl_after mem_class (ivf_class mem_class 5 5 MCosine) mem_new (real_ops o)) = true /\
  i_trained (c_index (cl_after mem_class (ivf_class mem_class 5 5 MCosine) mem_new (real_ops o))) = false.
Proof.
  intros Ho. split; [unfold real_ops; fit_demo; simpl; auto; try discriminate; try (split; reflexivity); try (injection H0 as <-; simpl in H1; repeat destruct H1 as [<-|H1]; split; simpl; auto; tauto)|].
  split; reflexivity.
Qed.

Example C27_real_hypotheses_met :
  hnsw_history (dim_ok 2) false (real_ops low) /\
  c_init (cl_after mem_class (hnsw_class mem_class 16 50 MCosine) mem_new (real_ops low)) = true.
Proof.
  split; [unfold real_ops, low; fit_hnsw; simpl; auto; try discriminate; try (split; reflexivity); try (injection H0 as <-; simpl in H1; repeat destruct H1 as [<-|H1]; split; simpl; auto; tauto)|].
  reflexivity.
Qed.

Print Assumptions C41_euclidean_value.
Print Assumptions C41_euclidean_metric.
Print Assumptions C41_manhattan_value.
Print Assumptions C41_manhattan_metric.
Print Assumptions C41_chebyshev_value.
Print Assumptions C41_chebyshev_metric_partial.
Print Assumptions C41_chebyshev_empty_refuted.
Print Assumptions C41_hamming_value.
Print Assumptions C41_hamming_partial.
Print Assumptions C41_hamming_normalised_refuted.
Print Assumptions C42_cosine_value.
Print Assumptions C42_cosine_laws.
Print Assumptions C42_cosine_scale_invariant.
Print Assumptions C42_batch_agrees.
Print Assumptions C43_indexes_agree.
Print Assumptions C16_flat_exact_knn_real.
Print Assumptions C23_ivf_untrained_exact_real.
Print Assumptions C25_ivf_full_probe_exact_real.
Print Assumptions C27_hnsw_search_sound_real.
