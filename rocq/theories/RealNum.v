(** Exact reals as scalars, and what the numpy and sklearn routines compute over them. *)

From Coq Require Import List Arith ZArith Lia Bool Reals Lra Psatz.
From Verif Require Import PyBase Num.
Import ListNotations.
Open Scope R_scope.

#[export] Instance num_R : Num R := {|
  nzero := 0; none := 1; nadd := Rplus; nsub := Rminus; nmul := Rmult; ndiv := Rdiv;
  nsqrt := sqrt;
  nleb := fun x y => if Rle_dec x y then true else false;
  neqb := fun x y => if Req_EM_T x y then true else false;
  nfinite := fun _ => true
|}.

Lemma nleb_R x y : nleb x y = true <-> x <= y.
Proof. simpl. destruct (Rle_dec x y); split; auto; discriminate. Qed.

Lemma nleb_R_false x y : nleb x y = false <-> y < x.
Proof. simpl. destruct (Rle_dec x y); split; auto; try discriminate; intros; lra. Qed.

Lemma neqb_R x y : neqb x y = true <-> x = y.
Proof. simpl. destruct (Req_EM_T x y); split; auto; discriminate. Qed.

#[export] Instance num_order_R : NumOrder R.
Proof.
  constructor; intros; rewrite !nleb_R in *; lra.
Qed.

(** ** Textbook definitions *)

(** Sum of products, sum of squared differences, length, distances. *)
Fixpoint inner (x y : list R) : R :=
  match x, y with a :: x', b :: y' => a * b + inner x' y' | _, _ => 0 end.
Fixpoint sq_dist (x y : list R) : R :=
  match x, y with a :: x', b :: y' => (a - b) ^ 2 + sq_dist x' y' | _, _ => 0 end.
Definition euclid (x y : list R) : R := sqrt (sq_dist x y).
Definition len (x : list R) : R := sqrt (inner x x).
Definition zero_vec (x : list R) : Prop := Forall (fun a => a = 0) x.

(** ** The model's routines over reals *)

Lemma nsum_from l : forall s : R, fold_left nadd l s = s + fold_right Rplus 0 l.
Proof. induction l as [|a l IH]; intros s; simpl; [lra|]. rewrite IH. simpl. lra. Qed.

Lemma nsum_R (l : list R) : nsum l = fold_right Rplus 0 l.
Proof. unfold nsum. rewrite nsum_from. simpl. lra. Qed.

Lemma dot_inner x : forall y, dot x y = inner x y.
Proof.
  intros y. unfold dot. rewrite nsum_R. revert y.
  induction x as [|a x IH]; intros [|b y]; simpl; auto. now rewrite IH.
Qed.

Lemma norm_len x : norm x = len x.
Proof. unfold norm, len. now rewrite dot_inner. Qed.

Lemma inner_sym x : forall y, inner x y = inner y x.
Proof. induction x as [|a x IH]; intros [|b y]; simpl; auto. rewrite IH. lra. Qed.

Lemma inner_pos x : 0 <= inner x x.
Proof. induction x as [|a x IH]; simpl; [lra|]. nra. Qed.

Lemma inner_zero x : inner x x = 0 <-> zero_vec x.
Proof.
  unfold zero_vec. induction x as [|a x IH]; simpl.
  - split; auto.
  - pose proof (inner_pos x). split.
    + intros E. assert (a * a >= 0) by nra. assert (a * a = 0) by lra.
      constructor; [nra|]. apply IH. lra.
    + intros E. inversion E as [|? ? E1 E2]; subst. apply IH in E2. rewrite E2. lra.
Qed.

Lemma sqrt_zero r : 0 <= r -> sqrt r = 0 -> r = 0.
Proof. intros H E. apply sqrt_eq_0; auto. Qed.

Lemma len_pos x : 0 <= len x.
Proof. apply sqrt_pos. Qed.

Lemma len_zero x : len x = 0 <-> zero_vec x.
Proof.
  unfold len. split.
  - intros E. apply inner_zero. apply sqrt_zero; auto using inner_pos.
  - intros E. apply inner_zero in E. rewrite E. apply sqrt_0.
Qed.

Lemma len_sq x : len x * len x = inner x x.
Proof. unfold len. apply sqrt_def. apply inner_pos. Qed.

Lemma sq_dist_pos x : forall y, 0 <= sq_dist x y.
Proof. induction x as [|a x IH]; intros [|b y]; simpl; try lra. specialize (IH y). pose proof (pow2_ge_0 (a - b)). simpl in *. lra. Qed.

Lemma sq_dist_inner x : forall y, length x = length y ->
  sq_dist x y = inner x x - 2 * inner x y + inner y y.
Proof.
  induction x as [|a x IH]; intros [|b y] E; simpl; try discriminate; [lra|].
  rewrite IH by (simpl in E; congruence). lra.
Qed.

Lemma diff_inner x : forall y, inner (zip_with nsub x y) (zip_with nsub x y) = sq_dist x y.
Proof.
  induction x as [|a x IH]; intros [|b y]; simpl; auto. rewrite IH. simpl. lra.
Qed.

Lemma norm_diff x y : norm (zip_with nsub x y) = euclid x y.
Proof. rewrite norm_len. unfold len, euclid. now rewrite diff_inner. Qed.

Lemma inner_zero_l x : forall y, zero_vec x -> inner x y = 0.
Proof.
  unfold zero_vec. induction x as [|a x IH]; intros [|b y] Hz; simpl; auto.
  inversion Hz; subst. rewrite IH by auto. lra.
Qed.

Lemma inner_scale_l c x : forall y, inner (map (fun a => c * a) x) y = c * inner x y.
Proof. induction x as [|a x IH]; intros [|b y]; simpl; try lra. rewrite IH. lra. Qed.

Lemma inner_scale_r c x y : inner x (map (fun a => c * a) y) = c * inner x y.
Proof. now rewrite inner_sym, inner_scale_l, inner_sym. Qed.

Lemma len_scale c x : 0 <= c -> len (map (fun a => c * a) x) = c * len x.
Proof.
  intros Hc. unfold len. rewrite inner_scale_l, inner_scale_r.
  replace (c * (c * inner x x)) with (c * c * inner x x) by lra.
  rewrite sqrt_mult; [|nra|apply inner_pos]. now rewrite sqrt_square.
Qed.

(** Cauchy-Schwarz. *)
Lemma cauchy_schwarz_sq x : forall y, inner x y * inner x y <= inner x x * inner y y.
Proof.
  induction x as [|a x IH]; intros [|b y]; simpl; try lra.
  specialize (IH y). pose proof (inner_pos x) as HA. pose proof (inner_pos y) as HB.
  set (Sx := inner x y) in *. set (A := inner x x) in *. set (B := inner y y) in *.
  clearbody Sx A B. clear x y.
  assert (Ha : 0 <= a * a) by apply Rle_0_sqr. assert (Hb : 0 <= b * b) by apply Rle_0_sqr.
  assert (HAb : 0 <= A * (b * b)) by now apply Rmult_le_pos.
  assert (HBa : 0 <= B * (a * a)) by now apply Rmult_le_pos.
  assert (2 * Sx * (a * b) <= A * (b * b) + B * (a * a)) as Hm.
  { destruct (Rle_dec (Sx * (a * b)) 0) as [Hn|Hn]; [lra|].
    assert (HX : (2 * Sx * (a * b)) * (2 * Sx * (a * b)) <=
                 (A * (b * b) + B * (a * a)) * (A * (b * b) + B * (a * a))).
    { assert (G0 : 0 <= 4 * ((a * b) * (a * b))) by (pose proof (Rle_0_sqr (a * b)); unfold Rsqr in *; lra).
      pose proof (Rmult_le_compat_r _ _ _ G0 IH) as G1.
      pose proof (Rle_0_sqr (A * (b * b) - B * (a * a))) as G2. unfold Rsqr in G2.
      lra. }
    apply Rsqr_incr_0_var; [exact HX|]. lra. }
  lra.
Qed.

Lemma cauchy_schwarz x y : Rabs (inner x y) <= len x * len y.
Proof.
  apply Rsqr_incr_0_var; [|apply Rmult_le_pos; apply len_pos].
  rewrite <- Rsqr_abs. unfold Rsqr.
  replace (len x * len y * (len x * len y)) with ((len x * len x) * (len y * len y)) by lra.
  rewrite !len_sq. apply cauchy_schwarz_sq.
Qed.

Lemma len_nonzero_mult x y : ~ zero_vec x -> ~ zero_vec y -> 0 < len x * len y.
Proof.
  intros Hx Hy. rewrite <- len_zero in Hx, Hy. pose proof (len_pos x). pose proof (len_pos y).
  apply Rmult_lt_0_compat; lra.
Qed.

Lemma cos_bounds x y : ~ zero_vec x -> ~ zero_vec y ->
  -1 <= inner x y / (len x * len y) <= 1.
Proof.
  intros Hx Hy. pose proof (len_nonzero_mult x y Hx Hy) as Hp.
  pose proof (cauchy_schwarz x y) as Hcs. pose proof (Rle_abs (inner x y)) as Ha1.
  pose proof (Rle_abs (- inner x y)) as Ha2. rewrite Rabs_Ropp in Ha2. unfold Rdiv. split.
  - apply Rmult_le_reg_r with (len x * len y); auto.
    rewrite Rmult_assoc, Rinv_l by lra. lra.
  - apply Rmult_le_reg_r with (len x * len y); auto.
    rewrite Rmult_assoc, Rinv_l by lra. lra.
Qed.

(** ** The index distances *)

(** Cosine distance in terms of the textbook notions: one for a zero vector. *)
Definition cos_dist_spec (x y : list R) (d : R) : Prop :=
  (zero_vec x \/ zero_vec y -> d = 1) /\
  (~ zero_vec x -> ~ zero_vec y -> d = 1 - inner x y / (len x * len y)).

Lemma cos_dist_unique x y d1 d2 : cos_dist_spec x y d1 -> cos_dist_spec x y d2 -> d1 = d2.
Proof.
  intros [G1 G2] [G3 G4].
  destruct (Req_EM_T (len x) 0) as [Hx|Hx]; [rewrite len_zero in Hx; rewrite G1, G3; auto|].
  destruct (Req_EM_T (len y) 0) as [Hy|Hy]; [rewrite len_zero in Hy; rewrite G1, G3; auto|].
  rewrite len_zero in Hx, Hy. now rewrite G2, G4.
Qed.

Lemma cos_pair x y :
  cos_dist_spec x y (if neqb (norm x) nzero || neqb (norm y) nzero then none
                     else nsub none (ndiv (dot x y) (nmul (norm x) (norm y)))).
Proof.
  rewrite !norm_len, dot_inner.
  destruct (neqb (len x) nzero) eqn:Ex; cbn [orb]; cbn iota.
  - apply neqb_R in Ex. apply len_zero in Ex. split; intros; [reflexivity|contradiction].
  - assert (~ zero_vec x) as Hx.
    { rewrite <- len_zero. intros E. pose proof (proj2 (neqb_R (len x) nzero) E). congruence. }
    destruct (neqb (len y) nzero) eqn:Ey; cbn iota.
    + apply neqb_R in Ey. apply len_zero in Ey. split; intros; [reflexivity|contradiction].
    + assert (~ zero_vec y) as Hy.
      { rewrite <- len_zero. intros E. pose proof (proj2 (neqb_R (len y) nzero) E). congruence. }
      split; [intros [|]; contradiction|]. reflexivity.
Qed.

Lemma sk_normalize_R x : sk_normalize x = map (fun a => / (if Req_EM_T (len x) 0 then 1 else len x) * a) x.
Proof.
  unfold sk_normalize. rewrite norm_len. simpl. apply map_ext. intros a.
  destruct (Req_EM_T (len x) 0); unfold Rdiv; lra.
Qed.

Lemma sk_cosine_spec x y : cos_dist_spec x y (nsub none (sk_cosine x y)).
Proof.
  unfold sk_cosine. rewrite dot_inner, !sk_normalize_R, inner_scale_l, inner_scale_r. simpl. split.
  - intros Hz. assert (inner x y = 0) as ->; [|lra].
    destruct Hz; [now apply inner_zero_l|]. rewrite inner_sym. now apply inner_zero_l.
  - intros Hx Hy. rewrite <- len_zero in Hx, Hy.
    destruct (Req_EM_T (len x) 0); [contradiction|]. destruct (Req_EM_T (len y) 0); [contradiction|].
    f_equal. unfold Rdiv. rewrite Rinv_mult. lra.
Qed.

Lemma sk_euclidean_R x y : length x = length y -> sk_euclidean x y = euclid x y.
Proof.
  intros E. unfold sk_euclidean, euclid. rewrite !dot_inner. simpl nadd. simpl nsub. simpl nmul. simpl none.
  replace (inner x x - (1 + 1) * inner x y + inner y y) with (sq_dist x y)
    by (rewrite sq_dist_inner by auto; lra).
  destruct (nleb (sq_dist x y) nzero) eqn:El; simpl; auto.
  apply nleb_R in El. simpl in El. pose proof (sq_dist_pos x y).
  replace (sq_dist x y) with 0 by lra. reflexivity.
Qed.
