(** Numbers for the quantizers: real numbers with the two infinities and NaN, numpy's operations
    on them, and rounding. *)

From Coq Require Import List Arith ZArith Lia Bool Reals Lra R_Ifp.
From Verif Require Import PyBase.
Import ListNotations.
Open Scope R_scope.

Inductive xr : Type := Fin (r : R) | PInf | NInf | NaN.

(** Round half to even, as np.rint. *)
Definition rint (r : R) : Z :=
  let f := Int_part r in
  let d := r - IZR f in
  if Rlt_dec d (1/2) then f
  else if Rlt_dec (1/2) d then (f + 1)%Z
  else if Z.even f then f else (f + 1)%Z.

(** [x / y] rounded half to even, for integers. *)
Definition rdiv (x y : Z) : Z :=
  let q := (x / y)%Z in
  let r := (x mod y)%Z in
  if (2 * r <? y)%Z then q
  else if (y <? 2 * r)%Z then (q + 1)%Z
  else if Z.even q then q else (q + 1)%Z.

Lemma Int_part_unique r z : IZR z <= r < IZR z + 1 -> Int_part r = z.
Proof.
  intros [H1 H2]. destruct (base_Int_part r) as [H3 H4].
  assert (IZR (Int_part r) < IZR z + 1) by lra. assert (IZR z < IZR (Int_part r) + 1) by lra.
  rewrite <- plus_IZR in *. apply lt_IZR in H. apply lt_IZR in H0. lia.
Qed.

Lemma rint_err r : Rabs (IZR (rint r) - r) <= 1/2.
Proof.
  unfold rint. destruct (base_Int_part r) as [H1 H2].
  destruct (Rlt_dec (r - IZR (Int_part r)) (1/2)); [apply Rabs_le; lra|].
  destruct (Rlt_dec (1/2) (r - IZR (Int_part r))); [rewrite plus_IZR; apply Rabs_le; lra|].
  destruct (Z.even _); [apply Rabs_le; lra|rewrite plus_IZR; apply Rabs_le; lra].
Qed.

Lemma rint_mono r s : r <= s -> (rint r <= rint s)%Z.
Proof.
  intros Hrs. destruct (Z_le_gt_dec (rint r) (rint s)) as [|Hgt]; auto. exfalso.
  pose proof (rint_err r) as E1. pose proof (rint_err s) as E2.
  assert (A1 : IZR (rint r) - r <= 1/2) by (eapply Rle_trans; [apply Rle_abs|exact E1]).
  assert (A2 : s - IZR (rint s) <= 1/2).
  { eapply Rle_trans; [|exact E2]. rewrite Rabs_minus_sym. apply Rle_abs. }
  assert (A3 : IZR (rint s) + 1 <= IZR (rint r)) by (rewrite <- plus_IZR; apply IZR_le; lia).
  assert (r = s) by lra. subst. lia.
Qed.

Lemma rint_IZR z : rint (IZR z) = z.
Proof.
  unfold rint. rewrite (Int_part_unique (IZR z) z) by lra.
  destruct (Rlt_dec (IZR z - IZR z) (1/2)); auto. lra.
Qed.

Lemma rint_div a b : (0 < b)%Z -> rint (IZR a / IZR b) = rdiv a b.
Proof.
  intros Hb. unfold rint, rdiv. pose proof (Z.div_mod a b ltac:(lia)) as E.
  pose proof (Z.mod_pos_bound a b Hb) as Hr. set (q := (a / b)%Z) in *. set (r := (a mod b)%Z) in *.
  assert (Hb' : 0 < IZR b) by (apply IZR_lt; auto).
  assert (Ex : IZR a / IZR b = IZR q + IZR r / IZR b).
  { rewrite E, plus_IZR, mult_IZR. field. lra. }
  assert (H0 : 0 <= IZR r / IZR b) by (apply Rle_mult_inv_pos; [apply IZR_le; lia|auto]).
  assert (H1 : IZR r / IZR b < 1).
  { apply Rmult_lt_reg_r with (IZR b); auto. unfold Rdiv. rewrite Rmult_assoc, Rinv_l, Rmult_1_r, Rmult_1_l by lra.
    apply IZR_lt. lia. }
  rewrite (Int_part_unique _ q) by lra. rewrite Ex.
  replace (IZR q + IZR r / IZR b - IZR q) with (IZR r / IZR b) by lra.
  assert (Hc : IZR r / IZR b < 1/2 <-> (2 * r < b)%Z).
  { split; intros Hx.
    - apply lt_IZR. rewrite mult_IZR. apply Rmult_lt_compat_r with (r := IZR b) in Hx; auto.
      unfold Rdiv in Hx. rewrite Rmult_assoc, Rinv_l, Rmult_1_r in Hx by lra. lra.
    - apply IZR_lt in Hx. rewrite mult_IZR in Hx. apply Rmult_lt_reg_r with (IZR b); auto.
      unfold Rdiv. rewrite Rmult_assoc, Rinv_l, Rmult_1_r by lra. lra. }
  assert (Hd : 1/2 < IZR r / IZR b <-> (b < 2 * r)%Z).
  { split; intros Hx.
    - apply lt_IZR. rewrite mult_IZR. apply Rmult_lt_compat_r with (r := IZR b) in Hx; auto.
      unfold Rdiv in Hx. rewrite (Rmult_assoc (IZR r)), Rinv_l, Rmult_1_r in Hx by lra. lra.
    - apply IZR_lt in Hx. rewrite mult_IZR in Hx. apply Rmult_lt_reg_r with (IZR b); auto.
      unfold Rdiv. rewrite (Rmult_assoc (IZR r)), Rinv_l, Rmult_1_r by lra. lra. }
  clear Ex E.
  destruct (Rlt_dec (IZR r / IZR b) (1/2)) as [L|L].
  - apply Hc in L. destruct (Z.ltb_spec (2 * r) b); [reflexivity|lia].
  - destruct (Z.ltb_spec (2 * r) b) as [L'|L']; [apply Hc in L'; contradiction|].
    destruct (Rlt_dec (1/2) (IZR r / IZR b)) as [G|G].
    + apply Hd in G. destruct (Z.ltb_spec b (2 * r)); [reflexivity|lia].
    + destruct (Z.ltb_spec b (2 * r)) as [G'|G']; [apply Hd in G'; contradiction|]. reflexivity.
Qed.

(** ** Rounding of results *)

(** Rounding of large numbers to [p] significant bits, half to even; numbers below [2^p] are left
    exact.  This is IEEE rounding of numbers whose binary digits are all integral, and
    understates rounding elsewhere. *)
Definition fl (p : Z) (x : R) : R :=
  if Rle_dec (IZR (2 ^ p)) (Rabs x)
  then let e := (Z.log2 (Int_part (Rabs x)) - (p - 1))%Z in IZR (rint (x / IZR (2 ^ e))) * IZR (2 ^ e)
  else x.

(** The same on natural numbers. *)
Definition fl_int (p z : Z) : Z :=
  if (z <? 2 ^ p)%Z then z
  else let e := (Z.log2 z - (p - 1))%Z in (rdiv z (2 ^ e) * 2 ^ e)%Z.

Lemma fl_IZR p z : (1 <= p)%Z -> (0 <= z)%Z -> fl p (IZR z) = IZR (fl_int p z).
Proof.
  intros Hp Hz. unfold fl, fl_int. rewrite Rabs_right by (apply Rle_ge, IZR_le; auto).
  destruct (Rle_dec (IZR (2 ^ p)) (IZR z)) as [L|L]; destruct (Z.ltb_spec z (2 ^ p)) as [L'|L'].
  - apply le_IZR in L. lia.
  - rewrite (Int_part_unique (IZR z) z) by lra.
    assert (p <= Z.log2 z)%Z by (apply Z.log2_le_pow2; lia).
    rewrite rint_div by (apply Z.pow_pos_nonneg; lia). now rewrite mult_IZR.
  - reflexivity.
  - exfalso. apply L, IZR_le. lia.
Qed.

Lemma fl_exact p z : (1 <= p)%Z -> (0 <= z <= 2 ^ p)%Z -> fl p (IZR z) = IZR z.
Proof.
  intros Hp Hz. rewrite fl_IZR by lia. f_equal. unfold fl_int.
  destruct (Z.ltb_spec z (2 ^ p)) as [|Hge]; auto. assert (z = 2 ^ p)%Z as -> by lia.
  rewrite Z.log2_pow2 by lia. replace (p - (p - 1))%Z with 1%Z by lia. rewrite Z.pow_1_r.
  unfold rdiv. replace p with (Z.succ (p - 1)) by lia. rewrite Z.pow_succ_r by lia.
  rewrite (Z.mul_comm 2 (2 ^ (p - 1))), Z.mod_mul, Z.div_mul by lia. reflexivity.
Qed.

Lemma fl_small p x : Rabs x < IZR (2 ^ p) -> fl p x = x.
Proof. intros Hx. unfold fl. destruct (Rle_dec _ _); auto. lra. Qed.

(** ** Operations *)

Section Ops.
  (** [rnd]: what an arithmetic operation does to its exact result. *)
  Context (rnd : R -> R).

  Definition xneg (x : xr) : xr :=
    match x with Fin r => Fin (- r) | PInf => NInf | NInf => PInf | NaN => NaN end.

  Definition xadd (x y : xr) : xr :=
    match x, y with
    | NaN, _ | _, NaN => NaN
    | Fin a, Fin b => Fin (rnd (a + b))
    | PInf, NInf | NInf, PInf => NaN
    | PInf, _ | _, PInf => PInf
    | NInf, _ | _, NInf => NInf
    end.

  Definition xsub (x y : xr) : xr := xadd x (xneg y).

  (** Sign of a number: -1, 0 or 1. *)
  Definition sgn (r : R) : Z := if Rlt_dec 0 r then 1%Z else if Rlt_dec r 0 then (-1)%Z else 0%Z.
  Definition xsgn (x : xr) : Z :=
    match x with Fin r => sgn r | PInf => 1%Z | NInf => (-1)%Z | NaN => 0%Z end.
  Definition inf_of (s : Z) : xr :=
    if (0 <? s)%Z then PInf else if (s <? 0)%Z then NInf else NaN.

  Definition xmul (x y : xr) : xr :=
    match x, y with
    | NaN, _ | _, NaN => NaN
    | Fin a, Fin b => Fin (rnd (a * b))
    | _, _ => inf_of (xsgn x * xsgn y)
    end.

  (** Division; a zero divisor counts as positive zero. *)
  Definition xdiv (x y : xr) : xr :=
    match x, y with
    | NaN, _ | _, NaN => NaN
    | Fin a, Fin b =>
        if Req_EM_T b 0 then inf_of (sgn a) else Fin (rnd (a / b))
    | Fin _, _ => Fin 0
    | _, Fin b => inf_of (xsgn x * (if Req_EM_T b 0 then 1 else sgn b))
    | _, _ => NaN
    end.
End Ops.

(** Order of the numbers other than NaN. *)
Definition xle (x y : xr) : Prop :=
  match x, y with
  | NaN, _ | _, NaN => False
  | NInf, _ | _, PInf => True
  | Fin a, Fin b => a <= b
  | _, _ => False
  end.

Definition xleb (x y : xr) : bool :=
  match x, y with
  | NaN, _ | _, NaN => false
  | NInf, _ | _, PInf => true
  | Fin a, Fin b => if Rle_dec a b then true else false
  | _, _ => false
  end.

Lemma xleb_spec x y : xleb x y = true <-> xle x y.
Proof. destruct x, y; simpl; try (split; [discriminate|tauto]); try (split; tauto). destruct (Rle_dec r r0); split; auto; discriminate. Qed.

(** [np.minimum] and [np.maximum]: NaN wins. *)
Definition xmin (x y : xr) : xr :=
  match x, y with NaN, _ | _, NaN => NaN | _, _ => if xleb x y then x else y end.
Definition xmax (x y : xr) : xr :=
  match x, y with NaN, _ | _, NaN => NaN | _, _ => if xleb y x then x else y end.

(** [np.rint]. *)
Definition xrint (x : xr) : xr := match x with Fin r => Fin (IZR (rint r)) | _ => x end.

(** [np.clip(x, lo, hi)]. *)
Definition xclip (lo hi : R) (x : xr) : xr := xmin (xmax x (Fin lo)) (Fin hi).

(** ** More about rounding *)

Lemma rint_near r z : Rabs (r - IZR z) < 1/2 -> rint r = z.
Proof.
  intros Hr. pose proof (rint_err r) as E. apply Rabs_def2 in Hr.
  assert (A1 : IZR (rint r) - r <= 1/2) by (eapply Rle_trans; [apply Rle_abs|exact E]).
  assert (A2 : r - IZR (rint r) <= 1/2).
  { eapply Rle_trans; [|exact E]. rewrite Rabs_minus_sym. apply Rle_abs. }
  assert (B1 : IZR (rint r) < IZR z + 1) by lra. assert (B2 : IZR z < IZR (rint r) + 1) by lra.
  rewrite <- plus_IZR in B1, B2. apply lt_IZR in B1, B2. lia.
Qed.

Lemma fl_0 p : fl p 0 = 0.
Proof.
  unfold fl. rewrite Rabs_R0. destruct (Rle_dec _ _); auto. unfold Rdiv. rewrite Rmult_0_l.
  change 0 with (IZR 0). rewrite rint_IZR. change (IZR 0) with 0. lra.
Qed.

Lemma rint_opp r : rint (- r) = (- rint r)%Z.
Proof.
  unfold rint. destruct (base_Int_part r) as [H1 H2]. set (f := Int_part r) in *.
  destruct (Req_dec r (IZR f)) as [E|E].
  - rewrite E, <- opp_IZR. rewrite (Int_part_unique (IZR (- f)) (- f)) by lra.
    destruct (Rlt_dec (IZR (- f) - IZR (- f)) (1/2)); [|lra]. destruct (Rlt_dec (IZR f - IZR f) (1/2)); [auto|lra].
  - rewrite (Int_part_unique (- r) (- f - 1)) by (rewrite minus_IZR, opp_IZR; lra).
    rewrite minus_IZR, opp_IZR.
    destruct (Rlt_dec (- r - (- IZR f - 1)) (1/2)); destruct (Rlt_dec (r - IZR f) (1/2)); try lra; try lia.
    + destruct (Rlt_dec (1/2) (r - IZR f)); [lia|lra].
    + destruct (Rlt_dec (1/2) (- r - (- IZR f - 1))); [lia|lra].
    + destruct (Rlt_dec (1/2) (- r - (- IZR f - 1))); [lra|]. destruct (Rlt_dec (1/2) (r - IZR f)); [lra|].
      replace (- f - 1)%Z with (- (f + 1))%Z by lia. rewrite Z.even_opp, Z.even_add. simpl.
      destruct (Z.even f); simpl; lia.
Qed.

Lemma fl_opp p x : fl p (- x) = - fl p x.
Proof.
  unfold fl. rewrite Rabs_Ropp. destruct (Rle_dec _ _); auto.
  replace (- x / IZR (2 ^ (Z.log2 (Int_part (Rabs x)) - (p - 1)))) with (- (x / IZR (2 ^ (Z.log2 (Int_part (Rabs x)) - (p - 1))))) by (unfold Rdiv; lra).
  rewrite rint_opp, opp_IZR. lra.
Qed.

(** The binade of a number from [2^p] on. *)
Lemma binade p x : (1 <= p)%Z -> IZR (2 ^ p) <= x ->
  (p <= Z.log2 (Int_part x))%Z /\
  IZR (2 ^ Z.log2 (Int_part x)) <= x < IZR (2 ^ (Z.log2 (Int_part x) + 1)).
Proof.
  intros Hp Hx. destruct (base_Int_part x) as [H1 H2].
  assert (Hi : (2 ^ p <= Int_part x)%Z).
  { assert (IZR (2 ^ p) < IZR (Int_part x) + 1) by lra. rewrite <- plus_IZR in H. apply lt_IZR in H. lia. }
  assert (0 < 2 ^ p)%Z by (apply Z.pow_pos_nonneg; lia).
  destruct (Z.log2_spec (Int_part x) ltac:(lia)) as [L1 L2].
  split; [apply Z.log2_le_pow2; lia|]. split; [apply IZR_le in L1; lra|].
  replace (Z.log2 (Int_part x) + 1)%Z with (Z.succ (Z.log2 (Int_part x))) by lia.
  assert (IZR (Int_part x + 1) <= IZR (2 ^ Z.succ (Z.log2 (Int_part x)))) by (apply IZR_le; lia).
  rewrite plus_IZR in H0. lra.
Qed.

Lemma fl_in_binade p x : (1 <= p)%Z -> IZR (2 ^ p) <= x ->
  IZR (2 ^ Z.log2 (Int_part x)) <= fl p x <= IZR (2 ^ (Z.log2 (Int_part x) + 1)).
Proof.
  intros Hp Hx. destruct (binade p x Hp Hx) as (L & B1 & B2). set (l := Z.log2 (Int_part x)) in *.
  assert (P0 : 0 < IZR (2 ^ p)) by (apply IZR_lt, Z.pow_pos_nonneg; lia).
  unfold fl. rewrite Rabs_right by lra. destruct (Rle_dec (IZR (2 ^ p)) x); [|lra].
  fold l. set (e := (l - (p - 1))%Z). assert (Pe : 0 < IZR (2 ^ e)) by (apply IZR_lt, Z.pow_pos_nonneg; unfold e; lia).
  assert (E1 : IZR (2 ^ l) = IZR (2 ^ (p - 1)) * IZR (2 ^ e)).
  { rewrite <- mult_IZR, <- Z.pow_add_r by (unfold e; lia). f_equal. f_equal. unfold e. lia. }
  assert (E2 : IZR (2 ^ (l + 1)) = IZR (2 ^ p) * IZR (2 ^ e)).
  { rewrite <- mult_IZR, <- Z.pow_add_r by (unfold e; lia). f_equal. f_equal. unfold e. lia. }
  rewrite E1, E2 in *. split.
  - apply Rmult_le_compat_r; [lra|]. apply IZR_le.
    rewrite <- (rint_IZR (2 ^ (p - 1))). apply rint_mono.
    apply Rmult_le_reg_r with (IZR (2 ^ e)); auto. unfold Rdiv. rewrite (Rmult_assoc x), Rinv_l, Rmult_1_r by lra. lra.
  - apply Rmult_le_compat_r; [lra|]. apply IZR_le.
    rewrite <- (rint_IZR (2 ^ p)). apply rint_mono.
    apply Rmult_le_reg_r with (IZR (2 ^ e)); auto. unfold Rdiv. rewrite (Rmult_assoc x), Rinv_l, Rmult_1_r by lra. lra.
Qed.

Lemma fl_mono_pos p x y : (1 <= p)%Z -> 0 <= x -> x <= y -> fl p x <= fl p y.
Proof.
  intros Hp Hx Hxy.
  destruct (Rle_dec (IZR (2 ^ p)) y) as [Ly|Ly]; [|rewrite !fl_small by (rewrite Rabs_right; lra); auto].
  destruct (binade p y Hp Ly) as (Ey & By1 & By2). pose proof (fl_in_binade p y Hp Ly) as [Fy1 Fy2].
  destruct (Rle_dec (IZR (2 ^ p)) x) as [Lx|Lx].
  - destruct (binade p x Hp Lx) as (Ex & Bx1 & Bx2). pose proof (fl_in_binade p x Hp Lx) as [Fx1 Fx2].
    destruct (Z.lt_trichotomy (Z.log2 (Int_part x)) (Z.log2 (Int_part y))) as [C|[C|C]].
    + eapply Rle_trans; [apply Fx2|]. eapply Rle_trans; [|apply Fy1]. apply IZR_le, Z.pow_le_mono_r; lia.
    + unfold fl. rewrite !Rabs_right by lra. destruct (Rle_dec (IZR (2 ^ p)) x); [|lra].
      destruct (Rle_dec (IZR (2 ^ p)) y); [|lra]. rewrite C.
      set (e := (Z.log2 (Int_part y) - (p - 1))%Z).
      assert (Pe : 0 < IZR (2 ^ e)) by (apply IZR_lt, Z.pow_pos_nonneg; unfold e; lia).
      apply Rmult_le_compat_r; [lra|]. apply IZR_le, rint_mono. unfold Rdiv. apply Rmult_le_compat_r; auto.
      left. apply Rinv_0_lt_compat, Pe.
    + exfalso. assert (IZR (2 ^ (Z.log2 (Int_part y) + 1)) <= IZR (2 ^ Z.log2 (Int_part x))) by (apply IZR_le, Z.pow_le_mono_r; lia). lra.
  - rewrite (fl_small p x) by (rewrite Rabs_right; lra). eapply Rle_trans; [|apply Fy1].
    apply Rle_trans with (IZR (2 ^ p)); [lra|]. apply IZR_le, Z.pow_le_mono_r; lia.
Qed.

Lemma fl_pos p x : (1 <= p)%Z -> 0 <= x -> 0 <= fl p x.
Proof. intros Hp Hx. rewrite <- (fl_0 p). apply fl_mono_pos; auto; lra. Qed.

Lemma fl_mono p x y : (1 <= p)%Z -> x <= y -> fl p x <= fl p y.
Proof.
  intros Hp Hxy. destruct (Rle_dec 0 x) as [Hx|Hx]; [apply fl_mono_pos; auto|].
  destruct (Rle_dec 0 y) as [Hy|Hy].
  - pose proof (fl_pos p y Hp Hy). pose proof (fl_pos p (- x) Hp ltac:(lra)) as Hn. rewrite fl_opp in Hn. lra.
  - pose proof (fl_mono_pos p (- y) (- x) Hp ltac:(lra) ltac:(lra)) as Hn. rewrite !fl_opp in Hn. lra.
Qed.
