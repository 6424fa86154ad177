(** Properties of the set similarity, of the scaling of single vectors and of the argument checks
    of similarity.py over exact reals: C155. *)

From Coq Require Import List Arith ZArith Lia Bool Reals Lra Psatz.
From Verif Require Import PyBase Num SimilarityModel RealNum PropsSimilarity.
Import ListNotations.
Open Scope R_scope.

(** ** Spec *)

(** The positions at which a vector is positive, as the set it stands for. *)
Definition inside (x : list R) (i : nat) : Prop := 0 < nth i x 0.

(** [l] lists, without repetition, the positions in the set [P]. *)
Definition lists (l : list nat) (P : nat -> Prop) : Prop :=
  NoDup l /\ forall i, In i l <-> P i.

(** The similarity of two sets: size of the intersection over size of the union, and one for two
    empty sets. *)
Definition set_similarity (P Q : nat -> Prop) (s : R) : Prop :=
  exists both either, lists both (fun i => P i /\ Q i) /\ lists either (fun i => P i \/ Q i) /\
    (either = [] -> s = 1) /\
    (either <> [] -> s = INR (length both) / INR (length either)).

(** ** The counts of the model *)

Definition posb (a : R) : bool := if Rlt_dec 0 a then true else false.

(** The positions, counted from [k], at which two vectors satisfy [f]. *)
Fixpoint positions (f : bool -> bool -> bool) (k : nat) (x y : list R) : list nat :=
  match x, y with
  | a :: x', b :: y' =>
      if f (posb a) (posb b) then k :: positions f (S k) x' y' else positions f (S k) x' y'
  | _, _ => []
  end.

Lemma count_positions f x : forall k y,
  count2 f (binary x) (binary y) = length (positions f k x y).
Proof.
  unfold count2, binary.
  induction x as [|a x IH]; intros k [|b y]; cbn [map combine]; auto.
  cbn [filter fst snd positions]. rewrite !nltb_R. fold (posb a) (posb b).
  destruct (f (posb a) (posb b)); cbn [length]; now rewrite (IH (S k)).
Qed.

Lemma positions_In f x : f false false = false -> forall k y i, length x = length y ->
  (In i (positions f k x y) <->
   (k <= i)%nat /\ f (posb (nth (i - k) x 0)) (posb (nth (i - k) y 0)) = true).
Proof.
  intros Hf. assert (Hz : posb 0 = false) by (unfold posb; destruct (Rlt_dec 0 0); auto; lra).
  induction x as [|a x IH]; intros k [|b y] i E; try discriminate.
  { simpl. destruct (i - k)%nat; rewrite Hz, Hf; intuition congruence. }
  injection E as E. cbn [positions]. specialize (IH (S k) y i E).
  assert (i = k \/ i < k \/ S k <= i)%nat as [-> | [Hl | Hg]] by lia.
  - rewrite Nat.sub_diag. cbn [nth].
    destruct (f (posb a) (posb b)) eqn:Ef; cbn [In].
    + split; auto.
    + rewrite IH. split; [lia|]. intros [_ ?]; congruence.
  - destruct (f (posb a) (posb b)); cbn [In]; rewrite IH; intuition lia.
  - replace (i - k)%nat with (S (i - S k)) by lia. cbn [nth].
    destruct (f (posb a) (posb b)); cbn [In]; rewrite IH; intuition lia.
Qed.

Lemma positions_above f x : forall k y i, In i (positions f k x y) -> (k <= i)%nat.
Proof.
  induction x as [|a x IH]; intros k [|b y] i; simpl; try tauto.
  destruct (f (posb a) (posb b)); cbn [In]; intros Hi.
  - destruct Hi as [<-|Hi]; auto. apply IH in Hi. lia.
  - apply IH in Hi. lia.
Qed.

Lemma positions_NoDup f x : forall k y, NoDup (positions f k x y).
Proof.
  induction x as [|a x IH]; intros k [|b y]; simpl; try constructor.
  destruct (f (posb a) (posb b)); auto. constructor; auto.
  intros Hi. apply positions_above in Hi. lia.
Qed.

Lemma posb_inside x i : posb (nth i x 0) = true <-> inside x i.
Proof. unfold posb, inside. destruct (Rlt_dec 0 (nth i x 0)); split; auto; discriminate. Qed.

Lemma nof_R n : nof n = INR n.
Proof. induction n as [|n IH]; [reflexivity|]. rewrite S_INR. cbn [nof]. rewrite IH. reflexivity. Qed.

(** ** C155: the set similarity *)

(** C155: [jaccard_similarity] answers the similarity of the sets of positive positions. *)
Theorem C155_jaccard_value x y : length x = length y ->
  exists s, jaccard_similarity (Vec x) (Vec y) = Ok s /\
    set_similarity (inside x) (inside y) s /\
    jaccard_distance (Vec x) (Vec y) = Ok (1 - s).
Proof.
  intros E. unfold jaccard_distance, jaccard_similarity. rewrite checked_eq by auto.
  rewrite !(count_positions _ x 0 y), !nof_R.
  set (B := positions andb 0 x y). set (U := positions orb 0 x y).
  assert (HB : lists B (fun i => inside x i /\ inside y i)).
  { split; [apply positions_NoDup|]. intros i. unfold B. rewrite positions_In by auto.
    rewrite Nat.sub_0_r, andb_true_iff, !posb_inside. intuition lia. }
  assert (HU : lists U (fun i => inside x i \/ inside y i)).
  { split; [apply positions_NoDup|]. intros i. unfold U. rewrite positions_In by auto.
    rewrite Nat.sub_0_r, orb_true_iff, !posb_inside. intuition lia. }
  destruct U as [|u U'] eqn:EU; cbn [length Nat.eqb].
  - assert (B = []) as HBe.
    { destruct B as [|b B'] eqn:EB; auto. exfalso. destruct HB as [_ HB], HU as [_ HU].
      assert (inside x b /\ inside y b) as [? _] by (apply HB; now left).
      apply (HU b). now left. }
    rewrite HBe. simpl. exists 1. split; auto. split; auto.
    exists [], []. rewrite HBe in HB. split; auto. split; auto. split; auto. congruence.
  - eexists. split; [reflexivity|]. split; [|reflexivity].
    exists B, (u :: U'). split; auto. split; auto. split; [discriminate|]. intros _. reflexivity.
Qed.

Lemma lists_length l l' (P : nat -> Prop) : lists l P -> lists l' P -> length l = length l'.
Proof.
  intros [N1 H1] [N2 H2]. apply Nat.le_antisymm; apply NoDup_incl_length; auto;
    intros i Hi; [apply H2, H1, Hi | apply H1, H2, Hi].
Qed.

Lemma lists_ext l (P Q : nat -> Prop) : (forall i, P i <-> Q i) -> lists l P -> lists l Q.
Proof. intros HPQ [N HP]. split; auto. intros i. now rewrite HP, HPQ. Qed.

Lemma set_similarity_fun (P Q P' Q' : nat -> Prop) s s' :
  (forall i, P i /\ Q i <-> P' i /\ Q' i) -> (forall i, P i \/ Q i <-> P' i \/ Q' i) ->
  set_similarity P Q s -> set_similarity P' Q' s' -> s = s'.
Proof.
  intros Hb He (b & e & Lb & Le & H0 & H1) (b' & e' & Lb' & Le' & H0' & H1').
  apply (lists_ext _ _ _ Hb) in Lb. apply (lists_ext _ _ _ He) in Le.
  pose proof (lists_length _ _ _ Lb Lb') as Eb. pose proof (lists_length _ _ _ Le Le') as Ee.
  destruct e as [|u e]; destruct e' as [|u' e']; try discriminate.
  - rewrite H0, H0'; auto.
  - rewrite H1, H1' by discriminate. now rewrite Eb, Ee.
Qed.

(** C155: the similarity is between 0 and 1, symmetric, one exactly when the two vectors are
    positive at the same positions, and zero exactly when they are positive at no common position
    while one of them is positive somewhere. *)
Theorem C155_jaccard_laws x y : length x = length y ->
  exists s, jaccard_similarity (Vec x) (Vec y) = Ok s /\
    jaccard_similarity (Vec y) (Vec x) = Ok s /\ 0 <= s <= 1 /\
    (s = 1 <-> forall i, inside x i <-> inside y i) /\
    (s = 0 <-> (forall i, ~ (inside x i /\ inside y i)) /\ exists i, inside x i \/ inside y i).
Proof.
  intros E. destruct (C155_jaccard_value x y E) as (s & Es & Hs & _).
  destruct (C155_jaccard_value y x (eq_sym E)) as (s' & Es' & Hs' & _).
  assert (s' = s) as ->
    by (eapply set_similarity_fun; [| |exact Hs'|exact Hs]; intros i; tauto).
  exists s. split; auto. split; auto. clear Es Es' Hs' E.
  destruct Hs as (b & e & [Nb Lb] & [Ne Le] & H0 & H1).
  assert (incl b e) as Hinc by (intros i Hi; apply Le; apply Lb in Hi; tauto).
  pose proof (NoDup_incl_length Nb Hinc) as Hlen.
  destruct e as [|u e'] eqn:Ee.
  - rewrite (H0 eq_refl). split; [lra|]. split; split.
    + intros _ i. destruct (Le i) as [_ Hi]. simpl in Hi. tauto.
    + auto.
    + lra.
    + intros [_ [i Hi]]. apply Le in Hi. destruct Hi.
  - rewrite <- Ee in *. assert (e <> []) as Hne by (rewrite Ee; discriminate).
    rewrite (H1 Hne). assert (0 < INR (length e)) as Hpos.
    { apply lt_0_INR. rewrite Ee. simpl. lia. }
    apply le_INR in Hlen as HlenR. pose proof (pos_INR (length b)) as Hb0.
    assert (Hdiv : forall c, INR (length b) / INR (length e) = c <-> INR (length b) = c * INR (length e)).
    { intros c. split; [intros <-; field; lra | intros ->; field; lra]. }
    split; [|split].
    + split; [apply Rmult_le_reg_r with (INR (length e)) | apply Rmult_le_reg_r with (INR (length e))];
        auto; unfold Rdiv; rewrite ?Rmult_assoc, ?Rinv_l by lra; lra.
    + rewrite Hdiv, Rmult_1_l. split.
      * intros HI. apply INR_eq in HI.
        assert (incl e b) as Hie by (apply NoDup_length_incl; auto; lia).
        assert (forall i, inside x i \/ inside y i -> inside x i /\ inside y i) as Hall
          by (intros i Hi; apply Lb, Hie, Le, Hi).
        intros i. specialize (Hall i). tauto.
      * intros HI. f_equal. apply Nat.le_antisymm; auto. apply NoDup_incl_length; auto.
        intros i Hi. apply Lb. apply Le in Hi. rewrite <- HI in *. tauto.
    + rewrite Hdiv, Rmult_0_l. split.
      * intros HI. apply (INR_eq _ 0) in HI. apply length_zero_iff_nil in HI. subst b. split.
        { intros i Hi. apply Lb in Hi. destruct Hi. }
        exists u. apply Le. rewrite Ee. now left.
      * intros [HI _]. destruct b as [|i b']; [reflexivity|]. exfalso. apply (HI i), Lb. now left.
Qed.

(** The number of positive entries. *)
Definition size (x : list R) : nat := length (positions andb 0 x x).

Lemma sizes x : forall k y, length x = length y ->
  (2 * length (positions orb k x y) =
   length (positions andb k x x) + length (positions andb k y y) + sign_mismatches x y)%nat /\
  (length (positions orb k x y) = length (positions andb k x y) + sign_mismatches x y)%nat.
Proof.
  induction x as [|a x IH]; intros k [|b y] E; try discriminate; [simpl; lia|].
  injection E as E. specialize (IH (S k) y E). cbn [positions sign_mismatches]. unfold posb.
  destruct (Rlt_dec 0 a), (Rlt_dec 0 b); cbn [andb orb length]; lia.
Qed.

Lemma distance_value x y : length x = length y ->
  exists d u, jaccard_distance (Vec x) (Vec y) = Ok d /\
    (0 <= u /\ INR (sign_mismatches x y) <= u) /\
    (2 * u = INR (size x) + INR (size y) + INR (sign_mismatches x y)) /\
    (u = 0 -> d = 0) /\ d * u = INR (sign_mismatches x y).
Proof.
  intros E. unfold jaccard_distance, jaccard_similarity. rewrite checked_eq by auto.
  rewrite !(count_positions _ x 0 y), !nof_R. destruct (sizes x 0 y E) as [H2 H1].
  fold (size x) (size y) in H2.
  assert (2 * INR (length (positions orb 0 x y)) =
          INR (size x) + INR (size y) + INR (sign_mismatches x y)) as R2.
  { rewrite <- !plus_INR, <- H2, mult_INR. simpl. lra. }
  assert (INR (length (positions orb 0 x y)) =
          INR (length (positions andb 0 x y)) + INR (sign_mismatches x y)) as R1.
  { rewrite <- plus_INR. now f_equal. }
  destruct (Nat.eqb (length (positions orb 0 x y)) 0) eqn:EU.
  - apply Nat.eqb_eq in EU. assert (length (positions andb 0 x y) = 0)%nat as EB by lia.
    rewrite EB in *. rewrite EU in *. simpl. exists (1 - 1), 0. simpl in R1, R2.
    repeat split; try lra.
  - pose proof (pos_INR (length (positions andb 0 x y))) as R0.
    apply Nat.eqb_neq in EU. eexists _, (INR (length (positions orb 0 x y))).
    split; [reflexivity|]. simpl nsub. simpl none. simpl ndiv.
    assert (0 < INR (length (positions orb 0 x y))) by (apply lt_0_INR; lia).
    split; [lra|]. split; [auto|]. split; [lra|]. field_simplify; lra.
Qed.

Lemma mismatches_triangle x : forall y z, length x = length y -> length z = length y ->
  (sign_mismatches x y <= sign_mismatches x z + sign_mismatches z y)%nat.
Proof.
  induction x as [|a x IH]; intros [|b y] [|c z] E1 E2; simpl in *; try discriminate; try lia.
  specialize (IH y z ltac:(congruence) ltac:(congruence)).
  destruct (Rlt_dec 0 a), (Rlt_dec 0 b), (Rlt_dec 0 c); lia.
Qed.

Lemma size_mismatches x : forall k y, length x = length y ->
  (length (positions andb k x x) <= length (positions andb k y y) + sign_mismatches x y)%nat /\
  (length (positions andb k y y) <= length (positions andb k x x) + sign_mismatches x y)%nat.
Proof.
  induction x as [|a x IH]; intros k [|b y] E; try discriminate; [simpl; lia|].
  injection E as E. specialize (IH (S k) y E). cbn [positions sign_mismatches]. unfold posb.
  destruct (Rlt_dec 0 a), (Rlt_dec 0 b); cbn [andb length]; lia.
Qed.

(** C155: the set distance satisfies the triangle inequality, empty sets included. *)
Theorem C155_jaccard_triangle x y z dxy dxz dzy :
  length x = length y -> length z = length y ->
  jaccard_distance (Vec x) (Vec y) = Ok dxy ->
  jaccard_distance (Vec x) (Vec z) = Ok dxz ->
  jaccard_distance (Vec z) (Vec y) = Ok dzy -> dxy <= dxz + dzy.
Proof.
  intros E1 E2 D1 D2 D3.
  destruct (distance_value x y E1) as (d & u & Ed & [Hu Hmu] & Hs & Hz & Hd).
  destruct (distance_value x z ltac:(congruence)) as (d' & u' & Ed' & [Hu' Hmu'] & Hs' & Hz' & Hd').
  destruct (distance_value z y E2) as (d'' & u'' & Ed'' & [Hu'' Hmu''] & Hs'' & Hz'' & Hd'').
  rewrite D1 in Ed. injection Ed as <-. rewrite D2 in Ed'. injection Ed' as <-.
  rewrite D3 in Ed''. injection Ed'' as <-. clear D1 D2 D3.
  pose proof (mismatches_triangle x y z E1 E2) as T. apply le_INR in T. rewrite plus_INR in T.
  destruct (size_mismatches x 0 z ltac:(congruence)) as [_ T1].
  destruct (size_mismatches z 0 y E2) as [T2 T3]. fold (size x) (size z) (size y) in *.
  apply le_INR in T1, T2, T3. rewrite plus_INR in T1, T2, T3.
  pose proof (pos_INR (size x)). pose proof (pos_INR (size y)). pose proof (pos_INR (size z)).
  pose proof (pos_INR (sign_mismatches x y)) as P. pose proof (pos_INR (sign_mismatches x z)) as P'.
  pose proof (pos_INR (sign_mismatches z y)) as P''.
  set (m := INR (sign_mismatches x y)) in *. set (m' := INR (sign_mismatches x z)) in *.
  set (m'' := INR (sign_mismatches z y)) in *.
  set (sx := INR (size x)) in *. set (sy := INR (size y)) in *. set (sz := INR (size z)) in *.
  clearbody m m' m'' sx sy sz. clear E1 E2.
  assert (0 <= dxz) as Q'.
  { destruct (Req_dec u' 0) as [Eu|Eu]; [rewrite Hz'; auto; lra|]. nra. }
  assert (0 <= dzy) as Q''.
  { destruct (Req_dec u'' 0) as [Eu|Eu]; [rewrite Hz''; auto; lra|]. nra. }
  destruct (Req_dec u 0) as [Eu|Eu]; [rewrite Hz by auto; lra|].
  assert (0 < u) as Hup by lra.
  (* w = (sx + sy + m' + m'') / 2 is at least each of the three unions *)
  set (w := (sx + sy + m' + m'') / 2).
  assert (u <= w) by (unfold w; lra). assert (u' <= w) by (unfold w; lra).
  assert (u'' <= w) by (unfold w; lra).
  assert (m' + m'' <= (dxz + dzy) * w) as Hw.
  { rewrite <- Hd', <- Hd''. nra. }
  (* m / u is at most (m' + m'') / w as both exceed the same remainder *)
  assert (dxy * w <= m' + m'') as Hk.
  { assert (w - u = (m' + m'' - m) / 2) as Hwu by (unfold w; lra).
    assert (dxy <= 1) as Hle1 by (apply Rmult_le_reg_r with u; auto; rewrite Hd; lra).
    replace w with (u + (m' + m'' - m) / 2) by lra.
    rewrite Rmult_plus_distr_l, Hd. nra. }
  apply Rmult_le_reg_r with w; lra.
Qed.

(** The set distance does not tell vectors apart: it is zero between different vectors that are
    positive at the same positions, and negative entries count as absent. *)
Theorem C155_jaccard_identity_refuted :
  exists x y : list R, length x = length y /\ x <> y /\
    jaccard_distance (Vec x) (Vec y) = Ok 0.
Proof.
  exists [1; -3], [2; 0]. split; [reflexivity|]. split; [intros E; injection E; lra|].
  destruct (C155_jaccard_laws [1; -3] [2; 0] eq_refl) as (s & Es & _ & _ & [_ H1] & _).
  unfold jaccard_distance. rewrite Es. simpl. rewrite H1; [f_equal; lra|].
  intros [|[|[|i]]]; unfold inside; simpl; split; lra.
Qed.

(** ** C155: scaling a vector to length one *)

(** The three lengths, as sums and bounds of absolute values. *)
Definition has_length (kind : norm_kind) (x : list R) (n : R) : Prop :=
  match kind with
  | NormL1 => n = fold_right (fun a s => Rabs a + s) 0 x
  | NormL2 => 0 <= n /\ n * n = fold_right (fun a s => a * a + s) 0 x
  | NormMax => (exists a, In a x /\ n = Rabs a) /\ forall a, In a x -> Rabs a <= n
  | NormOther => False
  end.

Lemma nabs_R (a : R) : nabs a = Rabs a.
Proof.
  unfold nabs. simpl. destruct (Rle_dec 0 a); [now rewrite Rabs_right by lra|].
  rewrite Rabs_left by lra. lra.
Qed.

Lemma nmax_spec (l : list R) m : nmax l = Ok m -> In m l /\ forall a, In a l -> a <= m.
Proof.
  destruct l as [|a l]; simpl; [discriminate|]. intros E. injection E as <-.
  revert a. induction l as [|b l IH]; intros a; simpl.
  - split; auto. intros c [->|[]]. lra.
  - destruct (Rle_dec a b) as [Hab|Hab]; destruct (IH (if Rle_dec a b then b else a)) as [I1 I2];
      destruct (Rle_dec a b) as [Hab'|Hab']; try contradiction.
    + split; [tauto|]. intros c [<-|[<-|Hc]]; [|apply I2; now left|apply I2; now right].
      apply Rle_trans with b; auto.
    + split; [tauto|]. intros c [<-|[<-|Hc]]; [apply I2; now left| |apply I2; now right].
      apply Rle_trans with a; [lra|]. apply I2. now left.
Qed.

Definition zero_length (kind : norm_kind) (x : list R) : Prop := has_length kind x 0.

Lemma l1_of x : nsum (map nabs x) = fold_right (fun a s => Rabs a + s) 0 x.
Proof. rewrite nsum_R. induction x as [|a x IH]; simpl; auto. now rewrite IH, <- nabs_R. Qed.

Lemma inner_self x : inner x x = fold_right (fun a s => a * a + s) 0 x.
Proof. induction x as [|a x IH]; simpl; auto. now rewrite IH. Qed.

(** A list scaled by [1 / n]. *)
Lemma scaled_length kind x n : 0 < n -> has_length kind x n ->
  has_length kind (map (fun e => e / n) x) 1.
Proof.
  intros Hn. destruct kind; simpl; auto.
  - intros E. assert (forall l, fold_right (fun a s => Rabs a + s) 0 (map (fun e => e / n) l) =
      fold_right (fun a s => Rabs a + s) 0 l / n) as ->.
    { induction l as [|a l IH]; simpl; [field; lra|]. rewrite IH. unfold Rdiv at 1.
      rewrite Rabs_mult, (Rabs_right (/ n)) by (apply Rle_ge, Rlt_le, Rinv_0_lt_compat, Hn).
      field. lra. }
    rewrite <- E. field. lra.
  - intros [_ E]. split; [lra|].
    assert (forall l, fold_right (fun a s => a * a + s) 0 (map (fun e => e / n) l) =
      fold_right (fun a s => a * a + s) 0 l / (n * n)) as ->.
    { induction l as [|a l IH]; simpl; [field; lra|]. rewrite IH. field. lra. }
    rewrite <- E. field. lra.
  - intros [[a [Ha E]] Hall].
    assert (forall b, Rabs (b / n) = Rabs b / n) as Habs.
    { intros b. unfold Rdiv. now rewrite Rabs_mult, (Rabs_right (/ n))
        by (apply Rle_ge, Rlt_le, Rinv_0_lt_compat, Hn). }
    split.
    + exists (a / n). split; [apply in_map_iff; eauto|]. rewrite Habs, <- E. field. lra.
    + intros b Hb. apply in_map_iff in Hb as (c & <- & Hc). rewrite Habs.
      apply Rmult_le_reg_r with n; auto. unfold Rdiv. rewrite Rmult_assoc, Rinv_l by lra.
      rewrite Rmult_1_r, Rmult_1_l. auto.
Qed.

Lemma norm_value_ok kind x : kind <> NormOther -> (kind = NormMax -> x <> []) ->
  exists n, match kind with
            | NormL2 => Ok (norm x)
            | NormL1 => Ok (nsum (map nabs x))
            | NormMax => nmax (map nabs x)
            | NormOther => Raise EValue
            end = Ok n /\ has_length kind x n /\ 0 <= n /\ (n = 0 -> zero_vec x).
Proof.
  intros Hk Hm. destruct kind; try congruence.
  - exists (nsum (map nabs x)). split; auto. rewrite l1_of. split; [reflexivity|].
    clear. unfold zero_vec. induction x as [|a x [IH1 IH2]]; simpl; [split; [lra|constructor]|].
    pose proof (Rabs_pos a). split; [lra|]. intros E. constructor; [|apply IH2; lra].
    destruct (Req_dec a 0) as [|Ha]; auto. apply Rabs_pos_lt in Ha. lra.
  - exists (norm x). split; auto. rewrite norm_len. unfold len. split.
    { split; [apply sqrt_pos|]. rewrite sqrt_def by apply inner_pos. apply inner_self. }
    split; [apply sqrt_pos|]. intros E. now apply len_zero.
  - destruct (nmax (map nabs x)) as [m|e] eqn:E.
    2: { destruct x; [now destruct Hm|discriminate]. }
    exists m. split; auto. apply nmax_spec in E as [Hin Hall].
    apply in_map_iff in Hin as (a & <- & Ha). rewrite nabs_R in *. split; [split; [eauto|]|].
    + intros b Hb. rewrite <- nabs_R. apply Hall. now apply in_map.
    + split; [apply Rabs_pos|]. intros Hz. apply Forall_forall. intros b Hb.
      destruct (Req_dec b 0) as [|Hb0]; auto. apply Rabs_pos_lt in Hb0.
      assert (Rabs b <= Rabs a) by (rewrite <- nabs_R; apply Hall; now apply in_map). lra.
Qed.

(** C155: [normalize_vector] answers the vector divided by a positive number, of length one in the
    requested norm; the zero vector is answered as it is. *)
Theorem C155_normalize x kind : kind <> NormOther -> (kind = NormMax -> x <> []) ->
  exists v, normalize_vector (Vec x) kind = Ok v /\
    (zero_vec x -> v = x) /\
    (~ zero_vec x -> has_length kind v 1 /\ exists c, 0 < c /\ v = map (fun e => e / c) x).
Proof.
  intros Hk Hm. destruct (norm_value_ok kind x Hk Hm) as (n & En & Hn & Hpos & Hz).
  unfold normalize_vector. rewrite En. cbn [rbind].
  destruct (neqb n nzero) eqn:E0.
  - apply neqb_R in E0. simpl in E0. exists x. split; auto. split; auto.
    intros H. destruct H. auto.
  - assert (n <> 0) as Hn0. { intros E. apply (proj2 (neqb_R n 0)) in E. simpl in E, E0. congruence. }
    exists (map (fun e => e / n) x). split; auto. split.
    + intros Hzv. exfalso. apply Hn0. clear En Hm Hk Hz E0 Hpos Hn0. destruct kind; simpl in Hn.
      * subst n. unfold zero_vec in Hzv. induction Hzv as [|a l -> _ IH]; simpl; auto.
        rewrite IH, Rabs_R0. lra.
      * destruct Hn as [H0 Hn]. assert (n * n = 0) as Hnn.
        { rewrite Hn. clear - Hzv. unfold zero_vec in Hzv.
          induction Hzv as [|a l -> _ IH]; simpl; auto. rewrite IH. lra. }
        apply Rmult_integral in Hnn. tauto.
      * destruct Hn as [[a [Ha ->]] _]. unfold zero_vec in Hzv. rewrite Forall_forall in Hzv.
        rewrite (Hzv a Ha). apply Rabs_R0.
      * destruct Hn.
    + intros _. split; [apply scaled_length; auto; lra|]. exists n. split; [lra|auto].
Qed.

(** C155: normalising twice is normalising once. *)
Theorem C155_normalize_idempotent x kind v :
  normalize_vector (Vec x) kind = Ok v -> normalize_vector (Vec v) kind = Ok v.
Proof.
  intros E.
  assert (kind <> NormOther) as Hk by (intros ->; discriminate).
  assert (kind = NormMax -> x <> []) as Hm by (intros -> ->; discriminate).
  destruct (C155_normalize x kind Hk Hm) as (v' & E' & Hz & Hnz). rewrite E in E'.
  injection E' as <-.
  destruct (Forall_dec (fun a => a = 0) (fun a => Req_EM_T a 0) x) as [Hx|Hx].
  - now rewrite (Hz Hx) in *.
  - destruct (Hnz Hx) as [Hl (c & Hc & Ev)].
    assert (kind = NormMax -> v <> []) as Hm'.
    { intros Ek. specialize (Hm Ek). rewrite Ev. destruct x; [congruence|discriminate]. }
    destruct (norm_value_ok kind v Hk Hm') as (n & En & Hn & Hpos & _).
    assert (n = 1) as ->.
    { clear - Hl Hn Hpos. destruct kind; simpl in *.
      - congruence.
      - destruct Hl as [_ Hl], Hn as [_ Hn]. rewrite <- Hl in Hn. nra.
      - destruct Hl as [(a & Ha & E1) Hl], Hn as [(b & Hb & E2) Hn].
        specialize (Hn a Ha). specialize (Hl b Hb). lra.
      - destruct Hl. }
    unfold normalize_vector. rewrite En. cbn [rbind].
    assert (neqb 1 nzero = false) as ->.
    { destruct (neqb 1 nzero) eqn:E1; auto. apply neqb_R in E1. simpl in E1. lra. }
    f_equal. simpl. rewrite <- (map_id v) at 2. apply map_ext. intros a. field.
Qed.

(** ** C155: the argument checks *)

(** Two arrays of one dimension and equal length. *)
Definition comparable (a b : ndarray R) : Prop :=
  exists x y, a = Vec x /\ b = Vec y /\ length x = length y.

(** C155: each of the nine functions answers two comparable arrays, except that the largest
    difference of two empty vectors does not exist, and refuses any other pair with ValueError. *)
Theorem C155_pair_checks a b :
  (comparable a b ->
     (exists r, cosine_similarity a b = Ok r) /\ (exists r, cosine_distance a b = Ok r) /\
     (exists r, euclidean_distance a b = Ok r) /\
     (exists r, euclidean_distance_squared a b = Ok r) /\
     (exists r, dot_product a b = Ok r) /\ (exists r, manhattan_distance a b = Ok r) /\
     ((exists r, chebyshev_distance a b = Ok r) \/
      a = Vec [] /\ b = Vec [] /\ chebyshev_distance a b = Raise EValue) /\
     (exists r, hamming_distance a b = Ok r) /\ (exists r, jaccard_similarity a b = Ok r) /\
     (exists r, jaccard_distance a b = Ok r)) /\
  (~ comparable a b ->
     cosine_similarity a b = Raise EValue /\ cosine_distance a b = Raise EValue /\
     euclidean_distance a b = Raise EValue /\ euclidean_distance_squared a b = Raise EValue /\
     dot_product a b = Raise EValue /\ manhattan_distance a b = Raise EValue /\
     chebyshev_distance a b = Raise EValue /\ hamming_distance a b = Raise EValue /\
     jaccard_similarity a b = Raise EValue /\ jaccard_distance a b = Raise EValue).
Proof.
  split.
  - intros (x & y & -> & -> & E).
    destruct (C42_cosine_value x y E) as (s & Es & _).
    destruct (C155_jaccard_value x y E) as (j & Ej & _ & Ej').
    unfold cosine_distance. rewrite Es.
    unfold euclidean_distance, euclidean_distance_squared, dot_product, manhattan_distance,
      chebyshev_distance. rewrite !checked_eq by auto. rewrite C41_hamming_value by auto.
    repeat split; try (eexists; reflexivity); try (eexists; eassumption).
    destruct x as [|p x], y as [|q y]; try discriminate.
    + right. auto.
    + left. eexists. reflexivity.
  - intros Hn. assert (forall A (k : list R -> list R -> result A), checked a b k = Raise EValue) as Hc.
    { intros A k. unfold checked. destruct a as [x| |], b as [y| |]; auto.
      destruct (Nat.eqb (length x) (length y)) eqn:E; auto. exfalso. apply Hn.
      apply Nat.eqb_eq in E. exists x, y. auto. }
    unfold cosine_distance, jaccard_distance, cosine_similarity, euclidean_distance,
      euclidean_distance_squared, dot_product, manhattan_distance, chebyshev_distance,
      hamming_distance, jaccard_similarity. rewrite !Hc. repeat split.
Qed.

(** C155: [normalize_vector] refuses, with ValueError, exactly an unknown norm, an array that is
    not one-dimensional, and an empty vector under the maximum norm. *)
Theorem C155_normalize_checks a kind :
  (kind = NormOther \/ (forall x, a <> Vec x) \/ (kind = NormMax /\ a = Vec []) ->
     normalize_vector a kind = Raise EValue) /\
  (~ (kind = NormOther \/ (forall x, a <> Vec x) \/ (kind = NormMax /\ a = Vec [])) ->
     exists v, normalize_vector a kind = Ok v).
Proof.
  split.
  - intros [->|[Ha|[-> ->]]].
    + destruct a; reflexivity.
    + destruct a as [x| |]; auto. destruct (Ha x eq_refl).
    + reflexivity.
  - intros Hn. destruct a as [x| |].
    + destruct (C155_normalize x kind) as (v & Ev & _).
      * intros ->. tauto.
      * intros -> ->. tauto.
      * eauto.
    + destruct Hn. right. left. discriminate.
    + destruct Hn. right. left. discriminate.
Qed.

(** C155: the inner product is the sum of products and the squared distance is the sum of squared
    differences, which is the square of the distance and equals the two squared lengths less twice
    the inner product. *)
Theorem C155_products x y : length x = length y ->
  exists p d e, dot_product (Vec x) (Vec y) = Ok p /\ dot_product (Vec y) (Vec x) = Ok p /\
    euclidean_distance_squared (Vec x) (Vec y) = Ok d /\ euclidean_distance (Vec x) (Vec y) = Ok e /\
    p = fold_right Rplus 0 (map (fun q => fst q * snd q) (combine x y)) /\
    d = fold_right Rplus 0 (map (fun q => (fst q - snd q) ^ 2) (combine x y)) /\
    e * e = d /\ d = inner x x + inner y y - 2 * p.
Proof.
  intros E. exists (inner x y), (sq_dist x y), (euclid x y).
  destruct (C41_euclidean_value x y E) as [E1 E2]. rewrite E1, E2.
  unfold dot_product. rewrite !checked_eq by auto. rewrite !dot_inner, (inner_sym y x).
  repeat (split; [reflexivity|]). clear E1 E2. split; [|split; [|split]].
  - clear. revert y. induction x as [|a x IH]; intros [|b y]; simpl; auto. now rewrite IH.
  - clear. revert y. induction x as [|a x IH]; intros [|b y]; simpl; auto. now rewrite IH.
  - unfold euclid. apply sqrt_def, sq_dist_pos.
  - revert y E. induction x as [|a x IH]; intros [|b y] E; simpl in *; try discriminate; [lra|].
    rewrite (IH y) by congruence. lra.
Qed.

(** Three vectors with positive, zero and negative entries, two of them with different positive
    positions; a non-zero vector; two arrays that cannot be compared. *)
Example C155_hypotheses_met :
  (exists s, jaccard_similarity (Vec [1; 2; -1; 0]) (Vec [3; 0; 4; 0]) = Ok s /\ s = 1 / 3) /\
  ~ zero_vec [3; -4] /\ NormL2 <> NormOther /\ ~ comparable (Vec [1]) (Vec [1; 2]) /\
  comparable (Vec [1; 2]) (Vec [0; 5]).
Proof.
  assert (posb 0 = false) as P0 by (unfold posb; destruct (Rlt_dec 0 0); auto; lra).
  assert (posb 1 = true) as P1 by (unfold posb; destruct (Rlt_dec 0 1); auto; lra).
  assert (posb 2 = true) as P2 by (unfold posb; destruct (Rlt_dec 0 2); auto; lra).
  assert (posb 3 = true) as P3 by (unfold posb; destruct (Rlt_dec 0 3); auto; lra).
  assert (posb 4 = true) as P4 by (unfold posb; destruct (Rlt_dec 0 4); auto; lra).
  assert (posb (-1) = false) as P5 by (unfold posb; destruct (Rlt_dec 0 (-1)); auto; lra).
  split; [|split; [|split; [|split]]].
  - exists (1 / 3). split; auto. unfold jaccard_similarity. rewrite checked_eq by reflexivity.
    rewrite !(count_positions _ _ 0). cbn [positions].
    rewrite P0, P1, P2, P3, P4, P5. cbn [andb orb length Nat.eqb]. rewrite !nof_R. f_equal. simpl.
    lra.
  - intros H. inversion H. lra.
  - discriminate.
  - intros (x & y & E1 & E2 & E). injection E1 as <-. injection E2 as <-. discriminate.
  - exists [1; 2], [0; 5]. auto.
Qed.

Print Assumptions C155_jaccard_value.
Print Assumptions C155_jaccard_laws.
Print Assumptions C155_jaccard_triangle.
Print Assumptions C155_jaccard_identity_refuted.
Print Assumptions C155_normalize.
Print Assumptions C155_normalize_idempotent.
Print Assumptions C155_pair_checks.
Print Assumptions C155_normalize_checks.
Print Assumptions C155_products.
