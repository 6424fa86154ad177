(** C130, C131: the quality score and the counts that the analysis of a set of vectors reports. *)

From Coq Require Import List Arith ZArith NArith QArith Bool Lia ZifyBool ZifyNat ZifyN Permutation Lqa.
From Verif Require Import PyBase PyValue VecFileModel AnalyzeModel.
Import ListNotations.
Open Scope nat_scope.

(** ** Specification *)

(** A usable value; equal values; a vector all of whose values are equal. *)
Definition finite (x : pyfloat) : Prop := exists q, x = FFin q.
Definition same (x y : pyfloat) : Prop :=
  (exists p q, x = FFin p /\ y = FFin q /\ (p == q)%Q) \/ exists b, x = FInf b /\ y = FInf b.
Definition flat_vector (v : list pyfloat) : Prop := exists x, v <> [] /\ forall y, In y v -> same y x.
Definition null_vector (v : list pyfloat) : Prop := forall y, In y v -> exists q, y = FFin q /\ (q == 0)%Q.
(** [n] values of a vector are NaN or infinite. *)
Inductive unusable : list pyfloat -> nat -> Prop :=
| un_nil : unusable [] 0
| un_fin q v n : unusable v n -> unusable (FFin q :: v) n
| un_inf b v n : unusable v n -> unusable (FInf b :: v) (S n)
| un_nan v n : unusable v n -> unusable (FNan :: v) (S n).

(** ** Counting *)

Lemma tally_app {A} (f : A -> bool) l1 l2 : tally f (l1 ++ l2) = tally f l1 + tally f l2.
Proof. unfold tally. now rewrite filter_app, app_length. Qed.

Lemma tally_le {A} (f : A -> bool) l : tally f l <= length l.
Proof. unfold tally. induction l as [|a l IH]; cbn; [lia|]. destruct (f a); cbn; lia. Qed.

Lemma tally_0 {A} (f : A -> bool) l : tally f l = 0 <-> forall x, In x l -> f x = false.
Proof.
  unfold tally. induction l as [|a l IH]; cbn; [tauto|]. destruct (f a) eqn:E; cbn.
  - split; [lia|]. intros H. rewrite (H a) in E by auto. discriminate.
  - rewrite IH. split; [intros H x [<-|Hx]; auto|auto].
Qed.

Lemma feq_same x y : feq x y = true <-> same x y.
Proof.
  split.
  - destruct x as [p|a|], y as [q|b|]; cbn; try discriminate; intros H.
    + left. exists p, q. apply Qeq_bool_iff in H. auto.
    + right. apply eqb_prop in H. subst. eauto.
  - intros [(p & q & -> & -> & H)|(b & -> & ->)]; cbn; [now apply Qeq_bool_iff|apply eqb_reflx].
Qed.

Lemma same_sym x y : same x y -> same y x.
Proof.
  intros [(p & q & -> & -> & H)|(b & -> & ->)]; [left|right; eauto].
  exists q, p. split; auto. split; auto. now symmetry.
Qed.

Lemma same_trans x y z : same x y -> same y z -> same x z.
Proof.
  intros [(p & q & -> & -> & H)|(b & -> & ->)] [(p' & q' & E & -> & H')|(b' & E & ->)]; try discriminate.
  - injection E as <-. left. exists p, q'. split; auto. split; auto. now transitivity q.
  - injection E as <-. right. eauto.
Qed.

Lemma constant_flat v : v <> [] -> constant_row v = true <-> flat_vector v.
Proof.
  intros Hv. unfold constant_row, flat_vector. destruct v as [|x v]; [congruence|].
  rewrite forallb_forall. split.
  - intros H. exists x. split; auto. intros y Hy. apply feq_same, H, Hy.
  - intros (z & _ & H) y Hy. apply feq_same. apply same_trans with z; [auto|].
    apply same_sym, H. now left.
Qed.

Lemma zero_null v : zero_row v = true <-> null_vector v.
Proof.
  unfold zero_row, null_vector. rewrite forallb_forall. split; intros H y Hy; specialize (H y Hy).
  - destruct y; try discriminate. exists q. split; auto. now apply Qeq_bool_iff.
  - destruct H as (q & -> & H). now apply Qeq_bool_iff.
Qed.

Lemma null_flat v : v <> [] -> null_vector v -> flat_vector v.
Proof.
  intros Hv H. exists (FFin 0). split; auto. intros y Hy. destruct (H y Hy) as (q & -> & Hq).
  left. exists q, 0%Q. auto.
Qed.

Definition bad (v : list pyfloat) : nat := tally is_nan v + tally is_inf v.

Lemma unusable_bad v n : unusable v n <-> n = bad v.
Proof.
  split.
  - induction 1 as [|q v n _ IH|b v n _ IH|v n _ IH]; unfold bad, tally in *; cbn; lia.
  - intros ->. induction v as [|[q|b|] v IH]; [constructor| | |].
    + replace (bad (FFin q :: v)) with (bad v) by reflexivity. now constructor.
    + replace (bad (FInf b :: v)) with (S (bad v)) by (unfold bad, tally; cbn; lia). now constructor.
    + replace (bad (FNan :: v)) with (S (bad v)) by (unfold bad, tally; cbn; lia). now constructor.
Qed.

Lemma bad_le v : bad v <= length v.
Proof. induction v as [|[q|b|] v IH]; unfold bad, tally in *; cbn; lia. Qed.

Lemma bad_0 v : bad v = 0 <-> forall x, In x v -> finite x.
Proof.
  unfold bad. split.
  - intros H x Hx. assert (H1 : tally is_nan v = 0) by lia. assert (H2 : tally is_inf v = 0) by lia.
    pose proof (proj1 (tally_0 _ _) H1 x Hx) as E1. pose proof (proj1 (tally_0 _ _) H2 x Hx) as E2.
    destruct x; try discriminate. eexists; reflexivity.
  - intros H. rewrite (proj2 (tally_0 is_nan v)), (proj2 (tally_0 is_inf v)); auto;
      intros x Hx; destruct (H x Hx) as (q & ->); reflexivity.
Qed.

Lemma bad_null v : null_vector v -> bad v = 0.
Proof. intros H. apply bad_0. intros x Hx. destruct (H x Hx) as (q & -> & _). eexists; reflexivity. Qed.

(** ** The score as one fraction *)

(** Ten times the size, times what is taken off. *)
Definition taken (w : nat) (rows : list (list pyfloat)) : nat :=
  5 * bad (concat rows) + 3 * w * tally constant_row rows + 2 * w * tally zero_row rows.

Lemma taken_app w r1 r2 : taken w (r1 ++ r2) = taken w r1 + taken w r2.
Proof. unfold taken, bad. rewrite concat_app, !tally_app. lia. Qed.

Lemma taken_one w v : taken w [v] =
  5 * bad v + 3 * w * (if constant_row v then 1 else 0) + 2 * w * (if zero_row v then 1 else 0).
Proof.
  unfold taken. cbn [concat]. rewrite app_nil_r. unfold tally at 1 2. cbn.
  destruct (constant_row v), (zero_row v); reflexivity.
Qed.

Definition shaped (w : nat) (rows : list (list pyfloat)) : Prop := forall v, In v rows -> length v = w.

Lemma taken_le w rows : 0 < w -> shaped w rows -> taken w rows <= 8 * (length rows * w).
Proof.
  intros Hw. induction rows as [|v rows IH]; intros Hs; [unfold taken, bad, tally; cbn; lia|].
  change (v :: rows) with ([v] ++ rows). rewrite taken_app, taken_one.
  assert (Hr : shaped w rows) by (intros x Hx; apply Hs; now right). specialize (IH Hr).
  assert (Hl : length v = w) by (apply Hs; now left). pose proof (bad_le v) as Hb.
  destruct (zero_row v) eqn:Ez.
  - apply zero_null, bad_null in Ez. cbn [app length]. destruct (constant_row v); nia.
  - cbn [app length]. destruct (constant_row v); nia.
Qed.

Lemma score_fraction w rows : 0 < w -> rows <> [] -> shaped w rows ->
  (quality_score w rows == 1 - inject_Z (Z.of_nat (taken w rows)) / inject_Z (Z.of_nat (10 * (length rows * w))))%Q.
Proof.
  intros Hw Hn Hs. unfold quality_score. cbv zeta.
  assert (E : (1 - (ratio (tally is_nan (concat rows)) (length rows * w) + ratio (tally is_inf (concat rows)) (length rows * w)) * (1 # 2)
            - ratio (tally constant_row rows) (length rows) * (3 # 10)
            - ratio (tally zero_row rows) (length rows) * (1 # 5)
          == 1 - inject_Z (Z.of_nat (taken w rows)) / inject_Z (Z.of_nat (10 * (length rows * w))))%Q).
  { assert (Hl : length rows <> 0) by (destruct rows; [congruence|discriminate]).
    unfold ratio, taken, bad. rewrite !Nat2Z.inj_add, !Nat2Z.inj_mul, !Nat2Z.inj_add, !inject_Z_plus, !inject_Z_mult, !inject_Z_plus.
    set (n := length rows) in *. set (a := tally is_nan _). set (b := tally is_inf _). set (c := tally constant_row _).
    set (z := tally zero_row _).
    assert (Qn : ~ (inject_Z (Z.of_nat n) == 0)%Q).
    { intros G. unfold Qeq in G. cbn in G. lia. }
    assert (Qw : ~ (inject_Z (Z.of_nat w) == 0)%Q).
    { intros G. unfold Qeq in G. cbn in G. lia. }
    change (inject_Z (Z.of_nat 10)) with 10%Q. change (inject_Z (Z.of_nat 5)) with 5%Q.
    change (inject_Z (Z.of_nat 3)) with 3%Q. change (inject_Z (Z.of_nat 2)) with 2%Q.
    field. auto. }
  destruct (Qle_bool _ 0) eqn:Eq; [|exact E]. exfalso.
  apply Qle_bool_iff in Eq. rewrite E in Eq.
  pose proof (taken_le w rows Hw Hs) as Ht.
  assert (Hl : length rows <> 0) by (destruct rows; [congruence|discriminate]).
  set (s := length rows * w) in *. assert (0 < s) by (unfold s; nia).
  set (t := taken w rows) in *.
  assert (Hq : (inject_Z (Z.of_nat t) / inject_Z (Z.of_nat (10 * s)) <= 8 # 10)%Q).
  { apply Qle_shift_div_r; [change 0%Q with (inject_Z 0); rewrite <- Zlt_Qlt; lia|].
    unfold Qle, Qmult, inject_Z. cbn [Qnum Qden]. rewrite !Nat2Z.inj_mul in *. lia. }
  lra.
Qed.

(** ** C130 *)

(** The score lies between one fifth and one. *)
Theorem C130_range w rows : 0 < w -> rows <> [] -> (forall v, In v rows -> length v = w) ->
  (1 # 5 <= quality_score w rows <= 1)%Q.
Proof.
  intros Hw Hn Hs. rewrite (score_fraction w rows Hw Hn Hs).
  pose proof (taken_le w rows Hw Hs) as Ht.
  assert (Hl : length rows <> 0) by (destruct rows; [congruence|discriminate]).
  set (s := length rows * w) in *. assert (0 < s) by (unfold s; nia). set (t := taken w rows) in *.
  assert (Hq : (inject_Z (Z.of_nat t) / inject_Z (Z.of_nat (10 * s)) <= 8 # 10)%Q).
  { apply Qle_shift_div_r; [change 0%Q with (inject_Z 0); rewrite <- Zlt_Qlt; lia|].
    unfold Qle, Qmult, inject_Z. cbn [Qnum Qden]. rewrite !Nat2Z.inj_mul in *. lia. }
  assert (Hp : (0 <= inject_Z (Z.of_nat t) / inject_Z (Z.of_nat (10 * s)))%Q).
  { apply Qle_shift_div_l; [change 0%Q with (inject_Z 0); rewrite <- Zlt_Qlt; lia|].
    rewrite Qmult_0_l. change 0%Q with (inject_Z 0). rewrite <- Zle_Qle. lia. }
  lra.
Qed.

(** It is one exactly if all values are finite and no vector is constant. *)
Theorem C130_perfect w rows : 0 < w -> rows <> [] -> (forall v, In v rows -> length v = w) ->
  (quality_score w rows == 1)%Q <->
  forall v, In v rows -> (forall x, In x v -> finite x) /\ ~ flat_vector v.
Proof.
  intros Hw Hn Hs. rewrite (score_fraction w rows Hw Hn Hs).
  assert (Hl : length rows <> 0) by (destruct rows; [congruence|discriminate]).
  assert (H0 : (1 - inject_Z (Z.of_nat (taken w rows)) / inject_Z (Z.of_nat (10 * (length rows * w))) == 1)%Q <->
               taken w rows = 0).
  { assert (Hp : 0 < length rows * w) by nia. split; intros E.
    - assert (G : (inject_Z (Z.of_nat (taken w rows)) / inject_Z (Z.of_nat (10 * (length rows * w))) == 0)%Q) by lra.
      destruct (Nat.eq_dec (taken w rows) 0) as [|N]; [auto|exfalso].
      assert (P : (0 < inject_Z (Z.of_nat (taken w rows)) / inject_Z (Z.of_nat (10 * (length rows * w))))%Q).
      { apply Qlt_shift_div_l; [change 0%Q with (inject_Z 0); rewrite <- Zlt_Qlt; lia|].
        rewrite Qmult_0_l. change 0%Q with (inject_Z 0). rewrite <- Zlt_Qlt. lia. }
      lra.
    - rewrite E. unfold Qdiv. change (inject_Z (Z.of_nat 0)) with 0%Q. rewrite Qmult_0_l. reflexivity. }
  rewrite H0. clear H0. clear Hn Hl.
  induction rows as [|v rows IH].
  - split; [intros _ v []|intros _; unfold taken, bad, tally; cbn; lia].
  - change (v :: rows) with ([v] ++ rows). rewrite taken_app, taken_one.
    assert (Hr : forall x, In x rows -> length x = w) by (intros x Hx; apply Hs; now right).
    specialize (IH Hr).
    assert (Hv : v <> []). { intros ->. specialize (Hs [] (or_introl eq_refl)). cbn in Hs. lia. }
    assert (H1 : 5 * bad v + 3 * w * (if constant_row v then 1 else 0) + 2 * w * (if zero_row v then 1 else 0) = 0 <->
                 (forall x, In x v -> finite x) /\ ~ flat_vector v).
    { rewrite <- bad_0, <- (constant_flat v Hv). split.
      - intros E. split; [lia|]. intros C. rewrite C in E. nia.
      - intros [E C]. destruct (zero_row v) eqn:Ez.
        + exfalso. apply C, constant_flat, null_flat, zero_null; auto.
        + destruct (constant_row v); [congruence|]. lia. }
    split.
    + intros E. assert (E1 : taken w rows = 0) by lia. assert (E2 := proj1 IH E1).
      intros x [<-|Hx]; [apply H1; lia|auto].
    + intros E. rewrite (proj2 IH), (proj2 H1); [reflexivity|apply E; now left|].
      intros x Hx. apply E. now right.
Qed.

(** The score of two sets of vectors together is their average. *)
Theorem C130_average w r1 r2 : 0 < w -> r1 <> [] -> r2 <> [] ->
  (forall v, In v (r1 ++ r2) -> length v = w) ->
  (inject_Z (Z.of_nat (length r1 + length r2)) * quality_score w (r1 ++ r2) ==
   inject_Z (Z.of_nat (length r1)) * quality_score w r1 + inject_Z (Z.of_nat (length r2)) * quality_score w r2)%Q.
Proof.
  intros Hw H1 H2 Hs.
  rewrite !score_fraction; auto; try (intros v Hv; apply Hs, in_or_app; auto);
    [|intros E; apply app_eq_nil in E; tauto].
  rewrite taken_app, app_length. set (t1 := taken w r1). set (t2 := taken w r2).
  assert (N1 : length r1 <> 0) by (destruct r1; [congruence|discriminate]).
  assert (N2 : length r2 <> 0) by (destruct r2; [congruence|discriminate]).
  set (n1 := length r1) in *. set (n2 := length r2) in *.
  rewrite !Nat2Z.inj_mul, !Nat2Z.inj_add, !inject_Z_mult, !inject_Z_plus.
  assert (Q1 : (0 < inject_Z (Z.of_nat n1))%Q) by (change 0%Q with (inject_Z 0); rewrite <- Zlt_Qlt; lia).
  assert (Q2 : (0 < inject_Z (Z.of_nat n2))%Q) by (change 0%Q with (inject_Z 0); rewrite <- Zlt_Qlt; lia).
  assert (Q3 : (0 < inject_Z (Z.of_nat w))%Q) by (change 0%Q with (inject_Z 0); rewrite <- Zlt_Qlt; lia).
  change (inject_Z (Z.of_nat 10)) with 10%Q. field. repeat split; lra.
Qed.

(** The score of one vector, which decides all by C130_average. *)
Theorem C130_one_vector v n : v <> [] -> unusable v n ->
  (null_vector v -> quality_score (length v) [v] == 1 # 2)%Q /\
  (flat_vector v -> ~ null_vector v -> (n = 0)%nat -> quality_score (length v) [v] == 7 # 10)%Q /\
  (flat_vector v -> (n <> 0)%nat -> quality_score (length v) [v] == 1 # 5)%Q /\
  (~ flat_vector v ->
   quality_score (length v) [v] == 1 - (1 # 2) * (inject_Z (Z.of_nat n) / inject_Z (Z.of_nat (length v))))%Q.
Proof.
  intros Hv Hu. apply unusable_bad in Hu. set (w := length v).
  assert (Hw : 0 < w) by (unfold w; destruct v; [congruence|cbn; lia]).
  assert (Qw : (0 < inject_Z (Z.of_nat w))%Q) by (change 0%Q with (inject_Z 0); rewrite <- Zlt_Qlt; lia).
  rewrite score_fraction; [|exact Hw|discriminate|intros x [<-|[]]; reflexivity].
  rewrite taken_one. rewrite <- Hu. cbn [length]. rewrite Nat.mul_1_l.
  pose proof (constant_flat v Hv) as Hc. pose proof (zero_null v) as Hz.
  assert (Hbad : flat_vector v -> n <> 0 -> n = w).
  { intros (x & _ & Hx) Hn. subst n. unfold w. clear - Hx Hn.
    assert (Hxb : bad [x] = 1 \/ bad [x] = 0) by (destruct x; cbn; auto).
    assert (G : forall y, In y v -> bad [y] = bad [x]).
    { intros y Hy. destruct (Hx y Hy) as [(p & q & -> & -> & _)|(b & -> & ->)]; reflexivity. }
    assert (E : bad v = bad [x] * length v).
    { clear Hn Hx. induction v as [|y v IH]; [cbn; lia|].
      assert (bad (y :: v) = bad [y] + bad v) as -> by (unfold bad; destruct y; unfold tally; cbn; lia).
      rewrite IH by (intros z Hz; apply G; now right). rewrite (G y) by now left. cbn [length]. lia. }
    destruct Hxb as [E1|E1]; rewrite E1 in E; lia. }
  repeat split.
  - intros N. assert (F := null_flat v Hv N). apply Hc in F. rewrite F. pose proof (bad_null v N) as B.
    apply Hz in N. rewrite N. rewrite Hu, B.
    rewrite !Nat2Z.inj_add, !Nat2Z.inj_mul, !inject_Z_plus, !inject_Z_mult.
    change (inject_Z (Z.of_nat 10)) with 10%Q. change (inject_Z (Z.of_nat 5)) with 5%Q. change (inject_Z (Z.of_nat 3)) with 3%Q.
    change (inject_Z (Z.of_nat 2)) with 2%Q. change (inject_Z (Z.of_nat 1)) with 1%Q. change (inject_Z (Z.of_nat 0)) with 0%Q.
    field. lra.
  - intros F N ->. apply Hc in F. rewrite F. destruct (zero_row v); [exfalso; now apply N, Hz|].
    rewrite !Nat2Z.inj_add, !Nat2Z.inj_mul, !inject_Z_plus, !inject_Z_mult.
    change (inject_Z (Z.of_nat 10)) with 10%Q. change (inject_Z (Z.of_nat 5)) with 5%Q. change (inject_Z (Z.of_nat 3)) with 3%Q.
    change (inject_Z (Z.of_nat 2)) with 2%Q. change (inject_Z (Z.of_nat 1)) with 1%Q. change (inject_Z (Z.of_nat 0)) with 0%Q.
    field. lra.
  - intros F N. rewrite (Hbad F N). apply Hc in F. rewrite F. destruct (zero_row v) eqn:Ez.
    { exfalso. apply N. rewrite Hu. apply bad_null, Hz. reflexivity. }
    rewrite !Nat2Z.inj_add, !Nat2Z.inj_mul, !inject_Z_plus, !inject_Z_mult.
    change (inject_Z (Z.of_nat 10)) with 10%Q. change (inject_Z (Z.of_nat 5)) with 5%Q. change (inject_Z (Z.of_nat 3)) with 3%Q.
    change (inject_Z (Z.of_nat 2)) with 2%Q. change (inject_Z (Z.of_nat 1)) with 1%Q. change (inject_Z (Z.of_nat 0)) with 0%Q.
    field. lra.
  - intros N. destruct (constant_row v) eqn:Ec; [exfalso; now apply N, Hc|].
    destruct (zero_row v) eqn:Ez; [exfalso; apply N, null_flat, Hz; auto|].
    rewrite !Nat2Z.inj_add, !Nat2Z.inj_mul, !inject_Z_plus, !inject_Z_mult.
    change (inject_Z (Z.of_nat 10)) with 10%Q. change (inject_Z (Z.of_nat 5)) with 5%Q. change (inject_Z (Z.of_nat 3)) with 3%Q.
    change (inject_Z (Z.of_nat 2)) with 2%Q. change (inject_Z (Z.of_nat 1)) with 1%Q. change (inject_Z (Z.of_nat 0)) with 0%Q.
    field. lra.
Qed.

(** ** C131 *)

Section Counts.
  Context (sim : list pyfloat -> list pyfloat -> pyfloat) (choice : nat -> nat -> list nat).
  Notation analyze := (analyze_vectors sim choice).

  Definition places (n : nat) : list (nat * nat) :=
    filter (fun ij => negb (Nat.eqb (fst ij) (snd ij))) (list_prod (seq 0 n) (seq 0 n)).

  Lemma numbered {A} (d : A) rows : combine (seq 0 (length rows)) rows = map (fun i => (i, nth i rows d)) (seq 0 (length rows)).
  Proof.
    assert (G : forall k, combine (seq k (length rows)) rows = map (fun i => (i, nth (i - k) rows d)) (seq k (length rows))).
    { induction rows as [|x rows IH]; intros k; [reflexivity|]. cbn [length seq combine map].
      rewrite Nat.sub_diag. cbn [nth]. f_equal. rewrite IH. apply map_ext_in. intros i Hi. apply in_seq in Hi.
      replace (i - k) with (S (i - S k)) by lia. reflexivity. }
    rewrite G. apply map_ext. intros i. now rewrite Nat.sub_0_r.
  Qed.

  Lemma off_places rows :
    off_diagonal sim rows = map (fun ij => sim (nth (fst ij) rows []) (nth (snd ij) rows [])) (places (length rows)).
  Proof.
    unfold off_diagonal, places. cbv zeta. rewrite (numbered []).
    assert (G : forall l1 l2,
      flat_map (fun ix => flat_map (fun jy => if Nat.eqb (fst ix) (fst jy) then [] else [sim (snd ix) (snd jy)])
                                   (map (fun i => (i, nth i rows [])) l2)) (map (fun i => (i, nth i rows [])) l1) =
      map (fun ij => sim (nth (fst ij) rows []) (nth (snd ij) rows []))
          (filter (fun ij => negb (Nat.eqb (fst ij) (snd ij))) (list_prod l1 l2))); [|apply G].
    induction l1 as [|i l1 IH]; intros l2; [reflexivity|].
    cbn [map flat_map list_prod]. rewrite filter_app, map_app, IH. f_equal. cbn [fst snd].
    clear. induction l2 as [|j l2 IH2]; [reflexivity|]. cbn [map flat_map filter fst snd].
    destruct (Nat.eqb i j); cbn [negb app map fst snd]; now rewrite IH2.
  Qed.

  Lemma places_In n i j : In (i, j) (places n) <-> i < n /\ j < n /\ i <> j.
  Proof.
    unfold places. rewrite filter_In, in_prod_iff, !in_seq. cbn [fst snd]. rewrite negb_true_iff, Nat.eqb_neq. lia.
  Qed.

  Lemma NoDup_both {A} (l1 l2 : list A) : NoDup l1 -> NoDup l2 -> (forall x, In x l1 -> In x l2 -> False) -> NoDup (l1 ++ l2).
  Proof.
    induction l1 as [|a l1 IH]; intros H1 H2 H; [auto|]. apply NoDup_cons_iff in H1 as [Ha H1]. cbn [app]. constructor.
    - rewrite in_app_iff. intros [Hx|Hx]; [auto|]. apply (H a); [now left|auto].
    - apply IH; auto. intros x Hx1 Hx2. apply (H x); [now right|auto].
  Qed.

  Lemma places_NoDup n : NoDup (places n).
  Proof.
    unfold places. apply NoDup_filter.
    assert (G : forall l1 l2 : list nat, NoDup l1 -> NoDup l2 -> NoDup (list_prod l1 l2)).
    { induction l1 as [|i l1 IH]; intros l2 H1 H2; [constructor|]. cbn [list_prod].
      apply NoDup_cons_iff in H1 as [Hi H1]. apply NoDup_both.
      - apply FinFun.Injective_map_NoDup; auto. now intros a b [= ->].
      - auto.
      - intros (a, b) Ha Hb. apply in_map_iff in Ha as (c & [= <- <-] & _). apply in_prod_iff in Hb. tauto. }
    apply G; apply seq_NoDup.
  Qed.

  Lemma tally_map {A B} (f : B -> bool) (g : A -> B) l : tally f (map g l) = length (filter (fun x => f (g x)) l).
  Proof.
    unfold tally. induction l as [|a l IH]; [reflexivity|]. cbn [map filter]. destruct (f (g a)); cbn; now rewrite IH.
  Qed.

  (** A symmetric test holds at twice as many places as there are pairs. *)
  Lemma tally_pairs rows (f : pyfloat -> bool) (L : list (nat * nat)) :
    (forall x y, sim x y = sim y x) -> NoDup L ->
    (forall i j, In (i, j) L <-> i < j < length rows /\ f (sim (nth i rows []) (nth j rows [])) = true) ->
    tally f (off_diagonal sim rows) = 2 * length L.
  Proof.
    intros Hsym Hnd HL. rewrite off_places, tally_map.
    set (g := fun ij : nat * nat => f (sim (nth (fst ij) rows []) (nth (snd ij) rows []))).
    assert (P : Permutation (filter g (places (length rows))) (L ++ map (fun ij => (snd ij, fst ij)) L)).
    { apply NoDup_Permutation.
      - apply NoDup_filter, places_NoDup.
      - apply NoDup_both; auto.
        + apply FinFun.Injective_map_NoDup; auto. intros (a, b) (c, d). cbn. now intros [= -> ->].
        + intros (a, b) Ha Hb. apply in_map_iff in Hb as ((c & d) & [= -> ->] & Hb). apply HL in Ha, Hb. lia.
      - intros (a, b). rewrite filter_In, places_In, in_app_iff. unfold g. cbn [fst snd]. split.
        + intros ((Ha & Hb & Hne) & Hf). destruct (Nat.lt_ge_cases a b) as [Hlt|Hge].
          * left. apply HL. split; [lia|exact Hf].
          * right. apply in_map_iff. exists (b, a). split; [reflexivity|]. apply HL. split; [lia|].
            rewrite Hsym. exact Hf.
        + intros [Hx|Hx].
          * apply HL in Hx as (Hx & Hf). split; [lia|exact Hf].
          * apply in_map_iff in Hx as ((c & d) & [= -> ->] & Hx). apply HL in Hx as (Hx & Hf). split; [lia|].
            rewrite Hsym. exact Hf. }
    apply Permutation_length in P. rewrite app_length, map_length in P. lia.
  Qed.

  Lemma analyze_Some a r : analyze a = Ok (Some r) ->
    exists t w rows hl, a = V2 t w rows /\ length rows * w <> 0 /\ similarity_analysis sim choice rows = Ok hl /\
      r = MkReport (length rows) w
                (ratio (tally (fun x => negb (is_zero x)) (concat rows)) (length rows * w))
                (fst hl) (snd hl)
                (tally is_nan (concat rows)) (tally is_inf (concat rows))
                (tally constant_row rows) (tally zero_row rows)
                (quality_score w rows).
  Proof.
    unfold analyze_vectors. destruct a as [t [|x l]|t w rows]; try discriminate.
    destruct (Nat.eqb_spec (length rows * w) 0) as [|N]; [discriminate|].
    destruct (similarity_analysis sim choice rows) as [hl|e] eqn:E; cbn [rbind]; [|discriminate].
    intros [= <-]. exists t, w, rows, hl. auto.
  Qed.

  (** [n] elements have the property. *)
  Definition having {A} (P : A -> Prop) (l : list A) (n : nat) : Prop :=
    exists yes no, Permutation l (yes ++ no) /\ length yes = n /\ Forall P yes /\ Forall (fun x => ~ P x) no.

  Lemma having_tally {A} (P : A -> Prop) (f : A -> bool) l :
    (forall x, In x l -> f x = true <-> P x) -> having P l (tally f l).
  Proof.
    intros Hf. exists (filter f l), (filter (fun x => negb (f x)) l). repeat split.
    - clear Hf. induction l as [|a l IH]; [constructor|]. cbn [filter]. destruct (f a); cbn [negb app].
      + now constructor.
      + transitivity (a :: filter f l ++ filter (fun x => negb (f x)) l); [now constructor|].
        apply Permutation_middle.
    - apply Forall_forall. intros x Hx. apply filter_In in Hx as (Hx & E). now apply Hf.
    - apply Forall_forall. intros x Hx. apply filter_In in Hx as (Hx & E). intros HP. apply Hf in HP; auto.
      rewrite HP in E. discriminate.
  Qed.

  (** The plain counts are what their names say; what is called sparsity is the share of the values
      that are not zero. *)
  Theorem C131_counts_partial t w rows r :
    (forall v, In v rows -> length v = w) -> analyze (V2 t w rows) = Ok (Some r) ->
    rp_count r = length rows /\ rp_dimension r = w /\
    having (fun x => x = FNan) (concat rows) (rp_nan r) /\
    having (fun x => exists b, x = FInf b) (concat rows) (rp_inf r) /\
    having flat_vector rows (rp_constant r) /\ having null_vector rows (rp_zero r) /\
    rp_zero r <= rp_constant r /\
    exists n, having (fun x => exists q, x = FFin q /\ (q == 0)%Q) (concat rows) n /\
      (rp_sparsity r * inject_Z (Z.of_nat (length rows * w)) == inject_Z (Z.of_nat (length rows * w - n)))%Q.
  Proof.
    intros Hs Ha. apply analyze_Some in Ha as (t' & w' & rows' & hl & [= <- <- <-] & Hn & _ & ->). cbn [rp_count rp_dimension rp_nan rp_inf rp_constant rp_zero rp_sparsity].
    assert (Hne : forall v, In v rows -> v <> []).
    { intros v Hv ->. specialize (Hs [] Hv). cbn in Hs. subst w. lia. }
    split; [reflexivity|]. split; [reflexivity|].
    split; [apply having_tally; intros x _; destruct x; cbn; split; congruence|].
    split; [apply having_tally; intros x _; destruct x; cbn; split; try congruence; try (intros (b & E); congruence); eauto|].
    split; [apply having_tally; intros v Hv; apply constant_flat; auto|].
    split; [apply having_tally; intros v _; apply zero_null|].
    split.
    { clear - Hne. unfold tally. induction rows as [|v rows IH]; [cbn; lia|].
      assert (Hr : forall x, In x rows -> x <> []) by (intros x Hx; apply Hne; now right). specialize (IH Hr).
      cbn [filter]. destruct (zero_row v) eqn:Ez.
      - assert (constant_row v = true) as ->.
        { apply constant_flat; [apply Hne; now left|]. apply null_flat; [apply Hne; now left|]. now apply zero_null. }
        cbn. lia.
      - destruct (constant_row v); cbn; lia. }
    exists (tally is_zero (concat rows)). split.
    { apply having_tally. intros x _. destruct x; cbn; split; try congruence;
        try (intros (b & E & _); congruence).
      - intros E. exists q. split; auto. now apply Qeq_bool_iff.
      - intros (p & [= <-] & E). now apply Qeq_bool_iff. }
    assert (Hl : length (concat rows) = length rows * w).
    { clear - Hs. induction rows as [|v rows IH]; [reflexivity|]. cbn [concat length]. rewrite app_length, IH.
      - rewrite (Hs v) by now left. lia.
      - intros x Hx. apply Hs. now right. }
    assert (E : tally (fun x => negb (is_zero x)) (concat rows) = length rows * w - tally is_zero (concat rows)).
    { rewrite <- Hl. generalize (concat rows) as l. clear. induction l as [|a l IH]; [reflexivity|].
      pose proof (tally_le is_zero l) as Hle. unfold tally in *. cbn [filter length].
      destruct (is_zero a); cbn [negb length]; lia. }
    rewrite E. unfold ratio. field. intros G. unfold Qeq in G. cbn in G. lia.
  Qed.

  (** A report on at most 1000 vectors counts every pair of similar vectors twice. *)
  Theorem C131_pairs_partial t w rows r (high low : list (nat * nat)) :
    (forall x y, sim x y = sim y x) -> length rows <= 1000 -> analyze (V2 t w rows) = Ok (Some r) ->
    NoDup high -> NoDup low ->
    (forall i j, In (i, j) high <-> i < j < length rows /\ flt (FFin (95 # 100)) (sim (nth i rows []) (nth j rows [])) = true) ->
    (forall i j, In (i, j) low <-> i < j < length rows /\ flt (sim (nth i rows []) (nth j rows [])) (FFin (-1 # 2)) = true) ->
    rp_high r = 2 * length high /\ rp_low r = 2 * length low.
  Proof.
    intros Hsym Hle Ha Hnh Hnl Hh Hl.
    apply analyze_Some in Ha as (t' & w' & rows' & hl & [= <- <- <-] & Hn & Hsa & ->). cbn [rp_high rp_low].
    unfold similarity_analysis, sample in Hsa. destruct (Nat.ltb_spec 1000 (length rows)); [lia|].
    destruct (off_diagonal sim rows) as [|s sims] eqn:E; [discriminate|]. injection Hsa as <-. cbn [fst snd].
    rewrite <- E. split.
    - exact (tally_pairs rows (fun s => flt (FFin (95 # 100)) s) high Hsym Hnh Hh).
    - exact (tally_pairs rows (fun s => flt s (FFin (-1 # 2))) low Hsym Hnl Hl).
  Qed.

  (** Which arrays are refused: those of one dimension, and those of a single vector. *)
  Theorem C131_refused_partial (a : varr pyfloat) :
    (forall n k, length (choice n k) = k) ->
    (exists e, analyze a = Raise e) <->
    (exists t l, a = V1 t l /\ l <> []) \/ exists t w v, a = V2 t w [v] /\ w <> 0.
  Proof.
    intros Hc.
    assert (Hoff : forall rows, off_diagonal sim rows = [] <-> length rows <= 1).
    { intros rows. rewrite off_places. split.
      - intros E. apply map_eq_nil in E. destruct (Nat.le_gt_cases (length rows) 1) as [|G]; auto. exfalso.
        assert (In (0, 1) (places (length rows))) as Hi by (apply places_In; lia). rewrite E in Hi. destruct Hi.
      - intros Hle. destruct (places (length rows)) as [|(i, j) l] eqn:E; [reflexivity|exfalso].
        assert (In (i, j) (places (length rows))) as Hi by (rewrite E; now left). apply places_In in Hi. lia. }
    unfold analyze_vectors. split.
    - intros (e & E). destruct a as [t [|x l]|t w rows].
      + discriminate.
      + left. exists t, (x :: l). split; [reflexivity|discriminate].
      + right. destruct (Nat.eqb_spec (length rows * w) 0) as [|N]; [discriminate|].
        unfold similarity_analysis in E. destruct (off_diagonal sim (sample choice rows)) as [|s sims] eqn:Eo; [|discriminate].
        apply Hoff in Eo. unfold sample in Eo. destruct (Nat.ltb_spec 1000 (length rows)).
        * rewrite map_length, Hc in Eo. lia.
        * destruct rows as [|v [|v' rows]]; cbn [length] in *; try lia. exists t, w, v. split; [reflexivity|lia].
    - intros [(t & l & -> & Hl)|(t & w & v & -> & Hw)].
      + destruct l; [congruence|]. eexists; reflexivity.
      + destruct (Nat.eqb_spec (length [v] * w) 0) as [|N]; [cbn in *; lia|].
        unfold similarity_analysis, sample. cbn [length Nat.ltb Nat.leb].
        rewrite (proj2 (Hoff [v])) by (cbn; lia). eexists; reflexivity.
  Qed.
End Counts.

(** ** Concrete cases *)

Definition demo_sim (x y : list pyfloat) : pyfloat :=
  match x, y with FFin p :: _, FFin q :: _ => FFin (Qred (p * q)) | _, _ => FNan end.
Lemma demo_sim_sym x y : demo_sim x y = demo_sim y x.
Proof.
  destruct x as [|[p|b|] x], y as [|[q|b'|] y]; try reflexivity. unfold demo_sim. f_equal. apply Qred_complete, Qmult_comm.
Qed.
Definition demo_choice (n k : nat) : list nat := seq 0 k.
Definition demo_rows : list (list pyfloat) :=
  [[FFin 1; FFin 2]; [FFin 1; FFin 1]; [FNan; FInf true]; [FFin 0; FFin 0]].

Example C130_hypotheses_met :
  (forall v, In v demo_rows -> length v = 2) /\ (quality_score 2 demo_rows == 27 # 40)%Q /\
  unusable [FNan; FInf true] 2 /\ flat_vector [FInf true; FInf true] /\ null_vector [FFin 0; FFin 0] /\
  (quality_score 2 [[FInf true; FInf true]] == 1 # 5)%Q /\ (quality_score 2 [[FFin 1; FFin 2]; [FFin 2; FFin 1]] == 1)%Q.
Proof.
  split; [intros v [<-|[<-|[<-|[<-|[]]]]]; reflexivity|]. split; [reflexivity|].
  split; [repeat constructor|]. split; [|split; [|split; reflexivity]].
  - exists (FInf true). split; [discriminate|]. intros y [<-|[<-|[]]]; right; exists true; auto.
  - intros y [<-|[<-|[]]]; exists 0%Q; split; reflexivity.
Qed.

Example C131_hypotheses_met :
  exists r, analyze_vectors demo_sim demo_choice (V2 (TFloat 32) 2 demo_rows) = Ok (Some r) /\
    (forall v, In v demo_rows -> length v = 2) /\ (forall n k, length (demo_choice n k) = k) /\
    rp_high r = 2 /\ rp_constant r = 2 /\ rp_zero r = 1 /\
    (forall i j, In (i, j) [(0, 1)] <->
       i < j < length demo_rows /\ flt (FFin (95 # 100)) (demo_sim (nth i demo_rows []) (nth j demo_rows [])) = true).
Proof.
  eexists. split; [vm_compute; reflexivity|].
  split; [intros v [<-|[<-|[<-|[<-|[]]]]]; reflexivity|].
  split; [intros n k; apply seq_length|]. do 3 (split; [reflexivity|]).
  intros i j. split.
  - intros [[= <- <-]|[]]. split; [cbn; lia|reflexivity].
  - intros (Hij & Hf). cbn [length demo_rows] in Hij.
    assert (Hc : (i = 0 /\ j = 1) \/ (i = 0 /\ j = 2) \/ (i = 0 /\ j = 3) \/ (i = 1 /\ j = 2) \/ (i = 1 /\ j = 3) \/ (i = 2 /\ j = 3)) by lia.
    destruct Hc as [(-> & ->)|[(-> & ->)|[(-> & ->)|[(-> & ->)|[(-> & ->)|(-> & ->)]]]]]; try discriminate Hf.
    now left.
Qed.

(** Nothing but zeros is reported as sparsity 0. *)
Theorem C131_sparsity_refuted :
  exists rows r, analyze_vectors demo_sim demo_choice (V2 (TFloat 32) 2 rows) = Ok (Some r) /\
    (forall v, In v rows -> null_vector v) /\ (rp_sparsity r == 0)%Q.
Proof.
  exists [[FFin 0; FFin 0]; [FFin 0; FFin 0]]. eexists. split; [vm_compute; reflexivity|]. split; [|reflexivity].
  intros v [<-|[<-|[]]] y [<-|[<-|[]]]; exists 0%Q; split; reflexivity.
Qed.

(** Two vectors, the only pair of them similar: two pairs are reported. *)
Theorem C131_pairs_refuted :
  exists rows r, analyze_vectors demo_sim demo_choice (V2 (TFloat 32) 2 rows) = Ok (Some r) /\
    (forall x y, demo_sim x y = demo_sim y x) /\ length rows = 2 /\ rp_high r = 2.
Proof.
  exists [[FFin 1; FFin 2]; [FFin 1; FFin 2]]. eexists. split; [vm_compute; reflexivity|].
  split; [apply demo_sim_sym|]. split; reflexivity.
Qed.

(** A set of one good vector is refused. *)
Theorem C131_one_vector_refuted :
  exists rows, rows = [[FFin 1; FFin 2]] /\
    analyze_vectors demo_sim demo_choice (V2 (TFloat 32) 2 rows) = Raise EValue.
Proof. eexists. split; reflexivity. Qed.

Print Assumptions C130_range.
Print Assumptions C130_perfect.
Print Assumptions C130_average.
Print Assumptions C130_one_vector.
Print Assumptions C131_counts_partial.
Print Assumptions C131_pairs_partial.
Print Assumptions C131_refused_partial.
Print Assumptions C131_sparsity_refuted.
Print Assumptions C131_pairs_refuted.
Print Assumptions C131_one_vector_refuted.
