(** C136: the progress bar. *)

From Coq Require Import String List Arith ZArith NArith QArith Qround Lqa Bool Lia ZifyBool ZifyNat ZifyN Sorted.
From Verif Require Import PyBase BaseLemmas PyMore MonitorModel.
Import ListNotations.
Open Scope nat_scope.

Lemma trunc_up x : (0 <= x -> inject_Z (trunc x) <= x < inject_Z (trunc x + 1))%Q.
Proof.
  intros H. unfold trunc. rewrite (proj2 (Qle_bool_iff 0 x) H). split; [apply Qfloor_le|apply Qlt_floor].
Qed.

Lemma trunc_down x : (x < 0 -> inject_Z (trunc x - 1) < x <= inject_Z (trunc x))%Q.
Proof.
  intros H. unfold trunc. destruct (Qle_bool 0 x) eqn:E; [apply Qle_bool_iff in E; lra|].
  split; [apply Qceiling_lt|apply Qle_ceiling].
Qed.

(** [filled] of the current and the total, in whole numbers. *)
Lemma filled_spec c t : (0 < t)%Z ->
  let f := trunc (30 * (inject_Z c / inject_Z t)) in
  ((0 <= c)%Z -> (0 <= f /\ f * t <= 30 * c < (f + 1) * t)%Z) /\
  ((c < 0)%Z -> (f <= 0 /\ (f - 1) * t < 30 * c <= f * t)%Z).
Proof.
  intros Ht f. unfold f. set (x := (30 * (inject_Z c / inject_Z t))%Q).
  assert (Htq : (0 < inject_Z t)%Q) by (unfold Qlt; cbn; lia).
  assert (Ex : (x * inject_Z t == inject_Z (30 * c))%Q).
  { unfold x. rewrite inject_Z_mult. change (inject_Z 30) with 30%Q. field. lra. }
  assert (L : forall z, (inject_Z z <= x)%Q -> (z * t <= 30 * c)%Z).
  { intros z Hz. rewrite Zle_Qle, inject_Z_mult, <- Ex. apply Qmult_le_compat_r; lra. }
  assert (U : forall z, (x <= inject_Z z)%Q -> (30 * c <= z * t)%Z).
  { intros z Hz. rewrite Zle_Qle, (inject_Z_mult z), <- Ex. apply Qmult_le_compat_r; lra. }
  assert (L' : forall z, (inject_Z z < x)%Q -> (z * t < 30 * c)%Z).
  { intros z Hz. rewrite Zlt_Qlt, (inject_Z_mult z), <- Ex. apply Qmult_lt_compat_r; lra. }
  assert (U' : forall z, (x < inject_Z z)%Q -> (30 * c < z * t)%Z).
  { intros z Hz. rewrite Zlt_Qlt, (inject_Z_mult z), <- Ex. apply Qmult_lt_compat_r; lra. }
  split; intros Hc.
  - assert (Hx : (0 <= x)%Q).
    { destruct (Qlt_le_dec x 0) as [G|G]; auto. change 0%Q with (inject_Z 0) in G. apply U' in G. lia. }
    destruct (trunc_up x Hx) as (T1 & T2). apply L in T1 as L1. apply U' in T2 as L2. split; [nia|]. lia.
  - assert (Hx : (x < 0)%Q).
    { destruct (Qlt_le_dec x 0) as [G|G]; auto. change 0%Q with (inject_Z 0) in G. apply L in G. lia. }
    destruct (trunc_down x Hx) as (T1 & T2). apply L' in T1 as L1. apply U in T2 as L2. split; [nia|]. lia.
Qed.

(** Printing raises exactly when the total is zero.  Otherwise, for a positive total, the bar is thirty
    wide exactly when the current count is above minus a thirtieth of the total and below the total and
    a thirtieth; and as many blocks are filled as whole thirtieths are done. *)
Theorem C136_bar t :
  (print_progress t = Raise EZeroDiv <-> tk_total t = 0%Z) /\
  ((0 < tk_total t)%Z -> exists l, print_progress t = Ok l /\
     ln_current l = tk_current t /\ ln_total l = tk_total t /\
     (ln_progress l * inject_Z (tk_total t) == inject_Z (tk_current t))%Q /\
     (ln_blocks l + ln_dashes l = 30 <-> (- tk_total t < 30 * tk_current t < 31 * tk_total t)%Z) /\
     ((0 <= tk_current t)%Z ->
        (Z.of_nat (ln_blocks l) * tk_total t <= 30 * tk_current t < (Z.of_nat (ln_blocks l) + 1) * tk_total t)%Z) /\
     ((tk_current t <= 0)%Z -> ln_blocks l = 0)).
Proof.
  unfold print_progress. destruct (Z.eqb_spec (tk_total t) 0) as [E|E].
  - split; [tauto|lia].
  - split; [split; [discriminate|contradiction]|]. intros Ht. eexists. split; [reflexivity|].
    cbn [ln_blocks ln_dashes ln_progress ln_current ln_total]. split; [reflexivity|]. split; [reflexivity|].
    destruct (filled_spec (tk_current t) (tk_total t) Ht) as (F1 & F2).
    set (f := trunc _) in *. split; [field; intros G; unfold Qeq in G; cbn in G; lia|].
    split; [|split].
    + destruct (Z_lt_le_dec (tk_current t) 0) as [Hc|Hc].
      * destruct (F2 Hc) as (H0 & H1). split; intros H2; [nia|]. assert (f = 0)%Z by nia. lia.
      * destruct (F1 Hc) as (H0 & H1). split; intros H2; [nia|]. assert (f <= 30)%Z by nia. lia.
    + intros Hc. destruct (F1 Hc) as (H0 & H1). rewrite Z2Nat.id by lia. exact H1.
    + intros Hc. destruct (Z_lt_le_dec (tk_current t) 0) as [Hc'|Hc']; [destruct (F2 Hc'); lia|].
      destruct (F1 Hc') as (H0 & H1). assert (f = 0)%Z by nia. lia.
Qed.

(** [finish] fills the bar of a positive total. *)
Theorem C136_finish_partial t : (0 < tk_total t)%Z ->
  exists l, tk_finish t = (Ok l, MkTracker (tk_total t) (tk_total t) (tk_last t)) /\
    ln_blocks l = 30 /\ ln_dashes l = 0 /\ ln_current l = ln_total l.
Proof.
  intros Ht. unfold tk_finish. set (t' := MkTracker _ _ _). destruct (C136_bar t') as (_ & H).
  destruct (H Ht) as (l & E & E1 & E2 & _ & E4 & E5 & _). exists l. rewrite E. split; [reflexivity|].
  cbn [tk_total tk_current t'] in *. specialize (E5 ltac:(lia)).
  assert (ln_blocks l + ln_dashes l = 30) by (apply E4; lia).
  assert (ln_blocks l = 30) by nia. repeat split; try lia.
Qed.

(** ** Runs of updates *)

(** A sequence of updates (increment, clock), the lines printed. *)
Fixpoint updates (us : list (Z * Q)) : M tracker (list line) :=
  match us with
  | [] => ret []
  | (i, now) :: us' =>
      bind (tk_update i now) (fun o => bind (updates us') (fun ls => ret (match o with Some l => l :: ls | None => ls end)))
  end.

Definition sum_Z (l : list Z) : Z := fold_right Z.add 0%Z l.

(** A line of a bar with [total] steps. *)
Definition line_ok (total : Z) (l : line) : Prop :=
  ln_total l = total /\ (0 <= ln_current l)%Z /\
  (Z.of_nat (ln_blocks l) * total <= 30 * ln_current l < (Z.of_nat (ln_blocks l) + 1) * total)%Z.

Lemma updates_spec us : forall t, (0 < tk_total t)%Z ->
  exists ls t', updates us t = (Ok ls, t') /\ tk_total t' = tk_total t /\
    tk_current t' = (tk_current t + sum_Z (map fst us))%Z /\
    (inject_Z (Z.of_nat (length ls)) <= tk_last t' - tk_last t)%Q /\
    ((0 <= tk_current t)%Z -> Forall (fun u => 0 <= fst u)%Z us ->
       StronglySorted (fun l l' => ln_current l <= ln_current l')%Z ls /\
       Forall (fun l => line_ok (tk_total t) l /\ (tk_current t <= ln_current l <= tk_current t')%Z) ls).
Proof.
  induction us as [|(i, now) us IH]; intros t Ht; cbn [updates].
  - exists [], t. split; [reflexivity|]. split; [reflexivity|]. cbn [map sum_Z fold_right length].
    split; [lia|]. split; [change (inject_Z (Z.of_nat 0)) with 0%Q; lra|]. intros _ _. split; constructor.
  - unfold bind at 1, tk_update at 1. cbv beta zeta. set (t1 := MkTracker (tk_total t) (tk_current t + i) (tk_last t)).
    destruct (Qle_bool 1 (now - tk_last t1)) eqn:En.
    + destruct (C136_bar t1) as (_ & H). destruct (H Ht) as (l & E & E1 & E2 & _ & _ & E5 & _). rewrite E.
      set (t2 := MkTracker (tk_total t1) (tk_current t1) now).
      destruct (IH t2 Ht) as (ls & t' & Eu & I1 & I2 & I3 & I4). cbn [tk_total tk_current tk_last t1 t2] in *.
      unfold bind. rewrite Eu. exists (l :: ls), t'. split; [reflexivity|]. split; [exact I1|].
      cbn [map fst sum_Z fold_right length]. split; [unfold sum_Z in I2; lia|]. split.
      * rewrite Nat2Z.inj_succ, <- Z.add_1_l, inject_Z_plus. change (inject_Z 1) with 1%Q.
        apply Qle_bool_iff in En. lra.
      * intros Hc Hf. inversion Hf as [|? ? Hi Hf']; subst. cbn [fst] in Hi.
        destruct (I4 ltac:(lia) Hf') as (S1 & S2).
        assert (Hle : (tk_current t + i <= tk_current t')%Z).
        { rewrite I2. clear - Hf'. assert (0 <= sum_Z (map fst us))%Z; [|lia].
          induction Hf' as [|u us Hu _ IH]; unfold sum_Z in *; cbn [map fold_right]; lia. }
        split; [constructor; auto; eapply Forall_impl; [|exact S2]; cbn; intros l' (_ & G); lia|].
        constructor.
        -- split; [|lia]. unfold line_ok. rewrite E1, E2. specialize (E5 ltac:(lia)). split; [reflexivity|]. split; [lia|]. exact E5.
        -- eapply Forall_impl; [|exact S2]. cbn. intros l' (G1 & G2). split; [auto|lia].
    + destruct (IH t1 Ht) as (ls & t' & Eu & I1 & I2 & I3 & I4). cbn [tk_total tk_current tk_last t1] in *.
      unfold bind. rewrite Eu. exists ls, t'. split; [reflexivity|]. split; [exact I1|].
      cbn [map fst sum_Z fold_right]. split; [unfold sum_Z in I2; lia|]. split; [exact I3|].
      intros Hc Hf. inversion Hf as [|? ? Hi Hf']; subst. cbn [fst] in Hi.
      destruct (I4 ltac:(lia) Hf') as (S1 & S2). split; [exact S1|].
      eapply Forall_impl; [|exact S2]. cbn. intros l' (G1 & G2). split; [auto|lia].
Qed.

(** A tracker of a positive total: no sequence of updates raises, the count is the sum of the increments,
    and there are no more lines than seconds between the tracker's making and the last line. *)
Theorem C136_updates_partial total start us : (0 < total)%Z ->
  exists ls t, updates us (tracker_new total start) = (Ok ls, t) /\
    tk_total t = total /\ tk_current t = sum_Z (map fst us) /\
    (inject_Z (Z.of_nat (length ls)) <= tk_last t - start)%Q.
Proof.
  intros Ht. destruct (updates_spec us (tracker_new total start) Ht) as (ls & t & E & E1 & E2 & E3 & _). eauto 6.
Qed.

(** With increments that are not negative the bars never shrink. *)
Theorem C136_grows_partial total start us : (0 < total)%Z -> Forall (fun u => 0 <= fst u)%Z us ->
  exists ls t, updates us (tracker_new total start) = (Ok ls, t) /\
    StronglySorted (fun l l' => ln_blocks l <= ln_blocks l' /\ (ln_current l <= ln_current l')%Z) ls /\
    (forall l, In l ls -> (0 <= ln_current l <= tk_current t)%Z).
Proof.
  intros Ht Hf. destruct (updates_spec us (tracker_new total start) Ht) as (ls & t & E & E1 & E2 & E3 & E4).
  destruct (E4 ltac:(cbn; lia) Hf) as (S1 & S2). exists ls, t. split; [exact E|]. split.
  - clear - S1 S2 Ht. cbn [tracker_new tk_total] in S2. induction S1 as [|l ls S IH F]; [constructor|].
    inversion S2 as [|? ? (H1 & _) H2]; subst. constructor; [auto|].
    rewrite Forall_forall in *. intros l' Hl'. specialize (F l' Hl'). destruct (H2 l' Hl') as (H3 & _).
    unfold line_ok in *. split; [|exact F]. nia.
  - intros l Hl. rewrite Forall_forall in S2. destruct (S2 l Hl) as (_ & H). cbn in H. exact H.
Qed.

(** ** Concrete cases *)

Definition demo_updates : list (Z * Q) := [(2%Z, 1 # 2); (1%Z, 2); (5%Z, 5 # 2); (1%Z, 4)]%Q.

Example C136_hypotheses_met :
  (0 < 8)%Z /\ Forall (fun u => 0 <= fst u)%Z demo_updates /\
  map (fun l => (ln_blocks l, ln_dashes l, ln_current l))
    (match fst (updates demo_updates (tracker_new 8 0)) with Ok ls => ls | _ => [] end) =
    [(11, 19, 3%Z); (33, 0, 9%Z)].
Proof. split; [lia|]. split; [repeat constructor; cbn; lia|]. reflexivity. Qed.

(** More updates than the total: the bar is wider than thirty. *)
Theorem C136_width_refuted :
  exists total us ls t, (0 < total)%Z /\ updates us (tracker_new total 0) = (Ok ls, t) /\
    exists l, In l ls /\ ln_blocks l + ln_dashes l <> 30.
Proof.
  exists 8%Z, [(9%Z, 4%Q)]. do 2 eexists. split; [lia|]. split; [vm_compute; reflexivity|].
  eexists. split; [now left|]. cbn. discriminate.
Qed.

(** Nothing to do: finishing raises. *)
Theorem C136_finish_refuted : exists t, t = tracker_new 0 0 /\ fst (tk_finish t) = Raise EZeroDiv.
Proof. eexists. split; reflexivity. Qed.

Print Assumptions C136_bar.
Print Assumptions C136_finish_partial.
Print Assumptions C136_updates_partial.
Print Assumptions C136_grows_partial.
Print Assumptions C136_width_refuted.
Print Assumptions C136_finish_refuted.
