(** C133, C134: the profiler and the query analyser. *)

From Coq Require Import String List Arith ZArith NArith QArith Lqa Bool Lia ZifyBool ZifyNat ZifyN.
From Verif Require Import PyBase BaseLemmas PyMore ProfileModel.
Import ListNotations.
Open Scope nat_scope.

(** ** The specification *)

(** The sum of a list. *)
Fixpoint total (l : list Q) : Q := match l with [] => 0%Q | x :: l' => (x + total l')%Q end.

(** [f] describes [l]: the least and the greatest element, the sum, and the sum shared out equally. *)
Definition describes (f : figures) (l : list Q) : Prop :=
  In (fg_min f) l /\ In (fg_max f) l /\
  Forall (fun x => fg_min f <= x <= fg_max f)%Q l /\
  (fg_total f == total l)%Q /\
  (fg_avg f * inject_Z (Z.of_nat (length l)) == total l)%Q /\
  (fg_min f <= fg_avg f <= fg_max f)%Q.

(** How a program ends, and the measured blocks it leaves, in that order; no clock involved. *)
Fixpoint ended (p : prog) : result unit * list pystr :=
  match p with
  | PDone | PWork _ _ => (Ok tt, [])
  | PFail e => (Raise e, [])
  | PSeq p q =>
      match ended p with
      | (Ok _, l) => (fst (ended q), l ++ snd (ended q))
      | (Raise e, l) => (Raise e, l)
      end
  | PTry p q =>
      match ended p with
      | (Ok _, l) => (Ok tt, l)
      | (Raise _, l) => (fst (ended q), l ++ snd (ended q))
      end
  | PMeasure n p => (fst (ended p), snd (ended p) ++ [n])
  end.

(** The same program without the profiler. *)
Fixpoint plain (p : prog) : prog :=
  match p with
  | PSeq p q => PSeq (plain p) (plain q)
  | PTry p q => PTry (plain p) (plain q)
  | PMeasure _ p => plain p
  | _ => p
  end.

(** The clock is never set back. *)
Fixpoint forward (p : prog) : Prop :=
  match p with
  | PWork dt _ => (0 <= dt)%Q
  | PSeq p q | PTry p q => forward p /\ forward q
  | PMeasure _ p => forward p
  | _ => True
  end.

(** [p] has a block named [n] in its text. *)
Fixpoint mentions (n : pystr) (p : prog) : Prop :=
  match p with
  | PSeq p q | PTry p q => mentions n p \/ mentions n q
  | PMeasure m p => m = n \/ mentions n p
  | _ => False
  end.

(** No block named [n] within another of that name. *)
Fixpoint unnested (n : pystr) (p : prog) : Prop :=
  match p with
  | PSeq p q | PTry p q => unnested n p /\ unnested n q
  | PMeasure m p => unnested n p /\ (m = n -> ~ mentions n p)
  | _ => True
  end.

Definition occurs (n : pystr) (l : list pystr) : nat := length (filter (eqb n) l).

(** ** Summaries *)

Lemma fold_plus l : forall a, (fold_left Qplus l a == a + total l)%Q.
Proof. induction l as [|x l IH]; intros a; cbn [fold_left total]; [lra|]. rewrite IH. lra. Qed.

Lemma fold_pick (ge : Q -> Q -> Prop) (pick : Q -> Q -> bool) :
  (forall a b, pick a b = true -> ge b a) -> (forall a b, pick a b = false -> ge a b) ->
  (forall a, ge a a) -> (forall a b c, ge a b -> ge b c -> ge a c) ->
  forall l x, let m := fold_left (fun a b => if pick a b then a else b) l x in
    In m (x :: l) /\ Forall (fun y => ge y m) (x :: l).
Proof.
  intros G1 G2 Gr Gt. induction l as [|y l IH]; intros x; cbn [fold_left].
  - split; [now left|]. constructor; auto.
  - destruct (pick x y) eqn:E.
    + destruct (IH x) as (I1 & I2). inversion I2 as [|? ? Ix Il]; subst. split.
      * destruct I1 as [I1|I1]; [now left|right; now right].
      * constructor; auto. constructor; auto. apply Gt with x; auto.
    + destruct (IH y) as (I1 & I2). inversion I2 as [|? ? Iy Il]; subst. split.
      * destruct I1 as [I1|I1]; right; [now left|now right].
      * constructor; [apply Gt with y; auto|]. constructor; auto.
Qed.

Lemma total_bounds a b l : Forall (fun x => a <= x <= b)%Q l ->
  (a * inject_Z (Z.of_nat (length l)) <= total l <= b * inject_Z (Z.of_nat (length l)))%Q.
Proof.
  induction 1 as [|x l Hx Hl IH]; cbn [total length]; [change (inject_Z (Z.of_nat 0)) with 0%Q; lra|].
  rewrite Nat2Z.inj_succ, <- Z.add_1_l, inject_Z_plus. change (inject_Z 1) with 1%Q.
  rewrite !Qmult_plus_distr_r. destruct Hx, IH. split; lra.
Qed.

Lemma figures_of_spec l : l <> [] -> exists f, figures_of l = Ok f /\ describes f l.
Proof.
  intros Hl. destruct l as [|x l]; [congruence|]. unfold figures_of. cbn [rbind py_min py_max py_avg].
  eexists. split; [reflexivity|]. unfold describes. cbn [fg_min fg_max fg_avg fg_total].
  set (a := fold_left _ l x). set (b := fold_left _ l x).
  destruct (fold_pick (fun a b => b <= a)%Q (fun a b => Qle_bool a b)) with (l := l) (x := x) as (A1 & A2).
  { intros u v E. now apply Qle_bool_iff. }
  { intros u v E. destruct (Qlt_le_dec v u) as [G|G]; [lra|]. apply Qle_bool_iff in G. congruence. }
  { intros; lra. } { intros; lra. }
  destruct (fold_pick (fun a b => a <= b)%Q (fun a b => Qle_bool b a)) with (l := l) (x := x) as (B1 & B2).
  { intros u v E. now apply Qle_bool_iff. }
  { intros u v E. destruct (Qlt_le_dec u v) as [G|G]; [lra|]. apply Qle_bool_iff in G. congruence. }
  { intros; lra. } { intros; lra. }
  fold a in A1, A2. fold b in B1, B2.
  assert (AB : Forall (fun y => a <= y <= b)%Q (x :: l)).
  { apply Forall_forall. intros y Hy. rewrite Forall_forall in A2, B2. split; [apply A2|apply B2]; auto. }
  assert (Hs : (py_sum (x :: l) == total (x :: l))%Q).
  { unfold py_sum. rewrite fold_plus. lra. }
  pose proof (total_bounds _ _ _ AB) as HT.
  set (c := inject_Z (Z.of_nat (length (x :: l)))) in *.
  assert (Hc : (0 < c)%Q) by (unfold c, Qlt; cbn; lia).
  assert (Hd : (py_sum (x :: l) / c * c == total (x :: l))%Q) by (rewrite <- Hs; field; lra).
  repeat split; auto.
  - apply Qle_shift_div_l; auto. rewrite Hs. apply HT.
  - apply Qle_shift_div_r; auto. rewrite Hs. apply HT.
Qed.

(** ** The profiler *)

Definition dur (l : list measurement) : Q := total (map me_duration l).

Lemma total_app l1 l2 : (total (l1 ++ l2) == total l1 + total l2)%Q.
Proof. induction l1 as [|x l IH]; cbn [app total]; [lra|]. rewrite IH. lra. Qed.

Lemma measured_dset n m l w t k :
  measured n (MkWorld t k (dset m l (w_measurements w))) = if eqb n m then l else measured n w.
Proof. unfold measured. cbn [w_measurements]. rewrite dget_dset. now destruct (eqb n m). Qed.

Lemma occurs_app n l1 l2 : occurs n (l1 ++ l2) = occurs n l1 + occurs n l2.
Proof. unfold occurs. rewrite filter_app, app_length. reflexivity. Qed.

Lemma mentions_occurs n p : ~ mentions n p -> occurs n (snd (ended p)) = 0.
Proof.
  induction p; cbn [mentions ended]; intros Hm; auto.
  - destruct (ended p1) as [[[]|e] l]; cbn [snd] in *; [rewrite occurs_app, IHp1, IHp2|]; tauto.
  - destruct (ended p1) as [[[]|e] l]; cbn [snd] in *; [|rewrite occurs_app, IHp1, IHp2]; tauto.
  - cbn [snd]. rewrite occurs_app, IHp by tauto. unfold occurs. cbn [filter].
    destruct (eqb_spec n name) as [->|]; [tauto|reflexivity].
Qed.

(** What a run adds under the name [n]. *)
Definition adds (n : pystr) (p : prog) (w w' : world) (new : list measurement) : Prop :=
  measured n w' = measured n w ++ new /\
  length new = occurs n (snd (ended p)) /\
  (forward p ->
     Forall (fun m => 0 <= me_duration m /\ w_clock w + me_duration m <= me_timestamp m <= w_clock w')%Q new) /\
  (forward p -> unnested n p -> (dur new <= w_clock w' - w_clock w)%Q).

Lemma adds_seq n p q r w w1 w2 new1 new2 :
  (forward r -> forward p /\ forward q) -> (unnested n r -> unnested n p /\ unnested n q) ->
  snd (ended r) = snd (ended p) ++ snd (ended q) ->
  (forward p -> w_clock w <= w_clock w1)%Q -> (forward q -> w_clock w1 <= w_clock w2)%Q ->
  adds n p w w1 new1 -> adds n q w1 w2 new2 -> adds n r w w2 (new1 ++ new2).
Proof.
  intros Hf Hu He C1 C2 (A1 & A2 & A3 & A4) (B1 & B2 & B3 & B4). split; [|split; [|split]].
  - rewrite B1, A1. symmetry. apply app_assoc.
  - rewrite He, occurs_app, app_length. lia.
  - intros F. destruct (Hf F) as (F1 & F2). specialize (C1 F1). specialize (C2 F2). apply Forall_app. split.
    + eapply Forall_impl; [|apply A3; auto]. cbn. intros m. lra.
    + eapply Forall_impl; [|apply B3; auto]. cbn. intros m. lra.
  - intros F U. destruct (Hf F) as (F1 & F2). destruct (Hu U) as (U1 & U2).
    specialize (A4 F1 U1). specialize (B4 F2 U2). unfold dur in *. rewrite map_app, total_app. lra.
Qed.

Lemma run_spec p : forall w,
  fst (run p w) = fst (ended p) /\
  (forward p -> w_clock w <= w_clock (snd (run p w)))%Q /\
  forall n, exists new, adds n p w (snd (run p w)) new.
Proof.
  assert (Nil : forall n q (w w' : world), snd (ended q) = [] -> w_measurements w' = w_measurements w ->
    (forward q -> w_clock w <= w_clock w')%Q -> adds n q w w' []).
  { intros n q w w' E1 E2 E3. unfold adds, measured. rewrite E1, E2, app_nil_r.
    split; [reflexivity|]. split; [reflexivity|]. split; [constructor|]. intros F _. specialize (E3 F). cbn. lra. }
  induction p as [|dt dm|p1 IH1 p2 IH2|e|p1 IH1 p2 IH2|m p IH]; intros w; cbn [run ended fst].
  - split; [reflexivity|]. cbn. split; [lra|]. intros n. exists []. apply Nil; auto. cbn. lra.
  - split; [reflexivity|]. cbn. split; [lra|]. intros n. exists []. apply Nil; auto. cbn. lra.
  - destruct (IH1 w) as (R1 & C1 & N1). unfold bind. destruct (run p1 w) as [[[]|e] w1] eqn:E; cbn [fst snd] in R1, C1, N1.
    + destruct (IH2 w1) as (R2 & C2 & N2). destruct (ended p1) as [[[]|e] l] eqn:El; cbn in R1; try discriminate.
      cbn [fst]. split; [exact R2|]. split; [intros (F1 & F2); specialize (C1 F1); specialize (C2 F2); lra|].
      intros n. destruct (N1 n) as (new1 & A1). destruct (N2 n) as (new2 & A2). exists (new1 ++ new2).
      eapply adds_seq with (p := p1) (q := p2) (w1 := w1); eauto. cbn [ended]. now rewrite El.
    + destruct (ended p1) as [[[]|e'] l] eqn:El; cbn in R1; try discriminate. injection R1 as ->.
      cbn [fst snd]. split; [reflexivity|]. split; [intros (F1 & _); auto|].
      intros n. destruct (N1 n) as (new1 & A1 & A2 & A3 & A4). exists new1. unfold adds. cbn [ended]. rewrite El.
      rewrite El in A2. split; [auto|]. split; [exact A2|]. split; [intros (F1 & _); auto|].
      intros (F1 & _) (U1 & _); auto.
  - split; [reflexivity|]. cbn. split; [lra|]. intros n. exists []. apply Nil; auto. cbn. lra.
  - destruct (IH1 w) as (R1 & C1 & N1). unfold catch. destruct (run p1 w) as [[[]|e] w1] eqn:E; cbn [fst snd] in R1, C1, N1.
    + destruct (ended p1) as [[[]|e] l] eqn:El; cbn in R1; try discriminate.
      cbn [fst snd]. split; [reflexivity|]. split; [intros (F1 & _); auto|].
      intros n. destruct (N1 n) as (new1 & A1 & A2 & A3 & A4). exists new1. unfold adds. cbn [ended]. rewrite El.
      rewrite El in A2. split; [auto|]. split; [exact A2|]. split; [intros (F1 & _); auto|].
      intros (F1 & _) (U1 & _); auto.
    + destruct (IH2 w1) as (R2 & C2 & N2). destruct (ended p1) as [[[]|e'] l] eqn:El; cbn in R1; try discriminate.
      cbn [fst]. split; [exact R2|]. split; [intros (F1 & F2); specialize (C1 F1); specialize (C2 F2); lra|].
      intros n. destruct (N1 n) as (new1 & A1). destruct (N2 n) as (new2 & A2). exists (new1 ++ new2).
      eapply adds_seq with (p := p1) (q := p2) (w1 := w1); eauto. cbn [ended]. now rewrite El.
  - destruct (IH w) as (R & C & N). unfold measure. destruct (run p w) as [r w1] eqn:E; cbn [fst snd] in *.
    split; [exact R|]. cbn [w_clock]. split; [exact C|].
    intros n. destruct (N n) as (new & A1 & A2 & A3 & A4).
    set (mm := MkMeas _ _ _). exists (new ++ if eqb n m then [mm] else []). unfold adds.
    rewrite measured_dset. cbn [w_clock ended snd]. rewrite occurs_app. cbn [forward unnested].
    destruct (eqb_spec n m) as [->|Hn].
    + split; [rewrite A1, app_assoc; reflexivity|].
      split; [rewrite app_length, A2; unfold occurs; cbn [filter]; rewrite eqb_refl; reflexivity|]. split.
      * intros F. specialize (C F). apply Forall_app. split; [auto|]. constructor; [|constructor].
        cbn [mm me_duration me_timestamp]. lra.
      * intros F (U & Hm). specialize (Hm eq_refl). specialize (C F).
        rewrite (mentions_occurs m p Hm) in A2. apply length_zero_iff_nil in A2 as ->.
        unfold dur. cbn [app map total mm me_duration]. lra.
    + rewrite app_nil_r. split; [exact A1|].
      split; [rewrite A2; unfold occurs; cbn [filter]; rewrite eqb_neq by auto; cbn; lia|].
      split; [exact A3|]. intros F (U & _). auto.
Qed.

(** The profiler does not change how a program ends nor the time it takes. *)
Theorem C133_transparent p : forall w,
  let (r, w') := run p w in
  let (r0, w0) := run (plain p) w in
  r0 = r /\ w_clock w0 = w_clock w' /\ w_memory w0 = w_memory w' /\ w_measurements w0 = w_measurements w.
Proof.
  assert (G : forall p w v, w_clock v = w_clock w -> w_memory v = w_memory w ->
    let (r, w') := run p w in let (r0, w0) := run (plain p) v in
    r0 = r /\ w_clock w0 = w_clock w' /\ w_memory w0 = w_memory w' /\ w_measurements w0 = w_measurements v).
  { clear p. induction p as [|dt dm|p1 IH1 p2 IH2|e|p1 IH1 p2 IH2|m p IH]; intros w v Ec Em; cbn [run plain].
    - cbn. auto.
    - cbn. rewrite Ec, Em. auto.
    - unfold bind. specialize (IH1 w v Ec Em). destruct (run p1 w) as [[[]|e] w1], (run (plain p1) v) as [[[]|e0] v1];
        destruct IH1 as (I1 & I2 & I3 & I4); try discriminate.
      + specialize (IH2 w1 v1 I2 I3). destruct (run p2 w1) as [r w2], (run (plain p2) v1) as [r0 v2].
        destruct IH2 as (J1 & J2 & J3 & J4). repeat split; auto. congruence.
      + repeat split; auto.
    - cbn. auto.
    - unfold catch. specialize (IH1 w v Ec Em). destruct (run p1 w) as [[[]|e] w1], (run (plain p1) v) as [[[]|e0] v1];
        destruct IH1 as (I1 & I2 & I3 & I4); try discriminate.
      + repeat split; auto.
      + specialize (IH2 w1 v1 I2 I3). destruct (run p2 w1) as [r w2], (run (plain p2) v1) as [r0 v2].
        destruct IH2 as (J1 & J2 & J3 & J4). repeat split; auto. congruence.
    - unfold measure. specialize (IH w v Ec Em). destruct (run p w) as [r w1], (run (plain p) v) as [r0 v1].
      destruct IH as (I1 & I2 & I3 & I4). cbn. auto. }
  intros w. apply G; reflexivity.
Qed.

(** Every block that is left, in whatever way, adds one measurement under its name, after those there
    were; with a clock that is never set back its duration is not negative and it lies within the run. *)
Theorem C133_measured p w n :
  exists new, measured n (snd (run p w)) = measured n w ++ new /\
    length new = occurs n (snd (ended p)) /\
    (forward p ->
       Forall (fun m => 0 <= me_duration m /\
                 w_clock w + me_duration m <= me_timestamp m <= w_clock (snd (run p w)))%Q new).
Proof. destruct (run_spec p w) as (_ & _ & N). destruct (N n) as (new & A1 & A2 & A3 & _). eauto. Qed.

(** The blocks of a name that are not nested in one another take no longer together than the run. *)
Theorem C133_total_partial p w n : forward p -> unnested n p -> measured n w = [] ->
  (total (map me_duration (measured n (snd (run p w)))) <= w_clock (snd (run p w)) - w_clock w)%Q.
Proof.
  intros F U E. destruct (run_spec p w) as (_ & _ & N). destruct (N n) as (new & A1 & _ & _ & A4).
  rewrite A1, E. cbn [app]. exact (A4 F U).
Qed.

Definition fresh_world (t m : Q) : world := MkWorld t m [].

Lemma run_good p : forall w,
  NoDup (dkeys (w_measurements w)) /\ Forall (fun kl => snd kl <> []) (w_measurements w) ->
  NoDup (dkeys (w_measurements (snd (run p w)))) /\ Forall (fun kl => snd kl <> []) (w_measurements (snd (run p w))).
Proof.
  induction p as [|dt dm|p1 IH1 p2 IH2|e|p1 IH1 p2 IH2|m p IH]; intros w Hw; cbn [run]; try exact Hw.
  - unfold bind. specialize (IH1 w Hw). destruct (run p1 w) as [[[]|e] w1]; cbn [snd] in *; auto.
  - unfold catch. specialize (IH1 w Hw). destruct (run p1 w) as [[[]|e] w1]; cbn [snd] in *; auto.
  - unfold measure. specialize (IH w Hw). destruct (run p w) as [r w1]. cbn [snd w_measurements] in *.
    destruct IH as (I1 & I2). split; [now apply NoDup_dkeys_dset|].
    assert (Hl : forall mm, measured m w1 ++ [mm] <> []) by (intros mm E; now apply app_eq_nil in E as (_ & E)).
    generalize (measured m w1 ++ [MkMeas (w_clock w1 - w_clock w) (w_memory w1 - w_memory w) (w_clock w1)]), (Hl (MkMeas (w_clock w1 - w_clock w) (w_memory w1 - w_memory w) (w_clock w1))).
    clear - I2. intros l Hl. induction (w_measurements w1) as [|(k, v) d IH]; cbn [dset].
    + constructor; auto.
    + inversion I2; subst. destruct (eqb m k); constructor; auto.
Qed.

(** The summary of a run answers: it names the operations with a block that was left, each once, with
    the number of those blocks and figures that describe their durations and memory. *)
Theorem C133_summary p t m : let w := snd (run p (fresh_world t m)) in
  exists s, get_summary w = Ok s /\ NoDup (dkeys s) /\
    forall n,
      (dget n s = None <-> ~ In n (snd (ended p))) /\
      (forall o, dget n s = Some o ->
         os_count o = occurs n (snd (ended p)) /\
         describes (os_duration o) (map me_duration (measured n w)) /\
         describes (os_memory o) (map me_memory (measured n w))).
Proof.
  intros w. destruct (run_good p (fresh_world t m)) as (Hn & Hg); [split; constructor|]. fold w in Hn, Hg.
  assert (G : forall d, Forall (fun kl : pystr * list measurement => snd kl <> []) d -> exists s,
    rmap (fun kl : pystr * list measurement => let (operation, ms) := kl in
          rbind (figures_of (map me_duration ms)) (fun d =>
          rbind (figures_of (map me_memory ms)) (fun m =>
          Ok (operation, MkOpSummary (length ms) d m)))) d = Ok s /\ dkeys s = dkeys d /\
    forall n, match dget n s, dget n d with
              | None, None => True
              | Some o, Some l => os_count o = length l /\ describes (os_duration o) (map me_duration l) /\
                                  describes (os_memory o) (map me_memory l)
              | _, _ => False
              end).
  { induction d as [|(k, l) d IH]; intros Hd; [exists []; repeat split; intros; exact I|].
    inversion Hd as [|? ? Hl Hd']; subst. cbn [snd] in Hl. destruct (IH Hd') as (s & E & Ek & Es).
    destruct (figures_of_spec (map me_duration l)) as (f & Ef & Df); [intros G; now apply map_eq_nil in G|].
    destruct (figures_of_spec (map me_memory l)) as (g & Eg & Dg); [intros G; now apply map_eq_nil in G|].
    exists ((k, MkOpSummary (length l) f g) :: s). cbn [rmap]. rewrite Ef, Eg. cbn [rbind].
    rewrite E. split; [reflexivity|]. split; [unfold dkeys in *; cbn [map fst]; now rewrite Ek|].
    intros n. cbn [dget]. destruct (eqb n k); [cbn; auto|apply Es]. }
  destruct (G _ Hg) as (s & E & Ek & Es). exists s. unfold get_summary. split; [exact E|]. split; [now rewrite Ek|].
  intros n. specialize (Es n). destruct (C133_measured p (fresh_world t m) n) as (new & E1 & E2 & _).
  fold w in E1. cbn in E1. unfold measured in E1 |- *.
  assert (Ho : In n (snd (ended p)) <-> occurs n (snd (ended p)) <> 0).
  { unfold occurs. split.
    - intros Hin E0. apply length_zero_iff_nil in E0.
      assert (Hf : In n (filter (eqb n) (snd (ended p)))) by (apply filter_In; split; [auto|apply eqb_refl]).
      rewrite E0 in Hf. destruct Hf.
    - intros H0. destruct (filter _ _) as [|x l] eqn:Ef; [now cbn in H0|].
      assert (Hx : In x (filter (eqb n) (snd (ended p)))) by (rewrite Ef; now left).
      apply filter_In in Hx as (Hx & Ex). destruct (eqb_spec n x) as [->|]; [exact Hx|discriminate]. }
  destruct (dget n (w_measurements w)) as [l|] eqn:El, (dget n s) as [o|]; try contradiction.
  - destruct Es as (S1 & S2 & S3). assert (Hl : l <> []).
    { apply dget_Some_In in El. rewrite Forall_forall in Hg. exact (Hg _ El). }
    split; [split; [discriminate|]; intros Hi; exfalso; apply Hi, Ho; rewrite <- E2, <- E1; now destruct l|].
    intros o' [= <-]. rewrite S1, <- E2, <- E1. auto.
  - split; [|discriminate]. split; [|auto]. intros _ Hi. apply Ho in Hi. rewrite <- E2, <- E1 in Hi. now apply Hi.
Qed.

(** ** The query analyser *)

(** A query: its results (by their distances), the number asked for, the time taken. *)
Definition query : Type := (list (option Q) * Z * Q)%type.
Definition ask (h : list query_stats) (q : query) : list query_stats :=
  match q with (rs, k, t) => snd (analyze_query rs k t h) end.
Definition history (qs : list query) : list query_stats := fold_left ask qs [].
Definition complete (q : query) : bool :=
  forallb (fun r => match r with Some _ => true | None => false end) (fst (fst q)).
Definition distances (q : query) : list Q :=
  flat_map (fun r => match r with Some d => [d] | None => [] end) (fst (fst q)).

Lemma rmap_distances (rs : list (option Q)) :
  rmap (fun r => match r with Some d => Ok d | None => Raise EKey end) rs =
    if forallb (fun r => match r with Some _ => true | None => false end) rs
    then Ok (flat_map (fun r => match r with Some d => [d] | None => [] end) rs) else Raise EKey.
Proof.
  induction rs as [|[d|] rs IH]; [reflexivity| |reflexivity]. cbn [rmap rbind forallb andb flat_map app]. rewrite IH.
  destruct (forallb _ rs); reflexivity.
Qed.

(** Analysing a query answers exactly when every result has a distance, and then adds one entry to the
    history; otherwise it raises KeyError and adds none. *)
Theorem C134_query (h : list query_stats) (q : query) :
  let a := analyze_query (fst (fst q)) (snd (fst q)) (snd q) h in
  (complete q = false -> a = (Raise EKey, h)) /\
  (complete q = true -> exists s, a = (Ok s, h ++ [s]) /\
     qs_count s = length (fst (fst q)) /\ qs_expected s = snd (fst q) /\ qs_time s = snd q /\
     (qs_distances s = None <-> fst (fst q) = []) /\
     (forall mean low high, qs_distances s = Some (mean, low, high) ->
        describes (MkFigures low high mean (total (distances q))) (distances q))).
Proof.
  destruct q as ((rs & k) & t). unfold complete, distances, analyze_query. cbn [fst snd].
  destruct rs as [|r0 rs]; [split; [discriminate|]|].
  { intros _. eexists. split; [reflexivity|]. cbn. repeat split; auto; discriminate. }
  set (l := r0 :: rs). change (match l with [] => Ok None | _ => ?x end) with x.
  rewrite rmap_distances. destruct (forallb _ l) eqn:El; [|split; [reflexivity|discriminate]].
  split; [discriminate|]. intros _. cbn [rbind].
  assert (Hd : flat_map (fun r : option Q => match r with Some d => [d] | None => [] end) l <> []).
  { unfold l in *. destruct r0; [discriminate|]. discriminate. }
  set (ds := flat_map _ l) in *. destruct (figures_of_spec ds Hd) as (f & Ef & Df).
  unfold figures_of in Ef. destruct (py_min ds) as [a|]; [|discriminate]. destruct (py_max ds) as [b|]; [|discriminate].
  cbn [rbind] in *. destruct (py_avg ds) as [c|]; [|discriminate]. cbn [rbind] in *. injection Ef as <-.
  eexists. split; [reflexivity|]. cbn [qs_count qs_expected qs_time qs_distances].
  split; [reflexivity|]. split; [reflexivity|]. split; [reflexivity|]. split; [split; discriminate|].
  intros mean low high [= <- <- <-]. unfold describes in *. cbn [fg_min fg_max fg_avg fg_total] in *.
  intuition auto. reflexivity.
Qed.

(** The patterns count the queries that were analysed and describe their times and result counts; with
    none there is nothing to report. *)
Theorem C134_patterns (qs : list query) :
  let good := filter complete qs in
  (good = [] -> analyze_query_patterns (history qs) = Ok None) /\
  (good <> [] -> exists t c, analyze_query_patterns (history qs) = Ok (Some (length good, t, c)) /\
     describes t (map snd good) /\
     describes c (map (fun q => inject_Z (Z.of_nat (length (fst (fst q))))) good)).
Proof.
  intros good.
  assert (G : forall qs h, map qs_time (fold_left ask qs h) = map qs_time h ++ map snd (filter complete qs) /\
    map qs_count (fold_left ask qs h) = map qs_count h ++ map (fun q => length (fst (fst q))) (filter complete qs)).
  { clear. induction qs as [|q qs IH]; intros h; cbn [fold_left filter map]; [now rewrite !app_nil_r|].
    destruct (IH (ask h q)) as (I1 & I2). rewrite I1, I2. destruct (C134_query h q) as (Q1 & Q2).
    destruct q as ((rs & k) & t). unfold ask. cbn [fst snd] in *. destruct (complete (rs, k, t)).
    - destruct (Q2 eq_refl) as (s & E & E1 & _ & E2 & _). rewrite E. cbn [snd map fst].
      rewrite !map_app, <- !app_assoc. cbn [map app]. rewrite E1, E2. auto.
    - rewrite (Q1 eq_refl). cbn [snd]. auto. }
  destruct (G qs []) as (Gt & Gc). cbn [map app] in Gt, Gc. fold (history qs) in Gt, Gc. fold good in Gt, Gc.
  assert (El : length (history qs) = length good).
  { rewrite <- (map_length qs_time), Gt. apply map_length. }
  unfold analyze_query_patterns. split; intros Hg.
  - rewrite Hg in El. apply length_zero_iff_nil in El as ->. reflexivity.
  - destruct (history qs) as [|s h] eqn:Eh.
    { exfalso. apply Hg. symmetry in El. now apply length_zero_iff_nil in El. }
    rewrite <- Eh in *. clear Eh s h.
    replace (map (fun q => inject_Z (Z.of_nat (qs_count q))) (history qs))
      with (map (fun q : query => inject_Z (Z.of_nat (length (fst (fst q))))) good).
    2:{ change (fun q => inject_Z (Z.of_nat (qs_count q))) with (fun q => (fun n => inject_Z (Z.of_nat n)) (qs_count q)).
        rewrite <- (map_map qs_count (fun n => inject_Z (Z.of_nat n))), Gc, map_map. reflexivity. }
    rewrite Gt.
    destruct (figures_of_spec (map snd good)) as (t & Et & Dt); [intros E; now apply map_eq_nil in E|].
    destruct (figures_of_spec (map (fun q : query => inject_Z (Z.of_nat (length (fst (fst q))))) good)) as (c & Ec & Dc);
      [intros E; now apply map_eq_nil in E|].
    rewrite Et, Ec. cbn [rbind]. rewrite El. exists t, c. auto.
Qed.

(** ** Concrete cases *)

(** A block that raises within a block that catches it, and a second one. *)
Definition demo_prog : prog :=
  PSeq (PMeasure (py "load") (PTry (PMeasure (py "read") (PSeq (PWork 2 1) (PFail EOs))) (PWork 1 0)))
       (PMeasure (py "read") (PWork 4 (-1))).

Example C133_hypotheses_met :
  forward demo_prog /\ unnested (py "read") demo_prog /\
  ended demo_prog = (Ok tt, [py "read"; py "load"; py "read"]) /\
  measured (py "read") (snd (run demo_prog (fresh_world 10 5))) = [MkMeas 2 1 12; MkMeas 4 (-1) 17] /\
  get_summary (snd (run demo_prog (fresh_world 10 5))) =
    Ok [(py "read", MkOpSummary 2 (MkFigures 2 4 (6 # 2) 6) (MkFigures (-1) 1 (0 # 2) 0));
        (py "load", MkOpSummary 1 (MkFigures 3 3 (3 # 1) 3) (MkFigures 1 1 (1 # 1) 1))].
Proof.
  split; [cbn; repeat split; lra|].
  split; [cbn [unnested demo_prog mentions]; repeat split; try (intros E; vm_compute in E; discriminate); intros _; tauto|].
  vm_compute. repeat split.
Qed.

(** A block nested in one of its own name: the total is more than the time the run took. *)
Theorem C133_total_refuted :
  exists p n, forward p /\
    ~ (total (map me_duration (measured n (snd (run p (fresh_world 0 0))))) <=
       w_clock (snd (run p (fresh_world 0 0))) - 0)%Q.
Proof.
  exists (PMeasure (py "f") (PMeasure (py "f") (PWork 3 0))), (py "f"). split; [cbn; lra|].
  intros H. vm_compute in H. congruence.
Qed.

Example C134_query_met :
  let q : query := ([Some 2; Some 5; Some 2], 10%Z, 1 # 4)%Q in
  complete q = true /\ complete ([Some 2; None], 10%Z, 1 # 4)%Q = false /\
  exists s, analyze_query (fst (fst q)) (snd (fst q)) (snd q) [] = (Ok s, [s]) /\
    qs_count s = 3 /\ exists mean, qs_distances s = Some (mean, 2, 5)%Q /\ (mean == 3)%Q.
Proof.
  cbn zeta. split; [reflexivity|]. split; [reflexivity|]. eexists. split; [reflexivity|]. split; [reflexivity|].
  eexists. split; [reflexivity|]. reflexivity.
Qed.

Example C134_patterns_met :
  filter complete [([Some 2; None], 10%Z, 1 # 4); ([], 1%Z, 1); ([Some 3], 1%Z, 3)]%Q =
    [([], 1%Z, 1); ([Some 3], 1%Z, 3)]%Q /\
  exists t c, analyze_query_patterns (history [([Some 2; None], 10%Z, 1 # 4); ([], 1%Z, 1); ([Some 3], 1%Z, 3)]%Q) =
    Ok (Some (2, t, c)) /\ (fg_avg t == 2)%Q /\ (fg_avg c == 1 # 2)%Q.
Proof. split; [reflexivity|]. do 2 eexists. split; [reflexivity|]. split; reflexivity. Qed.

Print Assumptions C133_transparent.
Print Assumptions C133_measured.
Print Assumptions C133_total_partial.
Print Assumptions C133_summary.
Print Assumptions C133_total_refuted.
Print Assumptions C134_query.
Print Assumptions C134_patterns.
