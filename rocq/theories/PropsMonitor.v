(** C135, C136: the resource monitor and the progress bar. *)

From Coq Require Import String List Arith ZArith NArith QArith Qround Lqa Bool Lia ZifyBool ZifyNat ZifyN Sorted.
From Verif Require Import PyBase BaseLemmas PyMore ProfileModel PropsProfile MonitorModel.
Import ListNotations.
Open Scope nat_scope.

(** ** The resource monitor *)

Definition alive (p : tpc) : bool := match p with TDone => false | _ => true end.
Definition live_threads (s : mstate) : nat := length (filter alive (ms_threads s)).

(** All threads but the last are done. *)
Definition old_done (l : list tpc) : Prop := forall t, S t < length l -> nth_error l t = Some TDone.
Definition all_done (l : list tpc) : Prop := Forall (eq TDone) l.

Definition attr_ok (s : mstate) : Prop :=
  ms_thread s = match ms_threads s with [] => None | _ => Some (length (ms_threads s) - 1) end.

Definition minv (s : mstate) : Prop :=
  attr_ok s /\ old_done (ms_threads s) /\
  exists p, ms_callers s = [p] /\
    match p with
    | CIdle | CStart | CStop => ms_monitoring s = false -> all_done (ms_threads s)
    | CStartSet => ms_monitoring s = false /\ all_done (ms_threads s)
    | CStartThread => ms_monitoring s = true /\ all_done (ms_threads s)
    | CStopTest => ms_monitoring s = false
    | CJoin t => ms_monitoring s = false /\ S t = length (ms_threads s)
    end.

Lemma all_old l : all_done l -> old_done l.
Proof.
  intros H t Ht. destruct (nth_error l t) as [p|] eqn:E.
  - apply nth_error_In in E. unfold all_done in H. rewrite Forall_forall in H. now rewrite <- (H p E).
  - apply nth_error_None in E. lia.
Qed.

Lemma last_done l t : old_done l -> S t = length l -> nth_error l t = Some TDone -> all_done l.
Proof.
  intros Ho Hl Ht. apply Forall_forall. intros p Hp. apply In_nth_error in Hp as (i & E).
  assert (i < length l) by (apply nth_error_Some; congruence).
  destruct (Nat.eq_dec i t) as [->|]; [congruence|]. rewrite (Ho i) in E by lia. congruence.
Qed.

Lemma minv_new : minv (mnew 1).
Proof.
  split; [reflexivity|]. split; [intros t Ht; cbn in Ht; lia|]. exists CIdle. split; [reflexivity|].
  intros _. constructor.
Qed.

Lemma thread_step_inv t e s s' : minv s -> thread_step t e s = Some s' -> minv s'.
Proof.
  intros (A & O & p & Ep & Hp) E. unfold thread_step in E.
  assert (G : forall q d, nth_error (ms_threads s) t <> Some TDone -> t < length (ms_threads s) ->
    minv (MkMstate (ms_monitoring s) (ms_thread s) d (set_nth t q (ms_threads s)) (ms_callers s))).
  { intros q d Hn Ht.
    assert (El : S t = length (ms_threads s)).
    { destruct (Nat.eq_dec (S t) (length (ms_threads s))); auto. exfalso. apply Hn, O. lia. }
    assert (Hno : ~ all_done (ms_threads s)).
    { intros H. apply Hn. apply all_old in H as H'. destruct (nth_error (ms_threads s) t) as [x|] eqn:Ex.
      - apply nth_error_In in Ex. unfold all_done in H. rewrite Forall_forall in H. now rewrite (H x Ex).
      - apply nth_error_None in Ex. lia. }
    split; [|split].
    - unfold attr_ok in *. cbn. rewrite set_nth_length. rewrite A.
      destruct (ms_threads s); [cbn in Ht; lia|]. destruct t; reflexivity.
    - cbn. intros i Hi. rewrite set_nth_length in Hi. rewrite nth_error_set_nth. 
      destruct (Nat.eqb_spec t i) as [<-|]; [lia|]. apply O. exact Hi.
    - exists p. split; [exact Ep|]. cbn. rewrite set_nth_length. destruct p; try tauto. }
  assert (Hlt : forall x, nth_error (ms_threads s) t = Some x -> t < length (ms_threads s)).
  { intros x Ex. apply nth_error_Some. congruence. }
  destruct (nth_error (ms_threads s) t) as [[]|] eqn:Et, e; try discriminate; injection E as <-;
    apply G; try congruence; eapply Hlt; eauto.
Qed.

Lemma caller_step_inv c s s' : minv s -> caller_step c s = Some s' -> minv s'.
Proof.
  intros (A & O & p & Ep & Hp) E. unfold caller_step in E. rewrite Ep in E.
  destruct c as [|c]; [|destruct c; discriminate]. cbn [nth_error] in E.
  destruct p; try discriminate.
  - injection E as <-. unfold set_caller. split; [exact A|]. split; [exact O|]. cbn. rewrite Ep. cbn [set_nth].
    destruct (ms_monitoring s) eqn:Em; eexists; (split; [reflexivity|]); cbn; auto; congruence.
  - injection E as <-. unfold set_caller, set_monitoring. split; [exact A|]. split; [exact O|]. cbn. rewrite Ep.
    exists CStartThread. cbn. intuition auto.
  - injection E as <-. unfold set_caller. destruct Hp as (Em & Ha). split; [|split].
    + unfold attr_ok. cbn. rewrite app_length. cbn. destruct (ms_threads s); cbn; f_equal; try lia.
    + cbn. intros t Ht. rewrite app_length in Ht. cbn in Ht. rewrite nth_error_app1 by lia.
      destruct (nth_error (ms_threads s) t) as [x|] eqn:Ex.
      * apply nth_error_In in Ex. unfold all_done in Ha. rewrite Forall_forall in Ha. now rewrite (Ha x Ex).
      * apply nth_error_None in Ex. lia.
    + cbn. exists CIdle. split; [reflexivity|]. congruence.
  - injection E as <-. unfold set_caller, set_monitoring. split; [exact A|]. split; [exact O|]. cbn. rewrite Ep.
    exists CStopTest. cbn. auto.
  - injection E as <-. unfold set_caller. split; [exact A|]. split; [exact O|]. cbn. rewrite Ep. cbn [set_nth].
    eexists. split; [reflexivity|]. rewrite A. destruct (ms_threads s) as [|x l]; [intros _; constructor|].
    split; [exact Hp|]. cbn. lia.
  - destruct (nth_error (ms_threads s) t) as [[]|] eqn:Et; try discriminate. injection E as <-.
    unfold set_caller. split; [exact A|]. split; [exact O|]. cbn. rewrite Ep. exists CIdle. split; [reflexivity|].
    intros _. eapply last_done; eauto. apply Hp.
Qed.

Lemma mstep_inv l s s' : minv s -> mstep l s = Some s' -> minv s'.
Proof.
  intros Hs E. destruct l as [c|c|c|t e]; cbn [mstep] in E.
  - destruct Hs as (A & O & p & Ep & Hp). rewrite Ep in E. destruct c as [|c]; [|destruct c; discriminate].
    cbn in E. destruct p; try discriminate. injection E as <-. split; [exact A|]. split; [exact O|].
    exists CStart. unfold set_caller. cbn. rewrite Ep. auto.
  - destruct Hs as (A & O & p & Ep & Hp). rewrite Ep in E. destruct c as [|c]; [|destruct c; discriminate].
    cbn in E. destruct p; try discriminate. injection E as <-. split; [exact A|]. split; [exact O|].
    exists CStop. unfold set_caller. cbn. rewrite Ep. auto.
  - eapply caller_step_inv; eauto.
  - eapply thread_step_inv; eauto.
Qed.

Lemma mrun_inv ls : forall s s', minv s -> mrun ls s = Some s' -> minv s'.
Proof.
  induction ls as [|l ls IH]; intros s s' Hs E; cbn [mrun] in E; [now injection E as <-|].
  destruct (mstep l s) as [s1|] eqn:E1; [|discriminate]. eapply IH; [|exact E]. eapply mstep_inv; eauto.
Qed.

Lemma old_alive l : old_done l -> length (filter alive l) <= 1.
Proof.
  intros Ho. induction l as [|p l IH] using rev_ind; [cbn; lia|].
  rewrite filter_app, app_length. cbn [filter].
  assert (E : filter alive l = []).
  { clear IH. destruct (filter alive l) as [|q l'] eqn:E; auto. exfalso.
    assert (Hq : In q (filter alive l)) by (rewrite E; now left).
    apply filter_In in Hq as (Hq & Aq). apply In_nth_error in Hq as (i & Ei).
    assert (i < length l) by (apply nth_error_Some; congruence).
    specialize (Ho i). rewrite app_length, nth_error_app1 in Ho by auto. cbn in Ho.
    rewrite Ho in Ei by lia. injection Ei as <-. discriminate. }
  rewrite E. destruct (alive p); cbn; lia.
Qed.

(** One caller: at most one monitoring thread runs at any time; once [stop_monitoring] has returned
    nothing is read until the next [start_monitoring]. *)
Theorem C135_one_caller_partial ls s : mrun ls (mnew 1) = Some s ->
  live_threads s <= 1 /\
  (ms_monitoring s = false -> nth_error (ms_callers s) 0 = Some CIdle ->
     live_threads s = 0 /\ forall t e, mstep (LThread t e) s = None).
Proof.
  intros E. destruct (mrun_inv ls _ _ minv_new E) as (A & O & p & Ep & Hp).
  split; [now apply old_alive|]. intros Em Ec. rewrite Ep in Ec. injection Ec as ->. specialize (Hp Em).
  unfold all_done in Hp. rewrite Forall_forall in Hp. split.
  - unfold live_threads. clear - Hp. induction (ms_threads s) as [|x l IH]; auto. cbn.
    rewrite <- (Hp x) by now left. apply IH. intros y Hy. apply Hp. now right.
  - intros t e. cbn. unfold thread_step. destruct (nth_error (ms_threads s) t) as [x|] eqn:Ex; auto.
    apply nth_error_In in Ex. rewrite <- (Hp x Ex). reflexivity.
Qed.

Definition rank (p : tpc) : nat :=
  match p with TDone => 0 | TTest => 1 | TSleep | TImport => 2 | TRead => 3 end.
Definition is_thread (l : mlabel) : Prop := match l with LThread _ _ => True | _ => False end.

(** One caller: [stop_monitoring] returns after at most three more steps of the thread. *)
Theorem C135_stop_returns_partial ls s t : mrun ls (mnew 1) = Some s -> nth_error (ms_callers s) 0 = Some (CJoin t) ->
  (forall ls' s', Forall is_thread ls' -> mrun ls' s = Some s' -> length ls' <= 3) /\
  ((exists s', mstep (LCaller 0) s = Some s') \/ (forall e, exists s', mstep (LThread t e) s = Some s')).
Proof.
  intros E Ec. pose proof (mrun_inv ls _ _ minv_new E) as I. split.
  - assert (G : forall ls' s s', minv s -> nth_error (ms_callers s) 0 = Some (CJoin t) -> Forall is_thread ls' ->
      mrun ls' s = Some s' -> exists p, nth_error (ms_threads s) t = Some p /\ length ls' <= rank p).
    { clear. induction ls' as [|l ls' IH]; intros s s' I Ec Hl E.
      - destruct I as (A & O & p & Ep & Hp). rewrite Ep in Ec. injection Ec as ->. destruct Hp as (_ & Hp).
        destruct (nth_error (ms_threads s) t) as [p|] eqn:Et; [|apply nth_error_None in Et; lia].
        exists p. split; [reflexivity|cbn; lia].
      - inversion Hl as [|? ? H1 H2]; subst. destruct l as [c|c|c|i e]; try contradiction.
        cbn [mrun] in E. destruct (mstep (LThread i e) s) as [s1|] eqn:E1; [|discriminate].
        pose proof (mstep_inv _ _ _ I E1) as I1.
        destruct I as (A & O & p & Ep & Hp). rewrite Ep in Ec. injection Ec as ->. destruct Hp as (Em & Hp).
        cbn [mstep] in E1. unfold thread_step in E1.
        assert (Hi : i = t).
        { destruct (Nat.eq_dec i t); auto. exfalso.
          destruct (nth_error (ms_threads s) i) as [x|] eqn:Ex; [|discriminate].
          assert (i < length (ms_threads s)) by (apply nth_error_Some; congruence).
          rewrite (O i) in Ex by lia. injection Ex as <-. discriminate. }
        subst i.
        assert (Hlen : t < length (ms_threads s)) by lia.
        assert (Hc1 : nth_error (ms_callers s1) 0 = Some (CJoin t)).
        { destruct (nth_error (ms_threads s) t) as [[]|], e; try discriminate; injection E1 as <-; cbn; now rewrite Ep. }
        destruct (IH s1 s' I1 Hc1 H2 E) as (q & Eq & Hq). rewrite Em in E1.
        destruct (nth_error (ms_threads s) t) as [x|] eqn:Ex; [|discriminate]. exists x. split; [reflexivity|].
        destruct x, e; try discriminate; injection E1 as <-; cbn [ms_threads] in Eq;
          rewrite nth_error_set_nth, Nat.eqb_refl, Ex in Eq;
          injection Eq as <-; cbn in *; lia. }
    intros ls' s' Hl Er. destruct (G ls' s s' I Ec Hl Er) as (p & _ & Hp). destruct p; cbn in Hp; lia.
  - destruct I as (A & O & p & Ep & Hp). rewrite Ep in Ec. injection Ec as ->. destruct Hp as (Em & Hp).
    cbn [mstep]. unfold caller_step, thread_step. rewrite Ep. cbn [nth_error].
    destruct (nth_error (ms_threads s) t) as [x|] eqn:Ex; [|apply nth_error_None in Ex; lia].
    destruct x; [right|right|right|right|left]; try intros []; eauto.
Qed.

(** The readings a trace offers, in order. *)
Definition offered (ls : list mlabel) : list reading :=
  flat_map (fun l => match l with LThread _ (TGo r) => [r] | _ => [] end) ls.
Definition in_order (l : list reading) : Prop := StronglySorted (fun a b => rd_time a <= rd_time b)%Q l.

Inductive sublist {A} : list A -> list A -> Prop :=
| sub_nil : sublist [] []
| sub_skip x l1 l2 : sublist l1 l2 -> sublist l1 (x :: l2)
| sub_take x l1 l2 : sublist l1 l2 -> sublist (x :: l1) (x :: l2).

Lemma sub_app_r {A} (a l1 l2 : list A) : sublist l1 l2 -> sublist l1 (a ++ l2).
Proof. induction a; cbn; auto. intros H. constructor; auto. Qed.
Lemma sub_Forall {A} (P : A -> Prop) l1 l2 : sublist l1 l2 -> Forall P l2 -> Forall P l1.
Proof. induction 1; intros F; auto; inversion F; subst; auto. Qed.
Lemma sub_sorted {A} (R : A -> A -> Prop) l1 l2 : sublist l1 l2 -> StronglySorted R l2 -> StronglySorted R l1.
Proof.
  induction 1; intros S; auto; apply StronglySorted_inv in S as (S & F); auto.
  constructor; auto. eapply sub_Forall; eauto.
Qed.

Lemma last_In {A} (l : list A) d : l <> [] -> In (last l d) l.
Proof.
  induction l as [|x l _] using rev_ind; [congruence|]. intros _. rewrite last_last. apply in_or_app. right. now left.
Qed.

Lemma mrun_data ls : forall s s', mrun ls s = Some s' ->
  exists new, ms_data s' = ms_data s ++ new /\ sublist new (offered ls).
Proof.
  induction ls as [|l ls IH]; intros s s' E; cbn [mrun] in E.
  - injection E as <-. exists []. rewrite app_nil_r. split; [reflexivity|constructor].
  - destruct (mstep l s) as [s1|] eqn:E1; [|discriminate]. destruct (IH _ _ E) as (new & En & Hs).
    assert (G : ms_data s1 = ms_data s \/ exists t r, l = LThread t (TGo r) /\ ms_data s1 = ms_data s ++ [r]).
    { destruct l as [c|c|c|t e]; cbn [mstep] in E1.
      - destruct (nth_error _ c) as [[]|]; try discriminate. injection E1 as <-. now left.
      - destruct (nth_error _ c) as [[]|]; try discriminate. injection E1 as <-. now left.
      - left. unfold caller_step in E1. destruct (nth_error _ c) as [[]|]; try discriminate; try (injection E1 as <-; reflexivity).
        destruct (nth_error _ t) as [[]|]; try discriminate. injection E1 as <-. reflexivity.
      - unfold thread_step in E1. destruct (nth_error _ t) as [[]|], e; try discriminate; injection E1 as <-; cbn; auto.
        right. eauto. }
    destruct G as [G|(t & r & -> & G)].
    + exists new. rewrite En, G. split; [reflexivity|]. unfold offered. cbn [flat_map]. now apply sub_app_r.
    + exists (r :: new). rewrite En, G, <- app_assoc. split; [reflexivity|]. cbn. now constructor.
Qed.

(** Any number of callers: the summary is empty exactly when there was no reading; otherwise its figures
    describe the readings, and its duration is the time from the first to the last of them, which is not
    negative if the clock is never set back. *)
Theorem C135_summary n ls s : mrun ls (mnew n) = Some s ->
  (monitor_summary (ms_data s) = Ok None <-> ms_data s = []) /\
  (forall first rest, ms_data s = first :: rest -> exists m c,
     monitor_summary (ms_data s) = Ok (Some (rd_time (last (ms_data s) first) - rd_time first, m, c)%Q) /\
     describes m (map rd_memory (ms_data s)) /\ describes c (map rd_cpu (ms_data s)) /\
     (in_order (offered ls) -> 0 <= rd_time (last (ms_data s) first) - rd_time first)%Q).
Proof.
  intros E. destruct (mrun_data _ _ _ E) as (new & En & Hs). cbn in En. rewrite En.
  assert (G : forall first rest, new = first :: rest -> exists m c,
     monitor_summary new = Ok (Some (rd_time (last new first) - rd_time first, m, c)%Q) /\
     describes m (map rd_memory new) /\ describes c (map rd_cpu new)).
  { intros first rest ->. unfold monitor_summary.
    destruct (figures_of_spec (map rd_memory (first :: rest))) as (m & -> & Dm); [discriminate|].
    destruct (figures_of_spec (map rd_cpu (first :: rest))) as (c & -> & Dc); [discriminate|]. cbn [rbind]. eauto. }
  split.
  - destruct new as [|first rest]; [cbn; tauto|]. split; [|discriminate]. intros E0.
    destruct (G first rest eq_refl) as (m & c & E1 & _). congruence.
  - intros first rest ->. destruct (G first rest eq_refl) as (m & c & E1 & D1 & D2). exists m, c.
    repeat (split; [assumption|]). intros Ho. apply (sub_sorted _ _ _ Hs) in Ho.
    apply StronglySorted_inv in Ho as (_ & F).
    assert (L : In (last (first :: rest) first) (first :: rest)).
    { apply last_In. discriminate. }
    destruct L as [<-|L]; [lra|]. rewrite Forall_forall in F. specialize (F _ L). lra.
Qed.

(** ** Concrete cases *)

Definition rd (t m : Q) : reading := MkReading t m 0.
Definition one_start (c : nat) : list mlabel := [LStart c; LCaller c; LCaller c; LCaller c].
Definition go (t : nat) (q : Q) : mlabel := LThread t (TGo (rd q q)).

Example C135_hypotheses_met :
  exists s, mrun (one_start 0 ++ [go 0 1; go 0 1; go 0 2; LStop 0; LCaller 0; go 0 3; LCaller 0]) (mnew 1) = Some s /\
    nth_error (ms_callers s) 0 = Some (CJoin 0) /\ live_threads s = 1 /\ ms_data s = [rd 2 2] /\
    in_order (offered (one_start 0 ++ [go 0 1; go 0 1; go 0 2; LStop 0; LCaller 0; go 0 3; LCaller 0])).
Proof.
  eexists. split; [vm_compute; reflexivity|]. split; [reflexivity|]. split; [reflexivity|]. split; [reflexivity|].
  cbn. repeat constructor; cbn; lra.
Qed.

Example C135_stopped_met :
  exists s, mrun (one_start 0 ++ [go 0 1; go 0 1; go 0 2; LStop 0; LCaller 0; go 0 3; LCaller 0; go 0 4; LCaller 0]) (mnew 1) = Some s /\
    ms_monitoring s = false /\ nth_error (ms_callers s) 0 = Some CIdle /\ ms_data s = [rd 2 2].
Proof. eexists. split; [vm_compute; reflexivity|]. repeat split. Qed.

(** An exception ends the thread, but the monitor still counts as monitoring: starting it again does
    nothing, and nothing more is read. *)
Theorem C135_restart_refuted :
  exists ls s, mrun ls (mnew 1) = Some s /\ ms_monitoring s = true /\ live_threads s = 0 /\
    nth_error (ms_callers s) 0 = Some CIdle /\ mrun [LStart 0; LCaller 0] s = Some s.
Proof.
  exists (one_start 0 ++ [go 0 1; go 0 1; LThread 0 TRaise]). eexists. split; [vm_compute; reflexivity|]. repeat split.
Qed.

(** Two callers: a start during a stop leaves two threads reading, and the stop waits for a thread that
    goes round for ever. *)
Theorem C135_two_callers_refuted :
  exists ls s, mrun ls (mnew 2) = Some s /\ live_threads s = 2 /\ nth_error (ms_callers s) 0 = Some (CJoin 0) /\
    forall n, exists s', mrun (concat (repeat [go 0 1; go 0 1; go 0 1] n)) s = Some s' /\
      length (ms_data s') = length (ms_data s) + n /\ nth_error (ms_threads s') 0 <> Some TDone /\
      mstep (LCaller 0) s' = None.
Proof.
  exists (one_start 0 ++ [go 0 1; LStop 0; LCaller 0; LCaller 0] ++ one_start 1). eexists.
  split; [vm_compute; reflexivity|]. split; [reflexivity|]. split; [reflexivity|].
  intros n.
  assert (G : forall n d, exists s',
    mrun (concat (repeat [go 0 1; go 0 1; go 0 1] n)) (MkMstate true (Some 1) d [TTest; TImport] [CJoin 0; CIdle]) = Some s' /\
    length (ms_data s') = length d + n /\ ms_threads s' = [TTest; TImport] /\ ms_callers s' = [CJoin 0; CIdle]).
  { clear n. induction n as [|n IH]; intros d; [eexists; cbn; split; [reflexivity|]; cbn; auto|].
    cbn [repeat concat app]. destruct (IH (d ++ [rd 1 1])) as (s' & E & E1 & E2). exists s'. split.
    - exact E.
    - rewrite E1, app_length. cbn. split; [lia|exact E2]. }
  destruct (G n []) as (s' & E & E1 & E2 & E3). exists s'. split; [exact E|]. split; [exact E1|]. rewrite E2. cbn.
  split; [discriminate|]. unfold caller_step. rewrite E3, E2. reflexivity.
Qed.

(** The duration counts the time between a stop and the next start. *)
Theorem C135_duration_refuted :
  exists ls s, mrun ls (mnew 1) = Some s /\ in_order (offered ls) /\
    ls = (one_start 0 ++ [go 0 1; go 0 1; go 0 1; LStop 0; LCaller 0; go 0 1; LCaller 0; go 0 1; LCaller 0]) ++
         (one_start 0 ++ [go 1 100; go 1 100; go 1 100]) /\
    exists m c, monitor_summary (ms_data s) = Ok (Some (99, m, c)%Q).
Proof.
  eexists. eexists. split; [|split; [|split; [reflexivity|]]].
  - vm_compute. reflexivity.
  - cbn. repeat constructor; cbn; lra.
  - do 2 eexists. vm_compute. reflexivity.
Qed.

Print Assumptions C135_one_caller_partial.
Print Assumptions C135_stop_returns_partial.
Print Assumptions C135_summary.
Print Assumptions C135_restart_refuted.
Print Assumptions C135_two_callers_refuted.
Print Assumptions C135_duration_refuted.
