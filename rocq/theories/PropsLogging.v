(** C137, C138: handlers, and where a message is printed. *)

From Coq Require Import String List Arith ZArith NArith Bool Lia ZifyBool ZifyNat ZifyN.
From Verif Require Import PyBase BaseLemmas PyMore LoggingModel.
Import ListNotations.
Open Scope nat_scope.

(** ** Specification *)

Definition nine : list message :=
  [MPerformance; MMemory; MOperation; MIndex; MSearch; MError; MWarning; MInfo; MDebug].

Definition handlers_of (n : lname) (s : logs) : nat := length (lg_handlers (logger_of n s)).

Lemma logger_of_dset n m l s : logger_of m (dset n l s) = if eqb m n then l else logger_of m s.
Proof. unfold logger_of. rewrite dget_dset. destruct (eqb m n); reflexivity. Qed.

Lemma logger_of_set n m v s :
  logger_of m (set_level n v s) = if eqb m n then MkLogger v (lg_handlers (logger_of n s)) else logger_of m s.
Proof. unfold set_level, logger_of. rewrite dget_dset. destruct (eqb m n); reflexivity. Qed.

Lemma logger_of_add n m h s :
  logger_of m (add_handler n h s) =
    if eqb m n then MkLogger (lg_level (logger_of n s)) (lg_handlers (logger_of n s) ++ [h]) else logger_of m s.
Proof. unfold add_handler, logger_of. rewrite dget_dset. destruct (eqb m n); reflexivity. Qed.

Section Logging.
  Context (upper : pystr -> pystr).
  Notation step := (log_step upper).
  Notation after := (logs_after upper).

  Lemma after_snoc ops o : after (ops ++ [o]) = snd (step o (after ops)).
  Proof. unfold logs_after. rewrite fold_left_app. reflexivity. Qed.

  (** What [get_logger] does. *)
  Lemma get_logger_cases name level s :
    let n := path_of name in
    (lg_handlers (logger_of n s) <> [] /\ get_logger upper name level s = (Ok tt, s)) \/
    (lg_handlers (logger_of n s) = [] /\ exists e, numeric_level upper level = Raise e /\ get_logger upper name level s = (Raise e, s)) \/
    (lg_handlers (logger_of n s) = [] /\ exists v s', numeric_level upper level = Ok v /\
       get_logger upper name level s = (Ok tt, s') /\
       forall m, logger_of m s' = if eqb m n then MkLogger v [MkHandler Stdout v] else logger_of m s).
  Proof.
    intros n. unfold get_logger, bind, get. fold n. destruct (lg_handlers (logger_of n s)) as [|h hs] eqn:E.
    - right. unfold lift. destruct (numeric_level upper level) as [v|e]; [right|left; eauto].
      split; [reflexivity|]. unfold modify. eexists _, _. split; [reflexivity|]. split; [reflexivity|].
      intros m. rewrite logger_of_add, !logger_of_set, eqb_refl. cbn [lg_handlers lg_level]. rewrite E.
      destruct (eqb m n); reflexivity.
    - left. split; [discriminate|]. reflexivity.
  Qed.

  (** What [setup_logging] does. *)
  Lemma setup_cases level file s :
    (exists e, numeric_level upper level = Raise e /\ setup_logging upper level file s = (Raise e, s)) \/
    exists v s', numeric_level upper level = Ok v /\ setup_logging upper level file s = (Ok tt, s') /\
      forall m, logger_of m s' =
        if eqb m [] then MkLogger v (MkHandler Stdout v :: match file with Some f => [MkHandler (LogFile f) v] | None => [] end)
        else logger_of m s.
  Proof.
    unfold setup_logging, bind, lift. destruct (numeric_level upper level) as [v|e]; [right|left; eauto].
    unfold modify, ret. eexists _. destruct file as [f|]; eexists; (split; [reflexivity|]); (split; [reflexivity|]); intros m;
      unfold add_handler, set_level; rewrite !logger_of_dset, !eqb_refl; cbn [lg_level lg_handlers app];
      destruct (eqb m []); reflexivity.
  Qed.

  (** What [debug_setup] does. *)
  Lemma debug_cases level file s :
    (exists e, debug_setup upper level file s = (Raise e, s)) \/
    exists v s', debug_setup upper level file s = (Ok tt, s') /\ level_attr (upper level) = Some (Ok v) /\
      forall m, logger_of m s' =
        if eqb m [py "valori"]
        then MkLogger v (lg_handlers (logger_of m s) ++ MkHandler Stderr 0 :: match file with Some f => [MkHandler (LogFile f) 0] | None => [] end)
        else logger_of m s.
  Proof.
    unfold debug_setup. destruct (level_attr (upper level)) as [[v|e]|].
    - right. exists v. unfold bind, lift, modify. destruct file as [f|]; eexists; (split; [reflexivity|]); (split; [reflexivity|]); intros m.
      + rewrite !logger_of_add, !logger_of_set, !eqb_refl. cbn [lg_level lg_handlers].
        destruct (eqb_spec m [py "valori"]) as [->|]; [|reflexivity]. now rewrite <- app_assoc.
      + unfold ret. cbn [snd]. rewrite !logger_of_add, !logger_of_set, !eqb_refl. cbn [lg_level lg_handlers].
        destruct (eqb_spec m [py "valori"]) as [->|]; reflexivity.
    - left. exists e. reflexivity.
    - left. exists EAttr. reflexivity.
  Qed.

  (** ** C137: how many handlers there are *)

  (** A logger that is neither the root nor "valori" never has more than one handler, and the root never
      more than two. *)
  Theorem C137_handlers ops n : n <> [py "valori"] ->
    handlers_of n (after ops) <= match n with [] => 2 | _ => 1 end.
  Proof.
    intros Hv. induction ops as [|o ops IH] using rev_ind.
    - unfold logs_after, handlers_of, logger_of, logs_new. cbn [fold_left dget]. destruct (eqb n []); cbn [lg_handlers length]; destruct n; apply Nat.le_0_l.
    - rewrite after_snoc. set (s := after ops) in *. unfold handlers_of in *.
      assert (G : forall name level, length (lg_handlers (logger_of n (snd (get_logger upper name level s)))) <= match n with [] => 2 | _ => 1 end).
      { intros name level. destruct (get_logger_cases name level s) as [(_ & E)|[(_ & e & _ & E)|(_ & v & s' & _ & E & Es)]]; rewrite E; auto.
        cbn [snd]. rewrite Es. destruct (eqb n (path_of name)); cbn [lg_handlers length]; auto. clear. destruct n; auto. }
      destruct o as [name level|level file|level file|m]; cbn [log_step].
      + unfold bind. specialize (G name level). destruct (get_logger upper name level s) as [[[]|e] s1]; exact G.
      + unfold bind. destruct (setup_cases level file s) as [(e & _ & E)|(v & s' & _ & E & Es)]; rewrite E; cbn [snd ret]; auto.
        rewrite Es. destruct (eqb_spec n []) as [->|]; [|exact IH]. destruct file; cbn; lia.
      + unfold bind. destruct (debug_cases level file s) as [(e & E)|(v & s' & E & _ & Es)]; rewrite E; cbn [snd ret]; auto.
        rewrite Es, (eqb_neq _ _ Hv). exact IH.
      + unfold log_message, bind, get, ret. specialize (G (message_name m) (py "INFO")).
        destruct (get_logger upper (message_name m) (py "INFO") s) as [[[]|e] s1]; exact G.
  Qed.

  (** After [setup_logging] the root has one handler, or two with a file, whatever there was before. *)
  Theorem C137_setup ops level file :
    fst (step (OSetup level file) (after ops)) = Ok [] ->
    handlers_of [] (after (ops ++ [OSetup level file])) = match file with Some _ => 2 | None => 1 end.
  Proof.
    rewrite after_snoc. cbn [log_step]. unfold bind, handlers_of.
    destruct (setup_cases level file (after ops)) as [(e & _ & E)|(v & s' & _ & E & Es)]; rewrite E; [discriminate|].
    intros _. cbn [snd ret]. rewrite Es. destruct file; reflexivity.
  Qed.

  (** Asking again for a logger, at whatever level, changes nothing. *)
  Theorem C137_again ops name level level' :
    fst (step (OGet name level) (after ops)) = Ok [] ->
    step (OGet name level') (after (ops ++ [OGet name level])) = (Ok [], after (ops ++ [OGet name level])).
  Proof.
    rewrite after_snoc. cbn [log_step]. unfold bind.
    destruct (get_logger_cases name level (after ops)) as [(H & E)|[(_ & e & _ & E)|(_ & v & s' & _ & E & Es)]]; rewrite E; cbn [fst snd ret].
    - intros _. destruct (get_logger_cases name level' (after ops)) as [(_ & E')|[(H' & _)|(H' & _)]]; try congruence.
      rewrite E'. reflexivity.
    - discriminate.
    - intros _. assert (Hn : lg_handlers (logger_of (path_of name) s') <> []) by (rewrite Es, eqb_refl; discriminate).
      destruct (get_logger_cases name level' s') as [(_ & E')|[(H' & _)|(H' & _)]]; try congruence.
      rewrite E'. reflexivity.
  Qed.

  (** ** C138: where a message is printed *)

  (** Calls that leave the loggers of the messages and their parents alone. *)
  Definition ordinary (o : log_op) : Prop :=
    match o with
    | OGet name _ =>
        path_of name <> [] /\ path_of name <> [py "valori"] /\ forall m, path_of name <> path_of (message_name m)
    | _ => True
    end.

  (** The levels, lowest first, and the messages' places among them. *)
  Definition ranks : list (pystr * nat) :=
    [(py "NOTSET", 0); (py "DEBUG", 1); (py "INFO", 2); (py "WARNING", 3); (py "WARN", 3); (py "ERROR", 4);
     (py "CRITICAL", 5); (py "FATAL", 5)].
  Definition rank (m : message) : nat :=
    match m with
    | MDebug => 1
    | MInfo | MPerformance | MMemory | MOperation | MIndex | MSearch => 2
    | MWarning => 3
    | MError => 4
    end.

  (** What [setup_logging] makes of a level: names it does not know count as INFO; two attributes of
      Python's module that are no levels make it fail. *)
  Definition rank_of (name : pystr) : option nat :=
    match dget name ranks with
    | Some r => Some r
    | None => if memb name [py "BASIC_FORMAT"; py "_STYLES"] then None else Some 2
    end.

  (** What the debugging tools' [setup_logging] calls print a message on. *)
  Definition debug_sinks (o : log_op) : list sink :=
    match o with
    | ODebugSetup level file =>
        if dmem (upper level) ranks then Stderr :: match file with Some f => [LogFile f] | None => [] end else []
    | _ => []
    end.

  (** The last [setup_logging] that did not raise. *)
  Definition setup_of (r : option (nat * option pystr)) (o : log_op) : option (nat * option pystr) :=
    match o with
    | OSetup level file => match rank_of (upper level) with Some v => Some (v, file) | None => r end
    | _ => r
    end.
  Definition last_setup (ops : list log_op) : option (nat * option pystr) := fold_left setup_of ops None.

  Definition expected (ops : list log_op) (m : message) : list sink :=
    Stdout :: flat_map debug_sinks ops ++
    match last_setup ops with
    | Some (v, file) => if v <=? rank m then Stdout :: match file with Some f => [LogFile f] | None => [] end else []
    | None => []
    end.

  Lemma severity_rank m : severity m = 10 * rank m.
  Proof. destruct m; reflexivity. Qed.

  Lemma attr_rank name : match dget name ranks with
    | Some r => level_attr name = Some (Ok (10 * r))
    | None => if memb name [py "BASIC_FORMAT"; py "_STYLES"] then exists e, level_attr name = Some (Raise e)
              else level_attr name = None
    end.
  Proof.
    unfold level_attr, memb, existsb.
    repeat match goal with
    | |- context [eqb name ?x] =>
        destruct (eqb_spec name x) as [->|?]; [vm_compute; first [reflexivity|eexists; reflexivity]|]
    end.
    cbn [orb]. unfold ranks. cbn [dget].
    repeat (rewrite eqb_neq by congruence). reflexivity.
  Qed.

  Lemma numeric_rank level :
    (exists r, rank_of (upper level) = Some r /\ numeric_level upper level = Ok (10 * r)) \/
    (rank_of (upper level) = None /\ exists e, numeric_level upper level = Raise e).
  Proof.
    unfold numeric_level, rank_of. pose proof (attr_rank (upper level)) as H. destruct (dget (upper level) ranks) as [r|].
    - left. exists r. rewrite H. auto.
    - destruct (memb _ _).
      + right. destruct H as [e ->]. eauto.
      + left. exists 2. rewrite H. auto.
  Qed.

  Hypothesis Hinfo : upper (py "INFO") = py "INFO".

  Lemma numeric_info : numeric_level upper (py "INFO") = Ok 20.
  Proof. unfold numeric_level. rewrite Hinfo. reflexivity. Qed.

  Lemma message_path m : exists w, path_of (message_name m) = [py "valori"; w].
  Proof. destruct m; eexists; vm_compute; reflexivity. Qed.

  Definition own : logger := MkLogger 20 [MkHandler Stdout 20].

  (** The state after ordinary calls. *)
  Definition linv (ops : list log_op) (s : logs) : Prop :=
    (forall m, logger_of (path_of (message_name m)) s = MkLogger 0 [] \/ logger_of (path_of (message_name m)) s = own) /\
    map hd_sink (lg_handlers (logger_of [py "valori"] s)) = flat_map debug_sinks ops /\
    Forall (fun h => hd_level h = 0) (lg_handlers (logger_of [py "valori"] s)) /\
    lg_handlers (logger_of [] s) =
      match last_setup ops with
      | Some (r, file) => MkHandler Stdout (10 * r) :: match file with Some f => [MkHandler (LogFile f) (10 * r)] | None => [] end
      | None => []
      end.

  Lemma last_snoc ops o : last_setup (ops ++ [o]) = setup_of (last_setup ops) o.
  Proof. unfold last_setup. rewrite fold_left_app. reflexivity. Qed.

  Lemma get_message_inv ops s m : linv ops s ->
    exists s', get_logger upper (message_name m) (py "INFO") s = (Ok tt, s') /\
      linv ops s' /\ logger_of (path_of (message_name m)) s' = own.
  Proof.
    intros (I1 & I2 & I3 & I4).
    destruct (get_logger_cases (message_name m) (py "INFO") s) as [(H & E)|[(_ & e & En & E)|(_ & v & s' & En & E & Es)]].
    - exists s. split; [exact E|]. split; [repeat split; auto|]. destruct (I1 m) as [G|G]; [rewrite G in H; now elim H|exact G].
    - rewrite numeric_info in En. discriminate.
    - rewrite numeric_info in En. injection En as <-. exists s'. split; [exact E|]. split.
      + destruct (message_path m) as (w & Ew). rewrite Ew in Es. repeat split.
        * intros m'. rewrite Es. destruct (eqb _ _); [now right|apply I1].
        * rewrite Es. exact I2.
        * rewrite Es. exact I3.
        * rewrite Es. exact I4.
      + rewrite Es, eqb_refl. reflexivity.
  Qed.

  Lemma linv_after ops : Forall ordinary ops -> linv ops (after ops).
  Proof.
    induction ops as [|o ops IH] using rev_ind; intros Ho.
    - split; [|split; [|split]]; try reflexivity; [|constructor].
      intros m. left. destruct (message_path m) as (w & ->). reflexivity.
    - apply Forall_app in Ho as (Ho & Hoo). inversion Hoo as [|? ? Hoo' _]; subst. specialize (IH Ho).
      rewrite after_snoc. set (s := after ops) in *.
      assert (Nd : debug_sinks o = [] -> flat_map debug_sinks (ops ++ [o]) = flat_map debug_sinks ops).
      { intros E. rewrite flat_map_app. cbn [flat_map]. rewrite E. cbn. apply app_nil_r. }
      destruct o as [name level|level file|level file|m]; cbn [log_step].
      + destruct IH as (I1 & I2 & I3 & I4). destruct Hoo' as (N1 & N2 & N3). unfold linv. rewrite Nd, last_snoc by reflexivity.
        cbn [setup_of]. unfold bind.
        destruct (get_logger_cases name level s) as [(_ & E)|[(_ & e & _ & E)|(_ & v & s' & _ & E & Es)]]; rewrite E; cbn [snd ret]; auto.
        split; [|split; [|split]].
        * intros m. rewrite Es, eqb_neq; [apply I1|]. intros G. apply (N3 m). congruence.
        * rewrite Es, eqb_neq; [exact I2|congruence].
        * rewrite Es, eqb_neq; [exact I3|congruence].
        * rewrite Es, eqb_neq; [exact I4|congruence].
      + destruct IH as (I1 & I2 & I3 & I4). unfold linv. rewrite Nd, last_snoc by reflexivity. cbn [setup_of]. unfold bind.
        destruct (numeric_rank level) as [(r & Er & Ev)|(Er & e0 & Ev)]; rewrite Er;
          destruct (setup_cases level file s) as [(e & En & E)|(v & s' & En & E & Es)]; try congruence; rewrite E; cbn [snd ret]; auto.
        assert (v = 10 * r) as -> by congruence. split; [|split; [|split]].
        * intros m. destruct (message_path m) as (w & Ew). rewrite Es, eqb_neq by (rewrite Ew; discriminate). apply I1.
        * rewrite Es. exact I2.
        * rewrite Es. exact I3.
        * rewrite Es. reflexivity.
      + destruct IH as (I1 & I2 & I3 & I4). unfold linv. rewrite last_snoc. cbn [setup_of]. unfold bind.
        destruct (debug_cases level file s) as [(e & E)|(v & s' & E & En & Es)]; rewrite E; cbn [snd ret].
        * rewrite Nd; [auto|]. cbn [debug_sinks]. unfold debug_setup in E.
          pose proof (attr_rank (upper level)) as HA. unfold dmem. destruct (dget (upper level) ranks) as [r|]; [|reflexivity].
          rewrite HA in E. destruct file; discriminate.
        * assert (Hm : dmem (upper level) ranks = true).
          { pose proof (attr_rank (upper level)) as HA. unfold dmem. destruct (dget (upper level) ranks) as [r|]; [reflexivity|].
            destruct (memb _ _); [destruct HA as [e HA]|]; congruence. }
          rewrite flat_map_app. cbn [flat_map debug_sinks]. rewrite Hm, app_nil_r. split; [|split; [|split]].
          -- intros m. destruct (message_path m) as (w & Ew). rewrite Es, eqb_neq by (rewrite Ew; discriminate). apply I1.
          -- rewrite Es, eqb_refl. cbn [lg_handlers]. rewrite map_app, I2. destruct file; reflexivity.
          -- rewrite Es, eqb_refl. cbn [lg_handlers]. apply Forall_app. split; [exact I3|]. destruct file; repeat constructor.
          -- rewrite Es. exact I4.
      + unfold log_message, bind, get, ret. destruct (get_message_inv ops s m IH) as (s' & E & I & _). rewrite E. cbn [snd].
        unfold linv in *. rewrite Nd, last_snoc by reflexivity. exact I.
  Qed.

  (** A message is printed once by its own logger, once for each [setup_logging] of the debugging tools
      that was called (and in its file), and once more by the last [setup_logging] (and in its file)
      if that is at a level no higher than the message's.  This is all of it. *)
  Theorem C138_printed ops m : Forall ordinary ops -> m <> MDebug ->
    fst (step (OLog m) (after ops)) = Ok (expected ops m).
  Proof.
    intros Ho Hm. cbn [log_step]. unfold log_message, bind, get, ret.
    destruct (get_message_inv ops _ m (linv_after ops Ho)) as (s & E & (I1 & I2 & I3 & I4) & Eo). rewrite E. cbn [fst]. f_equal.
    destruct (message_path m) as (w & Ew). rewrite Ew in *. unfold emit, ancestors. cbn [length chain removelast first_level flat_map].
    rewrite Eo. cbn [own lg_level lg_handlers Nat.eqb app].
    replace (20 <=? severity m) with true by (destruct m; auto; congruence).
    cbn [filter hd_level]. replace (20 <=? severity m) with true by (destruct m; auto; congruence).
    cbn [map hd_sink]. unfold expected. f_equal. rewrite app_nil_r, filter_app, map_app. f_equal.
    - rewrite <- I2. f_equal. clear - I3. induction I3 as [|h hs Hh _ IH]; [reflexivity|]. cbn. rewrite Hh. cbn. now rewrite IH.
    - rewrite I4. destruct (last_setup ops) as [(v, file)|]; [|reflexivity].
      assert (Ev : (10 * v <=? severity m) = (v <=? rank m)).
      { rewrite severity_rank. apply eq_true_iff_eq. rewrite !Nat.leb_le. lia. }
      destruct file; cbn [filter hd_level]; rewrite Ev; destruct (v <=? rank m); reflexivity.
  Qed.

  (** [log_debug] prints nothing. *)
  Theorem C138_debug_partial ops : Forall ordinary ops -> fst (step (OLog MDebug) (after ops)) = Ok [].
  Proof.
    intros Ho. cbn [log_step]. unfold log_message, bind, get, ret.
    destruct (get_message_inv ops _ MDebug (linv_after ops Ho)) as (s & E & _ & Eo). rewrite E. cbn [fst]. f_equal.
    destruct (message_path MDebug) as (w & Ew). rewrite Ew in *. unfold emit, ancestors. cbn [length chain removelast first_level].
    rewrite Eo. reflexivity.
  Qed.
End Logging.

(** ** Concrete cases *)

(** ASCII letters in upper case. *)
Definition ascii_upper (s : pystr) : pystr :=
  map (fun c => if (97 <=? c)%N && (c <=? 122)%N then (c - 32)%N else c) s.

Definition demo_log_ops : list log_op :=
  [OGet (py "app.main") (py "debug"); OLog MInfo; OSetup (py "warning") (Some (py "v.log"));
   ODebugSetup (py "nosuch") None; ODebugSetup (py "info") (Some (py "d.log")); OGet (py "app.main") (py "error")].

Example C138_hypotheses_met :
  ascii_upper (py "INFO") = py "INFO" /\ Forall ordinary demo_log_ops /\
  expected ascii_upper demo_log_ops MInfo = [Stdout; Stderr; LogFile (py "d.log")] /\
  expected ascii_upper demo_log_ops MError = [Stdout; Stderr; LogFile (py "d.log"); Stdout; LogFile (py "v.log")].
Proof.
  split; [reflexivity|]. split; [|vm_compute; auto].
  repeat constructor; try (vm_compute; discriminate); intros m; destruct m; vm_compute; discriminate.
Qed.

Example C137_hypotheses_met :
  fst (log_step ascii_upper (OSetup (py "info") (Some (py "v.log"))) (logs_after ascii_upper demo_log_ops)) = Ok [] /\
  fst (log_step ascii_upper (OGet (py "app.x") (py "loud")) (logs_after ascii_upper demo_log_ops)) = Ok [] /\
  handlers_of [py "app"; py "main"] (logs_after ascii_upper demo_log_ops) = 1 /\
  handlers_of [] (logs_after ascii_upper demo_log_ops) = 2.
Proof. vm_compute. auto. Qed.

(** Every call of the debugging tools' [setup_logging] adds a handler: after [n] calls a message is
    printed [n] times on standard error. *)
Theorem C137_debug_refuted : forall n,
  handlers_of [py "valori"] (logs_after ascii_upper (repeat (ODebugSetup (py "INFO") None) n)) = n /\
  fst (log_step ascii_upper (OLog MInfo) (logs_after ascii_upper (repeat (ODebugSetup (py "INFO") None) n))) =
    Ok (Stdout :: repeat Stderr n).
Proof.
  intros n.
  assert (Ho : Forall ordinary (repeat (ODebugSetup (py "INFO") None) n)) by (apply Forall_forall; intros o Ho; now apply repeat_spec in Ho as ->).
  assert (Hd : flat_map (debug_sinks ascii_upper) (repeat (ODebugSetup (py "INFO") None) n) = repeat Stderr n).
  { clear. induction n as [|n IH]; [reflexivity|]. cbn [repeat flat_map]. rewrite IH. reflexivity. }
  split.
  - destruct (linv_after ascii_upper eq_refl _ Ho) as (_ & I2 & _). unfold handlers_of.
    rewrite <- (map_length hd_sink), I2, Hd. apply repeat_length.
  - rewrite C138_printed; auto; [|discriminate]. unfold expected. rewrite Hd.
    replace (last_setup ascii_upper (repeat (ODebugSetup (py "INFO") None) n)) with (@None (nat * option pystr)).
    + now rewrite app_nil_r.
    + unfold last_setup. clear. induction n; auto.
Qed.

(** After [setup_logging()] an information message appears twice on standard output. *)
Theorem C138_twice_refuted :
  exists ops, ops = [OSetup (py "INFO") None] /\
    fst (log_step ascii_upper (OLog MInfo) (logs_after ascii_upper ops)) = Ok [Stdout; Stdout].
Proof. eexists. split; [reflexivity|]. vm_compute. reflexivity. Qed.

(** Setting the level to ERROR does not silence information messages, and setting it to DEBUG does not
    bring out debugging messages. *)
Theorem C138_level_refuted :
  fst (log_step ascii_upper (OLog MInfo) (logs_after ascii_upper [OSetup (py "ERROR") None])) = Ok [Stdout] /\
  fst (log_step ascii_upper (OLog MDebug) (logs_after ascii_upper [OSetup (py "DEBUG") None])) = Ok [].
Proof. vm_compute. auto. Qed.

Print Assumptions C137_handlers.
Print Assumptions C137_setup.
Print Assumptions C137_again.
Print Assumptions C137_debug_refuted.
Print Assumptions C138_printed.
Print Assumptions C138_debug_partial.
Print Assumptions C138_twice_refuted.
Print Assumptions C138_level_refuted.
