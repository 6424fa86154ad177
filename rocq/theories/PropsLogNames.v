(** Property C168: where a message of any logger is printed, by its name. *)

From Coq Require Import String List Arith ZArith NArith Bool Lia ZifyBool ZifyNat ZifyN.
From Verif Require Import PyBase BaseLemmas PyMore LoggingModel PropsLogging.
Import ListNotations.
Open Scope nat_scope.

(** ** Specification *)

(** The names above a name: each beginning that ends before a dot, and the name itself; shortest
    first. *)
Fixpoint uppers (n : pystr) : list pystr :=
  match n with
  | [] => [[]]
  | c :: n' => (if (c =? 46)%N then [[]] else []) ++ map (cons c) (uppers n')
  end.

Section Spec.
  Context (upper : pystr -> pystr).

  (** The level a call asks for a logger of this name, if it does and it is one. *)
  Definition asks (n : pystr) (o : log_op) : option nat :=
    match o with
    | OGet n' l => if eqb n n' then rank_of (upper l) else None
    | OLog m => if eqb n (message_name m) then Some 2 else None
    | _ => None
    end.

  (** The level of the first such call. *)
  Fixpoint first_ask (n : pystr) (ops : list log_op) : option nat :=
    match ops with
    | [] => None
    | o :: r => match asks n o with Some v => Some v | None => first_ask n r end
    end.

  (** The levels of the loggers asked for, from the name itself upwards. *)
  Definition asked_levels (ops : list log_op) (n : pystr) : list nat :=
    flat_map (fun a => match first_ask a ops with Some v => [v] | None => [] end) (rev (uppers n)).

  (** The level that decides: the nearest one that is not NOTSET, or else that of the last
      [setup_logging], or else WARNING. *)
  Definition deciding (ops : list log_op) (n : pystr) : nat :=
    match filter (fun v => negb (v =? 0)) (asked_levels ops n) with
    | v :: _ => v
    | [] => match last_setup upper ops with Some (r, _) => r | None => 3 end
    end.

  (** The places: one on standard output per logger asked for, then those of [setup_logging]. *)
  Definition places (ops : list log_op) (n : pystr) : list (sink * nat) :=
    map (fun v => (Stdout, v)) (asked_levels ops n) ++
    match last_setup upper ops with
    | Some (r, file) => (Stdout, r) :: match file with Some f => [(LogFile f, r)] | None => [] end
    | None => []
    end.

  Definition printed (ops : list log_op) (n : pystr) (s : nat) : list sink :=
    if deciding ops n <=? s
    then match places ops n with
         | [] => if 3 <=? s then [Stderr] else []
         | l => map fst (filter (fun p => snd p <=? s) l)
         end
    else [].

  (** Calls other than those of the debugging tools, and not for the root logger. *)
  Definition plain (o : log_op) : Prop :=
    match o with
    | OGet n _ => n <> [] /\ n <> py "root"
    | ODebugSetup _ _ => False
    | _ => True
    end.

  (** ** Names and paths *)

  Definition cons_head (c : N) (p : list pystr) : list pystr :=
    match p with [] => [[c]] | w :: ws => (c :: w) :: ws end.

  Fixpoint pre (q : list pystr) : list (list pystr) :=
    match q with [] => [] | w :: ws => [w] :: map (cons w) (pre ws) end.

  Lemma split_cons c n : split_dots (c :: n) =
    if (c =? 46)%N then [] :: split_dots n else cons_head c (split_dots n).
  Proof. reflexivity. Qed.

  Lemma split_ne n : split_dots n <> [].
  Proof. destruct n as [|c n]; [discriminate|]. rewrite split_cons. destruct (c =? 46)%N; [discriminate|].
    destruct (split_dots n); discriminate. Qed.

  Lemma map_split_uppers n : map split_dots (uppers n) = pre (split_dots n).
  Proof.
    induction n as [|c n IH]; [reflexivity|]. cbn [uppers]. rewrite split_cons, map_app, map_map.
    destruct (c =? 46)%N eqn:Ec.
    - cbn [map app pre]. f_equal. rewrite <- IH, map_map. apply map_ext. intros a. now rewrite split_cons, Ec.
    - cbn [map app]. rewrite (map_ext _ (fun a => cons_head c (split_dots a)))
        by (intros a; now rewrite split_cons, Ec).
      rewrite <- (map_map split_dots (cons_head c)), IH.
      destruct (split_dots n) as [|w ws] eqn:E; [now apply split_ne in E|].
      cbn [cons_head pre map]. f_equal. rewrite map_map. apply map_ext. reflexivity.
  Qed.

  Lemma split_inj a : forall b, split_dots a = split_dots b -> a = b.
  Proof.
    induction a as [|c a IH]; intros [|d b]; auto; rewrite ?split_cons.
    - destruct (d =? 46)%N; [intros [= E]; symmetry in E; now apply split_ne in E|].
      destruct (split_dots b); discriminate.
    - destruct (c =? 46)%N; [intros [= E]; now apply split_ne in E|].
      destruct (split_dots a); discriminate.
    - pose proof (split_ne a) as Na. pose proof (split_ne b) as Nb. specialize (IH b).
      destruct (c =? 46)%N eqn:Ec, (d =? 46)%N eqn:Ed.
      + intros [= E]. f_equal; [lia|auto].
      + destruct (split_dots b); [easy|discriminate].
      + destruct (split_dots a); [easy|discriminate].
      + destruct (split_dots a) as [|w ws]; [easy|]. destruct (split_dots b) as [|w' ws']; [easy|].
        cbn [cons_head]. intros [= -> -> ->]. f_equal. auto.
  Qed.

  Lemma removelast_snoc {X} (l : list X) x : removelast (l ++ [x]) = l.
  Proof. rewrite removelast_app by discriminate. now rewrite app_nil_r. Qed.

  Lemma pre_snoc q w : pre (q ++ [w]) = pre q ++ [q ++ [w]].
  Proof. induction q as [|x q IH]; [reflexivity|]. cbn [app pre]. rewrite IH, map_app. reflexivity. Qed.

  Lemma chain_pre k : forall q, length q = k -> chain k q = rev (pre q) ++ [[]].
  Proof.
    induction k as [|k IH]; intros q Hq.
    - destruct q; [reflexivity|discriminate].
    - cbn [chain]. destruct q as [|x q'] using rev_ind; [discriminate|]. clear IHq'.
      rewrite app_length in Hq. cbn in Hq. rewrite pre_snoc, rev_app_distr.
      destruct (q' ++ [x]) as [|y l] eqn:E; [destruct q'; discriminate|]. rewrite <- E, removelast_snoc.
      cbn [rev app]. f_equal. apply IH. lia.
  Qed.

  Lemma ancestors_names n : ancestors (split_dots n) = map split_dots (rev (uppers n)) ++ [[]].
  Proof. unfold ancestors. rewrite (chain_pre _ _ eq_refl), map_rev, map_split_uppers. reflexivity. Qed.

  Lemma path_plain n : n <> [] -> n <> py "root" -> path_of n = split_dots n.
  Proof. intros H1 H2. unfold path_of. now rewrite !eqb_neq by assumption. Qed.

  (** ** The loggers after plain calls *)

  Lemma first_ask_snoc n ops o : first_ask n (ops ++ [o]) =
    match first_ask n ops with Some v => Some v | None => asks n o end.
  Proof.
    induction ops as [|o' ops IH]; cbn [app first_ask].
    - destruct (asks n o); reflexivity.
    - destruct (asks n o'); auto.
  Qed.

  Definition made (x : option nat) : logger :=
    match x with Some v => MkLogger (10 * v) [MkHandler Stdout (10 * v)] | None => MkLogger 0 [] end.
  Definition rooted (x : option (nat * option pystr)) : logger :=
    match x with
    | Some (r, file) => MkLogger (10 * r)
        (MkHandler Stdout (10 * r) :: match file with Some f => [MkHandler (LogFile f) (10 * r)] | None => [] end)
    | None => MkLogger 30 []
    end.

  Hypothesis Hinfo : upper (py "INFO") = py "INFO".

  Lemma get_made name level ops s : name <> [] -> name <> py "root" ->
    (forall a, logger_of (split_dots a) s = made (first_ask a ops)) ->
    let s' := snd (get_logger upper name level s) in
    logger_of [] s' = logger_of [] s /\
    forall a, logger_of (split_dots a) s' =
      made (match first_ask a ops with Some v => Some v | None => if eqb a name then rank_of (upper level) else None end).
  Proof.
    intros N1 N2 Hs s'. subst s'.
    destruct (get_logger_cases upper name level s) as [(G & E)|[(G & e & En & E)|(G & v & s' & En & E & Es)]]; rewrite E; cbn [snd];
      rewrite (path_plain name N1 N2) in *.
    - split; [reflexivity|]. intros a. rewrite Hs. destruct (eqb_spec a name) as [->|]; [|destruct (first_ask a ops); reflexivity].
      rewrite Hs in G. destruct (first_ask name ops); [reflexivity|]. now elim G.
    - split; [reflexivity|]. intros a. rewrite Hs. destruct (first_ask a ops); [reflexivity|].
      destruct (eqb_spec a name) as [->|]; [|reflexivity].
      destruct (numeric_rank upper level) as [(r & Er & Ev)|(Er & _)]; [congruence|]. now rewrite Er.
    - split; [rewrite Es, eqb_neq by (intros C; now apply (split_ne name)); reflexivity|].
      intros a. rewrite Es. destruct (eqb_spec a name) as [->|Ha].
      + rewrite eqb_refl. rewrite Hs in G. destruct (first_ask name ops); [discriminate|].
        destruct (numeric_rank upper level) as [(r & Er & Ev)|(Er & e & Ev)]; [|congruence]. rewrite Er. cbn [made].
        replace v with (10 * r) by congruence. reflexivity.
      + rewrite eqb_neq by (intros C; apply split_inj in C; contradiction).
        rewrite Hs. destruct (first_ask a ops); reflexivity.
  Qed.

  Lemma made_after ops : Forall plain ops ->
    logger_of [] (logs_after upper ops) = rooted (last_setup upper ops) /\
    forall a, logger_of (split_dots a) (logs_after upper ops) = made (first_ask a ops).
  Proof.
    induction ops as [|o ops IH] using rev_ind; intros Hp.
    - split; [reflexivity|]. intros a. unfold logs_after, logger_of, logs_new. cbn [fold_left dget first_ask made].
      rewrite eqb_neq by apply split_ne. reflexivity.
    - apply Forall_app in Hp as [Hp Ho]. inversion Ho as [|? ? Ho' _]; subst. specialize (IH Hp) as [I1 I2].
      rewrite after_snoc, last_snoc. set (s := logs_after upper ops) in *.
      destruct o as [name level|level file|level file|m]; cbn [log_step setup_of].
      + destruct Ho' as [N1 N2]. destruct (get_made name level ops s N1 N2 I2) as [G1 G2].
        unfold bind. destruct (get_logger upper name level s) as [[[]|e] s']; cbn [snd ret] in *;
          (split; [now rewrite G1|]); intros a; rewrite G2, first_ask_snoc; reflexivity.
      + unfold bind. split.
        * destruct (numeric_rank upper level) as [(r & Er & Ev)|(Er & e0 & Ev)]; rewrite Er;
            destruct (setup_cases upper level file s) as [(e & En & E)|(v & s' & En & E & Es)]; try congruence; rewrite E; cbn [snd ret]; auto.
          rewrite Es. cbn [eqb]. replace v with (10 * r) by congruence. reflexivity.
        * intros a. rewrite first_ask_snoc. cbn [asks].
          replace (match first_ask a ops with Some v => Some v | None => None end) with (first_ask a ops) by (destruct (first_ask a ops); reflexivity).
          destruct (setup_cases upper level file s) as [(e & En & E)|(v & s' & En & E & Es)]; rewrite E; cbn [snd ret]; auto.
          rewrite Es, eqb_neq by apply split_ne. apply I2.
      + contradiction.
      + assert (N1 : message_name m <> []) by (destruct m; discriminate).
        assert (N2 : message_name m <> py "root") by (destruct m; discriminate).
        destruct (get_made (message_name m) (py "INFO") ops s N1 N2 I2) as [G1 G2].
        unfold log_message, bind, get, ret. destruct (get_logger upper (message_name m) (py "INFO") s) as [[[]|e] s']; cbn [snd] in *;
          (split; [now rewrite G1|]); intros a; rewrite G2, first_ask_snoc; cbn [asks]; rewrite Hinfo; reflexivity.
  Qed.

  Lemma level_mul a s : (10 * a <=? 10 * s) = (a <=? s).
  Proof. lia. Qed.

  (** C168: after any calls, a message of severity [s] (1 DEBUG, 2 INFO, 3 WARNING, 4 ERROR, 5
      CRITICAL) on the logger of any name is printed once for every logger asked for among that
      name and the names above it, and by the last [setup_logging], where the level allows. *)
  Theorem C168_names ops n s : Forall plain ops -> n <> [] -> n <> py "root" ->
    emit (path_of n) (10 * s) (logs_after upper ops) = printed ops n s.
  Proof.
    intros Hp N1 N2. destruct (made_after ops Hp) as [I1 I2]. rewrite (path_plain n N1 N2).
    unfold emit. rewrite ancestors_names.
    set (st := logs_after upper ops) in *. set (us := rev (uppers n)).
    assert (El : first_level st (map split_dots us ++ [[]]) = 10 * deciding ops n).
    { unfold deciding, asked_levels. fold us. induction us as [|a us IH]; cbn [map app first_level flat_map].
      - rewrite I1. destruct (last_setup upper ops) as [[r f]|]; cbn [rooted lg_level filter]; [|reflexivity].
        destruct r; reflexivity.
      - rewrite I2. destruct (first_ask a ops) as [v|]; cbn [made lg_level]; [|exact IH].
        cbn [app filter]. destruct v; [exact IH|]. reflexivity. }
    assert (Eh : flat_map (fun a => lg_handlers (logger_of a st)) (map split_dots us ++ [[]]) =
                 map (fun p => MkHandler (fst p) (10 * snd p)) (places ops n)).
    { rewrite flat_map_app. unfold places. rewrite map_app. f_equal.
      - unfold asked_levels. fold us. rewrite map_map. clear El. induction us as [|a us IH]; [reflexivity|].
        cbn [map flat_map]. rewrite IH, I2, map_app. f_equal. destruct (first_ask a ops); reflexivity.
      - cbn [flat_map]. rewrite app_nil_r, I1. destruct (last_setup upper ops) as [[r [f|]]|]; reflexivity. }
    rewrite El, Eh, level_mul. unfold printed. destruct (deciding ops n <=? s); [|reflexivity].
    destruct (places ops n) as [|p l]; cbn [map].
    - change 30 with (10 * 3). now rewrite level_mul.
    - change (MkHandler (fst p) (10 * snd p) :: map (fun p0 => MkHandler (fst p0) (10 * snd p0)) l)
        with (map (fun p0 => MkHandler (fst p0) (10 * snd p0)) (p :: l)).
      generalize (p :: l). clear. intros l. induction l as [|p l IH]; [reflexivity|]. cbn [map filter hd_level].
      rewrite level_mul. destruct (snd p <=? s); cbn [map hd_sink]; now rewrite IH.
  Qed.

  (** An application that asks only for the logger of its own name gets each message at least as
      severe as the level exactly once. *)
  Theorem C168_once n level r s : n <> [] -> n <> py "root" -> rank_of (upper level) = Some r -> r <> 0 ->
    emit (path_of n) (10 * s) (logs_after upper [OGet n level]) = if r <=? s then [Stdout] else [].
  Proof.
    intros N1 N2 Er Hr. rewrite C168_names; auto; [|repeat constructor; auto].
    assert (Ea : asked_levels [OGet n level] n = [r]).
    { unfold asked_levels.
      assert (Hu : exists us, uppers n = us ++ [n] /\ ~ In n us).
      { clear. induction n as [|c n (us & IH & Hn)]; [exists []; auto|]. cbn [uppers]. rewrite IH, map_app, app_assoc.
        eexists. split; [reflexivity|]. intros Hin. apply in_app_or in Hin as [Hin|Hin].
        - destruct (c =? 46)%N; [destruct Hin as [[=]|[]]|destruct Hin].
        - apply in_map_iff in Hin as (x & [= ->] & Hin). contradiction. }
      destruct Hu as (us & -> & Hn). rewrite rev_app_distr. cbn [rev app flat_map first_ask asks].
      rewrite eqb_refl, Er. cbn [app]. f_equal.
      assert (Hr' : forall l, ~ In n l -> flat_map (fun a => match match (if eqb a n then Some r else None) with
                 | Some v => Some v | None => None end with Some v => [v] | None => [] end) l = []).
      { intros l Hl. induction l as [|a l IH]; [reflexivity|]. cbn [flat_map]. rewrite eqb_neq by (intros ->; apply Hl; now left).
        apply IH. intros Hin. apply Hl. now right. }
      apply Hr'. now rewrite <- in_rev. }
    unfold printed, deciding, places. rewrite Ea. cbn [filter map app]. unfold last_setup. cbn [fold_left setup_of].
    destruct r as [|r]; [congruence|]. cbn [Nat.eqb negb snd]. destruct (S r <=? s); reflexivity.
  Qed.

  Lemma emit_ext n s st st' : (forall m, logger_of m st = logger_of m st') -> emit n s st = emit n s st'.
  Proof.
    intros He. unfold emit.
    assert (E1 : forall l, first_level st l = first_level st' l).
    { induction l as [|a l IH]; [reflexivity|]. cbn [first_level]. now rewrite He, IH. }
    assert (E2 : forall l, flat_map (fun a => lg_handlers (logger_of a st)) l = flat_map (fun a => lg_handlers (logger_of a st')) l).
    { induction l as [|a l IH]; [reflexivity|]. cbn [flat_map]. now rewrite He, IH. }
    now rewrite E1, E2.
  Qed.

  (** Asking for the root logger, by either of its names, configures it like [setup_logging] without
      a file if that has not been called, and does nothing otherwise. *)
  Theorem C168_root ops r level n s : Forall plain ops -> r = [] \/ r = py "root" ->
    emit (path_of n) s (logs_after upper (ops ++ [OGet r level])) =
    emit (path_of n) s (logs_after upper (match last_setup upper ops with
                                          | None => ops ++ [OSetup level None]
                                          | Some _ => ops
                                          end)).
  Proof.
    intros Hp Hr. apply emit_ext. intros m. destruct (made_after ops Hp) as [I1 _].
    assert (Er : path_of r = []) by (destruct Hr as [-> | ->]; reflexivity).
    rewrite after_snoc. set (st := logs_after upper ops) in *. cbn [log_step]. unfold bind.
    destruct (get_logger_cases upper r level st) as [(G & E)|[(G & e & En & E)|(G & v & s' & En & E & Es)]];
      rewrite Er, I1 in G; rewrite E; cbn [snd ret]; destruct (last_setup upper ops) as [[x f]|]; cbn [rooted lg_handlers] in G;
      try congruence; try reflexivity.
    - rewrite after_snoc. cbn [log_step]. unfold bind. fold st.
      destruct (setup_cases upper level None st) as [(e' & En' & E')|(v & s' & En' & _)]; [|congruence].
      rewrite E'. reflexivity.
    - rewrite after_snoc. cbn [log_step]. unfold bind. fold st.
      destruct (setup_cases upper level None st) as [(e' & En' & E')|(v' & s'' & En' & E' & Es')]; [congruence|].
      rewrite E'. cbn [snd ret]. rewrite Es, Es', Er. replace v' with v by congruence. reflexivity.
  Qed.
End Spec.

(** ** Concrete cases *)

Definition demo_asks : list log_op :=
  [OGet (py "valori.storage") (py "INFO"); OGet (py "valori") (py "ERROR"); OGet (py "valori.storage") (py "DEBUG");
   OGet (py "valori.storage.disk") (py "NOTSET"); OSetup (py "WARNING") (Some (py "a.log")); OLog MSearch].

Example C168_names_ex :
  Forall plain demo_asks /\ uppers (py "valori.storage.disk") = [py "valori"; py "valori.storage"; py "valori.storage.disk"] /\
  printed ascii_upper demo_asks (py "valori.storage.disk") 1 = [] /\
  printed ascii_upper demo_asks (py "valori.storage.disk") 2 = [Stdout; Stdout] /\
  printed ascii_upper demo_asks (py "valori.storage.disk") 4 = [Stdout; Stdout; Stdout; Stdout; LogFile (py "a.log")] /\
  printed ascii_upper demo_asks (py "valorix") 2 = [] /\
  printed ascii_upper [] (py "valori") 3 = [Stderr].
Proof.
  split; [repeat constructor; discriminate|]. vm_compute. auto 10.
Qed.

Example C168_once_ex :
  rank_of (ascii_upper (py "warning")) = Some 3 /\
  emit (path_of (py "a.b")) 40 (logs_after ascii_upper [OGet (py "a.b") (py "warning")]) = [Stdout].
Proof. split; reflexivity. Qed.

Example C168_root_ex :
  emit (path_of (py "a.b")) 30 (logs_after ascii_upper ([OGet (py "a.b") (py "info")] ++ [OGet (py "root") (py "warning")])) =
    [Stdout; Stdout] /\
  emit (path_of (py "a.b")) 30 (logs_after ascii_upper [OGet (py "a.b") (py "info")]) = [Stdout].
Proof. split; reflexivity. Qed.

Print Assumptions C168_names.
Print Assumptions C168_root.
Print Assumptions C168_once.
