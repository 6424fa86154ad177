(** What the optional quantizer and persistence manager of a client do for its data (C124, C125). *)

From Coq Require Import String List Arith ZArith NArith Lia Bool.
From Verif Require Import PyBase BaseLemmas Payload StorageModel StorageSpec StorageRun Num ClientModel DbSpec ClientRun.
From Verif Require Import XReal ScalarModel ProductModel FsModel FsProofs PersistModel PropsTensor PropsIncr FullClientModel.
From Verif Require Import FlatModel Demo DemoIndex.
Import ListNotations.
Open Scope nat_scope.
Open Scope py_scope.

(** ** Specification *)

Section Spec.
  Context {F Mt Orc : Type}.

  (** The same call, whatever the optional components answer. *)
  Inductive same_call : cop F Mt Orc -> cop F Mt Orc -> Prop :=
  | same_init o e e' : same_call (CInit o e) (CInit o e')
  | same_close e e' : same_call (CClose e) (CClose e')
  | same_other o : same_call o o.

  (** The call made on a client that has no optional components. *)
  Definition without (o : cop F Mt Orc) : cop F Mt Orc :=
    match o with
    | CInit o _ => CInit o []
    | CClose _ => CClose []
    | o => o
    end.

  (** The life of an object that is only ever initialised, closed and constructed anew. *)
  Inductive idle {Q} (K : component Q) : Q -> Q -> Prop :=
  | idle_here q : idle K q q
  | idle_init q q' : idle K q q' -> idle K q (snd (co_init K q'))
  | idle_close q q' : idle K q q' -> idle K q (snd (co_close K q'))
  | idle_reopen q q' : idle K q q' -> idle K q (co_reopen K q').

  (** An optional component whose report never raises, at any time of its life under a client. *)
  Definition reports {Q} (K : component Q) (o : option Q) : Prop :=
    forall q q', o = Some q -> idle K q q' -> co_stats K q' = Ok tt.

  (** ... and whose [initialize] and [close] do not raise either. *)
  Definition never_raises {Q} (K : component Q) (o : option Q) : Prop :=
    reports K o /\ forall q q', o = Some q -> idle K q q' ->
      fst (co_init K q') = Ok tt /\ fst (co_close K q') = Ok tt.
End Spec.

Section Proofs.
  Context {X S F Mt Orc Q P : Type}.
  Context (C : storage_class S (list F) Mt) (IC : index_class X S F Mt Orc).
  Context (CQ : component Q) (CP : component P).

  Notation run := (fl_run C IC CQ CP).
  Notation stp := (fl_step C IC CQ CP).
  Implicit Type c : fclient X S Q P.

  (** The client without its optional components. *)
  Definition erase (c : fclient X S Q P) : client X S := MkClient (fc_index c) (fc_storage c) (fc_init c).

  Definition q_out (m : M Q unit) (c : fclient X S Q P) : list (result unit) :=
    match fc_quant c with Some q => [fst (m q)] | None => [] end.
  Definition p_out (m : M P unit) (c : fclient X S Q P) : list (result unit) :=
    match fc_pers c with Some p => [fst (m p)] | None => [] end.

  (** A call as the client without components sees it. *)
  Definition seen (c : fclient X S Q P) (o : cop F Mt Orc) : cop F Mt Orc :=
    match o with
    | CInit o _ => CInit o (q_out (co_init CQ) c ++ p_out (co_init CP) c)
    | CClose _ => CClose (p_out (co_close CP) c ++ q_out (co_close CQ) c)
    | o => o
    end.

  Lemma seen_same c o : same_call o (seen c o).
  Proof. destruct o; constructor. Qed.

  Definition sim {A} (r : result A * fclient X S Q P) (r' : result A * client X S) : Prop :=
    fst r = fst r' /\ erase (snd r) = snd r'.

  Lemma sim_obs {A} (f : A -> cret F Mt) r r' : sim r r' -> fst (fobs f r) = fst (cobs f r') /\
    erase (snd (fobs f r)) = snd (cobs f r').
  Proof.
    intros (E & H). destruct r as [a c], r' as [a' c']. simpl in *. subst. destruct a'; auto.
  Qed.

  Lemma sim_bind {A B} (m : M (fclient X S Q P) A) m' (k : A -> M (fclient X S Q P) B) k' c :
    sim (m c) (m' (erase c)) -> (forall a c1, m c = (Ok a, c1) -> sim (k a c1) (k' a (erase c1))) ->
    sim (bind m k c) (bind m' k' (erase c)).
  Proof.
    intros (E & H) K. unfold bind. destruct (m c) as [r c1] eqn:Em, (m' (erase c)) as [r' c1'].
    simpl in *. subst. destruct r'; [apply K; auto|]. split; auto.
  Qed.

  Lemma sim_wrap {A} e (m : M (fclient X S Q P) A) m' c :
    sim (m c) (m' (erase c)) -> sim (wrap e m c) (wrap e m' (erase c)).
  Proof.
    intros (E & H). unfold wrap. destruct (m c) as [r c1], (m' (erase c)) as [r' c1'].
    simpl in *. subst. destruct r'; split; auto.
  Qed.

  Lemma sim_index {A} (m : M (X * S) A) c : sim (fc_on_index m c) (on_index m (erase c)).
  Proof.
    unfold fc_on_index, on_index, zoom. cbn [erase c_index c_storage].
    destruct (m (fc_index c, fc_storage c)) as [r w]. split; reflexivity.
  Qed.

  Lemma sim_storage {A} (m : M S A) c : sim (fc_on_storage m c) (on_storage m (erase c)).
  Proof.
    unfold fc_on_storage, on_storage, zoom. cbn [erase c_index c_storage].
    destruct (m (fc_storage c)) as [r w]. split; reflexivity.
  Qed.

  Lemma sim_guard {A} (m : M (fclient X S Q P) A) m' c :
    sim (m c) (m' (erase c)) -> sim (fc_guarded m c) (guarded m' (erase c)).
  Proof.
    intros H. unfold fc_guarded, guarded, bind, get. cbn [erase c_init].
    destruct (fc_init c); [exact H|split; reflexivity].
  Qed.

  (** What a call leaves of the two components. *)
  Lemma index_keeps {A} (m : M (X * S) A) c : fc_quant (snd (fc_on_index m c)) = fc_quant c /\
    fc_pers (snd (fc_on_index m c)) = fc_pers c.
  Proof. unfold fc_on_index, zoom. destruct (m (fc_index c, fc_storage c)). auto. Qed.

  Lemma storage_keeps {A} (m : M S A) c : fc_quant (snd (fc_on_storage m c)) = fc_quant c /\
    fc_pers (snd (fc_on_storage m c)) = fc_pers c.
  Proof. unfold fc_on_storage, zoom. destruct (m (fc_storage c)). auto. Qed.

  Lemma guard_keeps {A} (m : M (fclient X S Q P) A) c :
    fc_quant (snd (m c)) = fc_quant c /\ fc_pers (snd (m c)) = fc_pers c ->
    fc_quant (snd (fc_guarded m c)) = fc_quant c /\ fc_pers (snd (fc_guarded m c)) = fc_pers c.
  Proof. intros H. unfold fc_guarded, bind, get. destruct (fc_init c); auto. Qed.

  (** The two optional calls, in either order, and the outcomes they are replaced by. *)
  Lemma if_quant_erase m c : erase (snd (if_quant m c)) = erase c /\
    fc_pers (snd (if_quant m c)) = fc_pers c /\ forM (q_out m c) (fun r => lift r) (erase c) = (fst (if_quant m c), erase c).
  Proof.
    unfold if_quant, q_out. destruct (fc_quant c) as [q|]; [|repeat split].
    destruct (m q) as [r q']. repeat split. cbn [fst forM].
    unfold bind, lift. destruct r as [[]|]; reflexivity.
  Qed.

  Lemma if_pers_erase m c : erase (snd (if_pers m c)) = erase c /\
    fc_quant (snd (if_pers m c)) = fc_quant c /\ forM (p_out m c) (fun r => lift r) (erase c) = (fst (if_pers m c), erase c).
  Proof.
    unfold if_pers, p_out. destruct (fc_pers c) as [q|]; [|repeat split].
    destruct (m q) as [r q']. repeat split. cbn [fst forM].
    unfold bind, lift. destruct r as [[]|]; reflexivity.
  Qed.

  Lemma outcome_quant {A} m c rest (k : M (fclient X S Q P) A) k' :
    (forall c1, fc_pers c1 = fc_pers c ->
       sim (k c1) ((forM rest (fun r => lift r) ;;; k') (erase c1))) ->
    sim ((if_quant m ;;; k) c) ((forM (q_out m c ++ rest) (fun r => lift r) ;;; k') (erase c)).
  Proof.
    intros H. unfold if_quant, q_out, bind. specialize (H c eq_refl) as H0.
    destruct (fc_quant c) as [q|]; [|exact H0].
    destruct (m q) as [[[]|x] q']; cbn [fst app forM]; [|split; reflexivity].
    specialize (H (MkFull (fc_index c) (fc_storage c) (Some q') (fc_pers c) (fc_init c)) eq_refl).
    exact H.
  Qed.

  Lemma outcome_pers {A} m c rest (k : M (fclient X S Q P) A) k' :
    (forall c1, fc_quant c1 = fc_quant c ->
       sim (k c1) ((forM rest (fun r => lift r) ;;; k') (erase c1))) ->
    sim ((if_pers m ;;; k) c) ((forM (p_out m c ++ rest) (fun r => lift r) ;;; k') (erase c)).
  Proof.
    intros H. unfold if_pers, p_out, bind. specialize (H c eq_refl) as H0.
    destruct (fc_pers c) as [q|]; [|exact H0].
    destruct (m q) as [[[]|x] q']; cbn [fst app forM]; [|split; reflexivity].
    specialize (H (MkFull (fc_index c) (fc_storage c) (fc_quant c) (Some q') (fc_init c)) eq_refl).
    exact H.
  Qed.

  Lemma step_sim c o : (forall q, fc_quant c = Some q -> co_stats CQ q = Ok tt) ->
    (forall p, fc_pers c = Some p -> co_stats CP p = Ok tt) ->
    fst (stp c o) = fst (cl_step C IC (erase c) (seen c o)) /\
    erase (snd (stp c o)) = snd (cl_step C IC (erase c) (seen c o)).
  Proof.
    intros Sq Sp. destruct o as [o e|o fresh arr meta|o q k|ids|o id v m| |e|].
    - apply sim_obs. unfold fl_initialize, cl_initialize. apply sim_wrap.
      apply sim_bind; [apply sim_storage|]. intros [] c1 E1.
      pose proof (storage_keeps (sc_init C) c) as (K1 & K2). rewrite E1 in K1, K2. cbn [snd] in K1, K2.
      apply sim_bind; [apply sim_index|]. intros [] c2 E2.
      pose proof (index_keeps (ix_init IC o) c1) as (K3 & K4). rewrite E2 in K3, K4. cbn [snd] in K3, K4.
      replace (q_out (co_init CQ) c) with (q_out (co_init CQ) c2)
        by (unfold q_out; rewrite K3, K1; reflexivity).
      replace (p_out (co_init CP) c) with (p_out (co_init CP) c2)
        by (unfold p_out; rewrite K4, K2; reflexivity).
      apply outcome_quant. intros c3 K5. rewrite <- (app_nil_r (p_out (co_init CP) c2)).
      replace (p_out (co_init CP) c2) with (p_out (co_init CP) c3)
        by (unfold p_out; rewrite K5; reflexivity).
      apply outcome_pers. intros c4 _. split; reflexivity.
    - apply sim_obs, sim_guard, sim_index.
    - apply sim_obs, sim_guard, sim_index.
    - apply sim_obs, sim_guard, sim_index.
    - apply sim_obs, sim_guard, sim_index.
    - apply sim_obs, sim_guard. apply sim_bind; [apply sim_storage|]. intros st c1 E1.
      pose proof (storage_keeps (sc_stats C) c) as (K1 & K2). rewrite E1 in K1, K2. cbn [snd] in K1, K2.
      rewrite <- K1 in Sq. rewrite <- K2 in Sp. destruct c1 as [x s [q|] [p|] b]; cbn [fc_quant fc_pers] in *;
        unfold bind, get, if_quant, if_pers; cbn [fc_quant fc_pers fc_index fc_storage fc_init];
        rewrite ?(Sq _ eq_refl), ?(Sp _ eq_refl); split; reflexivity.
    - apply sim_obs. unfold fl_close, cl_close. cbn [seen].
      apply outcome_pers. intros c3 K5. rewrite <- (app_nil_r (q_out (co_close CQ) c)).
      replace (q_out (co_close CQ) c) with (q_out (co_close CQ) c3)
        by (unfold q_out; rewrite K5; reflexivity).
      apply outcome_quant. intros c4 _. cbn [forM].
      match goal with |- sim _ ((ret tt ;;; ?k) ?w) => change ((ret tt ;;; k) w) with (k w) end.
      apply sim_bind; [apply sim_index|]. intros [] c6 _.
      apply sim_bind; [apply sim_storage|]. intros [] c7 _. split; reflexivity.
    - split; reflexivity.
  Qed.

  (** One call and the two components. *)
  Lemma step_quant c o q : fc_quant c = Some q -> exists q', fc_quant (snd (stp c o)) = Some q' /\
    idle CQ q q' /\ match o with CInit _ _ | CClose _ | CReopen => True | _ => q' = q end.
  Proof.
    assert (Ob : forall A (f : A -> cret F Mt) (r : result A * fclient X S Q P), snd (fobs f r) = snd r) by (intros A f [[a|e] s]; reflexivity).
    intros Hq. destruct o as [o e|o fresh arr meta|o q0 k|ids|o id v m| |e|];
      try (cbn [fl_step]; rewrite Ob;
           match goal with |- context [snd (?m c)] =>
             let H := fresh in assert (H : fc_quant (snd (m c)) = fc_quant c /\ fc_pers (snd (m c)) = fc_pers c)
               by (apply guard_keeps, index_keeps); destruct H as [H _] end;
           exists q; split; [congruence|split; [constructor|reflexivity]]).
    - cbn [fl_step]. rewrite Ob. unfold fl_initialize, wrap, bind.
      pose proof (storage_keeps (sc_init C) c) as (K1 & _).
      destruct (fc_on_storage (sc_init C) c) as [[[]|x] c1]; cbn [fst snd] in *;
        [|exists q; split; [congruence|split; [constructor|auto]]].
      pose proof (index_keeps (ix_init IC o) c1) as (K3 & _).
      destruct (fc_on_index (ix_init IC o) c1) as [[[]|x] c2]; cbn [fst snd] in *;
        [|exists q; split; [congruence|split; [constructor|auto]]].
      unfold if_quant at 1. replace (fc_quant c2) with (Some q) by congruence.
      pose proof (idle_init CQ q q (idle_here CQ q)) as Hi.
      destruct (co_init CQ q) as [[[]|x] q']; cbn [fst snd] in *;
        [|exists q'; split; [reflexivity|auto]].
      match goal with |- context [if_pers (co_init CP) ?d] =>
        pose proof (if_pers_erase (co_init CP) d) as (_ & A2 & _);
        destruct (if_pers (co_init CP) d) as [[[]|x] c4] end;
        cbn [fst snd fc_quant fc_set modify] in *; exists q'; auto.
    - cbn [fl_step]. rewrite Ob. exists q. split; [|split; [constructor|auto]].
      rewrite <- Hq. apply guard_keeps. unfold bind, get.
      pose proof (storage_keeps (sc_stats C) c) as (K1 & K2).
      destruct (fc_on_storage (sc_stats C) c) as [[st|x] c1]; cbn [fst snd] in *; [|auto].
      destruct c1 as [x s [q1|] [p1|] b]; cbn [fc_quant fc_pers] in *;
        unfold if_quant, if_pers; cbn [fc_quant fc_pers];
        repeat match goal with |- context [match co_stats ?k ?v with _ => _ end] =>
          destruct (co_stats k v) end; auto.
    - cbn [fl_step]. rewrite Ob. unfold fl_close, bind.
      pose proof (if_pers_erase (co_close CP) c) as (_ & A2 & _).
      destruct (if_pers (co_close CP) c) as [[[]|x] c1]; cbn [fst snd] in *;
        [|exists q; split; [congruence|split; [constructor|auto]]].
      pose proof (idle_close CQ q q (idle_here CQ q)) as Hi.
      unfold if_quant at 1. replace (fc_quant c1) with (Some q) by congruence.
      destruct (co_close CQ q) as [[[]|x] q']; cbn [fst snd] in *;
        [|exists q'; split; [reflexivity|auto]].
      exists q'. split; [|auto].
      match goal with |- context [fc_on_index (ix_close IC) ?d] =>
        pose proof (index_keeps (ix_close IC) d) as (K3 & _);
        destruct (fc_on_index (ix_close IC) d) as [[[]|x] c2] end; cbn [fst snd fc_quant] in *; [|auto].
      pose proof (storage_keeps (sc_close C) c2) as (K4 & _).
      destruct (fc_on_storage (sc_close C) c2) as [[[]|x] c3]; cbn [fst snd fc_quant fc_set modify] in *; congruence.
    - exists (co_reopen CQ q). cbn [fl_step snd fl_reopen fc_quant]. rewrite Hq.
      split; [reflexivity|split; [do 2 constructor|auto]].
  Qed.

  Lemma step_pers c o p : fc_pers c = Some p -> exists p', fc_pers (snd (stp c o)) = Some p' /\
    idle CP p p' /\ match o with CInit _ _ | CClose _ | CReopen => True | _ => p' = p end.
  Proof.
    assert (Ob : forall A (f : A -> cret F Mt) (r : result A * fclient X S Q P), snd (fobs f r) = snd r) by (intros A f [[a|e] s]; reflexivity).
    intros Hp. destruct o as [o e|o fresh arr meta|o q0 k|ids|o id v m| |e|];
      try (cbn [fl_step]; rewrite Ob;
           match goal with |- context [snd (?m c)] =>
             let H := fresh in assert (H : fc_quant (snd (m c)) = fc_quant c /\ fc_pers (snd (m c)) = fc_pers c)
               by (apply guard_keeps, index_keeps); destruct H as [_ H] end;
           exists p; split; [congruence|split; [constructor|reflexivity]]).
    - cbn [fl_step]. rewrite Ob. unfold fl_initialize, wrap, bind.
      pose proof (storage_keeps (sc_init C) c) as (_ & K1).
      destruct (fc_on_storage (sc_init C) c) as [[[]|x] c1]; cbn [fst snd] in *;
        [|exists p; split; [congruence|split; [constructor|auto]]].
      pose proof (index_keeps (ix_init IC o) c1) as (_ & K3).
      destruct (fc_on_index (ix_init IC o) c1) as [[[]|x] c2]; cbn [fst snd] in *;
        [|exists p; split; [congruence|split; [constructor|auto]]].
      pose proof (if_quant_erase (co_init CQ) c2) as (_ & A2 & _).
      destruct (if_quant (co_init CQ) c2) as [[[]|x] c3]; cbn [fst snd] in *;
        [|exists p; split; [congruence|split; [constructor|auto]]].
      unfold if_pers at 1. replace (fc_pers c3) with (Some p) by congruence.
      pose proof (idle_init CP p p (idle_here CP p)) as Hi.
      destruct (co_init CP p) as [[[]|x] p']; cbn [fst snd fc_pers fc_set modify] in *; exists p'; auto.
    - cbn [fl_step]. rewrite Ob. exists p. split; [|split; [constructor|auto]].
      rewrite <- Hp. apply guard_keeps. unfold bind, get.
      pose proof (storage_keeps (sc_stats C) c) as (K1 & K2).
      destruct (fc_on_storage (sc_stats C) c) as [[st|x] c1]; cbn [fst snd] in *; [|auto].
      destruct c1 as [x s [q1|] [p1|] b]; cbn [fc_quant fc_pers] in *;
        unfold if_quant, if_pers; cbn [fc_quant fc_pers];
        repeat match goal with |- context [match co_stats ?k ?v with _ => _ end] =>
          destruct (co_stats k v) end; auto.
    - cbn [fl_step]. rewrite Ob. unfold fl_close, bind.
      pose proof (idle_close CP p p (idle_here CP p)) as Hi.
      unfold if_pers at 1. rewrite Hp.
      destruct (co_close CP p) as [[[]|x] p']; cbn [fst snd] in *;
        [|exists p'; split; [reflexivity|auto]].
      exists p'. split; [|auto].
      match goal with |- context [if_quant (co_close CQ) ?d] =>
        pose proof (if_quant_erase (co_close CQ) d) as (_ & A2 & _);
        destruct (if_quant (co_close CQ) d) as [[[]|x] c1] end; cbn [fst snd fc_pers] in *; [|auto].
      pose proof (index_keeps (ix_close IC) c1) as (_ & K3).
      destruct (fc_on_index (ix_close IC) c1) as [[[]|x] c2]; cbn [fst snd fc_pers] in *; [|congruence].
      pose proof (storage_keeps (sc_close C) c2) as (_ & K4).
      destruct (fc_on_storage (sc_close C) c2) as [[[]|x] c3]; cbn [fst snd fc_pers fc_set modify] in *; congruence.
    - exists (co_reopen CP p). cbn [fl_step snd fl_reopen fc_pers]. rewrite Hp.
      split; [reflexivity|split; [do 2 constructor|auto]].
  Qed.

  Lemma idle_trans {T} (K : component T) a b d : idle K a b -> idle K b d -> idle K a d.
  Proof. intros H1 H2. induction H2; [auto|constructor; auto..]. Qed.

  Lemma step_no_quant c o : fc_quant c = None -> fc_quant (snd (stp c o)) = None.
  Proof.
    assert (Ob : forall A (f : A -> cret F Mt) (r : result A * fclient X S Q P), snd (fobs f r) = snd r)
      by (intros A f [[a|e] s]; reflexivity).
    intros Hq. destruct o as [o e|o fresh arr meta|o q0 k|ids|o id v m| |e|]; cbn [fl_step]; rewrite ?Ob;
      try (rewrite <- Hq; apply guard_keeps, index_keeps).
    - unfold fl_initialize, wrap, bind.
      pose proof (storage_keeps (sc_init C) c) as (K1 & _).
      destruct (fc_on_storage (sc_init C) c) as [[[]|x] c1]; cbn [fst snd] in *; [|congruence].
      pose proof (index_keeps (ix_init IC o) c1) as (K3 & _).
      destruct (fc_on_index (ix_init IC o) c1) as [[[]|x] c2]; cbn [fst snd] in *; [|congruence].
      unfold if_quant. replace (fc_quant c2) with (@None Q) by congruence.
      pose proof (if_pers_erase (co_init CP) c2) as (_ & A2 & _).
      destruct (if_pers (co_init CP) c2) as [[[]|x] c4]; cbn [fst snd fc_quant fc_set modify] in *; congruence.
    - rewrite <- Hq. apply guard_keeps. unfold bind, get.
      pose proof (storage_keeps (sc_stats C) c) as (K1 & K2).
      destruct (fc_on_storage (sc_stats C) c) as [[st|x] c1]; cbn [fst snd] in *; [|auto].
      destruct c1 as [x s [q1|] [p1|] b]; cbn [fc_quant fc_pers] in *;
        unfold if_quant, if_pers; cbn [fc_quant fc_pers];
        repeat match goal with |- context [match co_stats ?k ?v with _ => _ end] =>
          destruct (co_stats k v) end; auto.
    - unfold fl_close, bind.
      pose proof (if_pers_erase (co_close CP) c) as (_ & A2 & _).
      destruct (if_pers (co_close CP) c) as [[[]|x] c1]; cbn [fst snd] in *; [|congruence].
      unfold if_quant. replace (fc_quant c1) with (@None Q) by congruence.
      pose proof (index_keeps (ix_close IC) c1) as (K3 & _).
      destruct (fc_on_index (ix_close IC) c1) as [[[]|x] c2]; cbn [fst snd fc_quant] in *; [|congruence].
      pose proof (storage_keeps (sc_close C) c2) as (K4 & _).
      destruct (fc_on_storage (sc_close C) c2) as [[[]|x] c3]; cbn [fst snd fc_quant fc_set modify] in *; congruence.
    - cbn [snd fl_reopen fc_quant]. now rewrite Hq.
  Qed.

  Lemma step_no_pers c o : fc_pers c = None -> fc_pers (snd (stp c o)) = None.
  Proof.
    assert (Ob : forall A (f : A -> cret F Mt) (r : result A * fclient X S Q P), snd (fobs f r) = snd r)
      by (intros A f [[a|e] s]; reflexivity).
    intros Hq. destruct o as [o e|o fresh arr meta|o q0 k|ids|o id v m| |e|]; cbn [fl_step]; rewrite ?Ob;
      try (rewrite <- Hq; apply guard_keeps, index_keeps).
    - unfold fl_initialize, wrap, bind.
      pose proof (storage_keeps (sc_init C) c) as (_ & K1).
      destruct (fc_on_storage (sc_init C) c) as [[[]|x] c1]; cbn [fst snd] in *; [|congruence].
      pose proof (index_keeps (ix_init IC o) c1) as (_ & K3).
      destruct (fc_on_index (ix_init IC o) c1) as [[[]|x] c2]; cbn [fst snd] in *; [|congruence].
      pose proof (if_quant_erase (co_init CQ) c2) as (_ & A2 & _).
      destruct (if_quant (co_init CQ) c2) as [[[]|x] c3]; cbn [fst snd] in *; [|congruence].
      unfold if_pers. replace (fc_pers c3) with (@None P) by congruence.
      cbn [fst snd fc_pers fc_set modify] in *; congruence.
    - rewrite <- Hq. apply guard_keeps. unfold bind, get.
      pose proof (storage_keeps (sc_stats C) c) as (K1 & K2).
      destruct (fc_on_storage (sc_stats C) c) as [[st|x] c1]; cbn [fst snd] in *; [|auto].
      destruct c1 as [x s [q1|] [p1|] b]; cbn [fc_quant fc_pers] in *;
        unfold if_quant, if_pers; cbn [fc_quant fc_pers];
        repeat match goal with |- context [match co_stats ?k ?v with _ => _ end] =>
          destruct (co_stats k v) end; auto.
    - unfold fl_close, bind. unfold if_pers. rewrite Hq.
      pose proof (if_quant_erase (co_close CQ) c) as (_ & A2 & _).
      destruct (if_quant (co_close CQ) c) as [[[]|x] c1]; cbn [fst snd] in *; [|congruence].
      pose proof (index_keeps (ix_close IC) c1) as (_ & K3).
      destruct (fc_on_index (ix_close IC) c1) as [[[]|x] c2]; cbn [fst snd fc_pers] in *; [|congruence].
      pose proof (storage_keeps (sc_close C) c2) as (_ & K4).
      destruct (fc_on_storage (sc_close C) c2) as [[[]|x] c3]; cbn [fst snd fc_pers fc_set modify] in *; congruence.
    - cbn [snd fl_reopen fc_pers]. now rewrite Hq.
  Qed.

  (** Life goes on from call to call. *)
  Lemma quant_goes_on c o q1 q' : fc_quant (snd (stp c o)) = Some q1 -> idle CQ q1 q' ->
    exists q, fc_quant c = Some q /\ idle CQ q q'.
  Proof.
    intros E I1. destruct (fc_quant c) as [q|] eqn:Eq; [|rewrite step_no_quant in E by auto; discriminate].
    exists q. split; auto. destruct (step_quant c o q Eq) as (q2 & E2 & I2 & _).
    rewrite E in E2. injection E2 as <-. eapply idle_trans; eauto.
  Qed.

  Lemma pers_goes_on c o p1 p' : fc_pers (snd (stp c o)) = Some p1 -> idle CP p1 p' ->
    exists p, fc_pers c = Some p /\ idle CP p p'.
  Proof.
    intros E I1. destruct (fc_pers c) as [q|] eqn:Eq; [|rewrite step_no_pers in E by auto; discriminate].
    exists q. split; auto. destruct (step_pers c o q Eq) as (q2 & E2 & I2 & _).
    rewrite E in E2. injection E2 as <-. eapply idle_trans; eauto.
  Qed.

  (** *** C124 *)

  (** In every history, on every backend, index and pair of components: the answers are those a
      client without components gives to the same calls, up to the outcomes of the components'
      own [initialize] and [close]; so are the states of the index and of the backend. *)
  Theorem C124_no_influence ops : forall c, reports CQ (fc_quant c) -> reports CP (fc_pers c) ->
    exists ops', Forall2 same_call ops ops' /\
      fst (run c ops) = fst (cl_run C IC (erase c) ops') /\
      erase (snd (run c ops)) = snd (cl_run C IC (erase c) ops').
  Proof.
    induction ops as [|o ops IH]; intros c Sq Sp.
    - exists []. repeat split. constructor.
    - destruct (step_sim c o (fun q H => Sq q q H (idle_here CQ q)) (fun p H => Sp p p H (idle_here CP p)))
        as (E1 & E2).
      destruct (IH (snd (stp c o))) as (ops' & H1 & H2 & H3).
      { intros q q' E I1. destruct (quant_goes_on _ _ _ _ E I1) as (q0 & ? & ?). eauto. }
      { intros q q' E I1. destruct (pers_goes_on _ _ _ _ E I1) as (q0 & ? & ?). eauto. }
      exists (seen c o :: ops'). split; [constructor; auto using seen_same|].
      cbn [fl_run cl_run]. destruct (stp c o) as [r c']. cbn [fst snd] in *.
      rewrite E2 in H2, H3. destruct (cl_step C IC (erase c) (seen c o)) as [r1 c1]. cbn [fst snd] in *. subst.
      destruct (fl_run C IC CQ CP c' ops) as [rs c2], (cl_run C IC (erase c') ops') as [rs' c2'].
      cbn [fst snd] in *. subst. auto.
  Qed.

  Lemma seen_quiet c o : never_raises CQ (fc_quant c) -> never_raises CP (fc_pers c) ->
    cl_step C IC (erase c) (seen c o) = cl_step C IC (erase c) (without o).
  Proof.
    intros (_ & NQ) (_ & NP).
    assert (Q1 : forall q, fc_quant c = Some q -> fst (co_init CQ q) = Ok tt /\ fst (co_close CQ q) = Ok tt)
      by (intros q E; apply (NQ q q E), idle_here).
    assert (P1 : forall q, fc_pers c = Some q -> fst (co_init CP q) = Ok tt /\ fst (co_close CP q) = Ok tt)
      by (intros q E; apply (NP q q E), idle_here).
    destruct o; auto.
    - cbn [seen without cl_step]. f_equal. unfold cl_initialize, q_out, p_out.
      destruct (fc_quant c) as [q|], (fc_pers c) as [p|];
        try rewrite (proj1 (Q1 _ eq_refl)); try rewrite (proj1 (P1 _ eq_refl)); reflexivity.
    - cbn [seen without cl_step]. f_equal. unfold cl_close, q_out, p_out.
      destruct (fc_quant c) as [q|], (fc_pers c) as [p|];
        try rewrite (proj2 (Q1 _ eq_refl)); try rewrite (proj2 (P1 _ eq_refl)); reflexivity.
  Qed.

  (** With components that do not raise the answers are exactly those of a client without. *)
  Theorem C124_as_without ops : forall c, never_raises CQ (fc_quant c) -> never_raises CP (fc_pers c) ->
    fst (run c ops) = fst (cl_run C IC (erase c) (map without ops)) /\
    erase (snd (run c ops)) = snd (cl_run C IC (erase c) (map without ops)).
  Proof.
    induction ops as [|o ops IH]; intros c NQ NP; [split; reflexivity|].
    destruct (step_sim c o (fun q H => proj1 NQ q q H (idle_here CQ q))
                (fun p H => proj1 NP p p H (idle_here CP p))) as (E1 & E2).
    rewrite seen_quiet in E1, E2 by auto. destruct (IH (snd (stp c o))) as (H2 & H3).
    { split; intros q q' E I1; destruct (quant_goes_on _ _ _ _ E I1) as (q0 & ? & ?); destruct NQ; eauto. }
    { split; intros q q' E I1; destruct (pers_goes_on _ _ _ _ E I1) as (q0 & ? & ?); destruct NP; eauto. }
    cbn [fl_run cl_run map]. destruct (stp c o) as [r c']. cbn [fst snd] in *.
    rewrite E2 in H2, H3. destruct (cl_step C IC (erase c) (without o)) as [r1 c1]. cbn [fst snd] in *. subst.
    destruct (fl_run C IC CQ CP c' ops) as [rs c2], (cl_run C IC (erase c') (map without ops)) as [rs' c2'].
    cbn [fst snd] in *. subst. auto.
  Qed.

  (** *** C125 *)

  (** Whatever the history, a quantizer has only been initialised, closed and constructed anew: no
      vector has ever been given to it. *)
  Theorem C125_quantizer_idle_partial ops : forall c q, fc_quant c = Some q ->
    exists q', fc_quant (snd (run c ops)) = Some q' /\ idle CQ q q'.
  Proof.
    induction ops as [|o ops IH]; intros c q Hq.
    - exists q. split; auto; constructor.
    - destruct (step_quant c o q Hq) as (q1 & E1 & I1 & _).
      destruct (IH _ _ E1) as (q' & F1 & I3). exists q'.
      cbn [fl_run]. destruct (stp c o) as [r c']. cbn [snd] in *.
      destruct (fl_run C IC CQ CP c' ops) as [rs c2]. cbn [snd] in *.
      split; auto; eapply idle_trans; eauto.
  Qed.

  (** Nor to a persistence manager. *)
  Theorem C125_manager_idle_partial ops : forall c p, fc_pers c = Some p ->
    exists p', fc_pers (snd (run c ops)) = Some p' /\ idle CP p p'.
  Proof.
    induction ops as [|o ops IH]; intros c p Hp.
    - exists p. split; auto; constructor.
    - destruct (step_pers c o p Hp) as (p1 & E1 & I1 & _).
      destruct (IH _ _ E1) as (p' & F1 & I3). exists p'.
      cbn [fl_run]. destruct (stp c o) as [r c']. cbn [snd] in *.
      destruct (fl_run C IC CQ CP c' ops) as [rs c2]. cbn [snd] in *.
      split; auto; eapply idle_trans; eauto.
  Qed.

  (** Between two calls of [initialize] and [close] they do not change at all. *)
  Theorem C125_components_untouched_partial ops : forall c q p, fc_quant c = Some q -> fc_pers c = Some p ->
    Forall (fun o => match o with CInit _ _ | CClose _ | CReopen => False | _ => True end) ops ->
    fc_quant (snd (run c ops)) = Some q /\ fc_pers (snd (run c ops)) = Some p.
  Proof.
    induction ops as [|o ops IH]; intros c q p Hq Hp Hf; [auto|]. inversion Hf; subst.
    destruct (step_quant c o q Hq) as (q1 & E1 & _ & I1).
    destruct (step_pers c o p Hp) as (p1 & E2 & _ & I2).
    assert (q1 = q) by (destruct o; auto; contradiction). assert (p1 = p) by (destruct o; auto; contradiction).
    subst. destruct (IH _ _ _ E1 E2) as (F1 & F2); auto.
    cbn [fl_run]. destruct (stp c o) as [r c']. cbn [snd] in *.
    destruct (fl_run C IC CQ CP c' ops) as [rs c2]. auto.
  Qed.
End Proofs.

(** ** The components that exist *)

Lemma scalar_never_raises o : never_raises scalar_component o.
Proof. repeat split. Qed.

Lemma product_never_raises {F} o : never_raises (product_component (F := F)) o.
Proof. repeat split. Qed.

(** A quantizer that came untrained stays untrained. *)
Lemma scalar_idle q q' : idle scalar_component q q' -> sq_trained q = false -> sq_trained q' = false.
Proof. intros H E. induction H; auto. Qed.

Lemma product_idle {F} (q q' : productq F) : idle product_component q q' -> pq_trained q = false -> pq_trained q' = false.
Proof. intros H E. induction H; auto. Qed.

Lemma saq_idle q q' : idle saq_component q q' -> sl_trained q = false -> sl_trained q' = false.
Proof. intros H E. induction H; auto. Qed.

(** So its report does not fail. *)
Lemma saq_never_raises q : sl_trained q = false -> never_raises saq_component (Some q).
Proof.
  intros Ht. split; [|repeat split]. intros q0 q' E I1. injection E as <-.
  cbn. rewrite (saq_idle _ _ I1 Ht). now destruct (sl_init q').
Qed.

(** What a tree of files may become when nothing is saved in it: every file keeps its contents,
    and a new file is an empty operation log. *)
Definition nothing_saved {V O} (t u : dict (list pystr) (node V O)) : Prop :=
  (forall l c, dget l t = Some (File c) -> dget l u = Some (File c)) /\
  (forall l c, dget l u = Some (File c) -> dget l t = Some (File c) \/ c = CLog []).

Section Files.
  Context {V O : Type}.
  Implicit Types s : fsys V O.

  Lemma saved_refl (t : dict (list pystr) (node V O)) : nothing_saved t t.
  Proof. split; auto. Qed.

  Lemma saved_trans (t u w : dict (list pystr) (node V O)) : nothing_saved t u -> nothing_saved u w -> nothing_saved t w.
  Proof.
    intros (A1 & A2) (B1 & B2). split; [auto|]. intros l c H. destruct (B2 l c H); auto.
  Qed.

  Definition quiet s s' : Prop := nothing_saved (f_tree s) (f_tree s').

  Lemma put_quiet l (x : node V O) s : lookup (f_tree s) l = None -> (x = Dir \/ x = File (CLog [])) ->
    quiet s (snd (put l x s)).
  Proof.
    intros El Hx. unfold quiet.
    destruct (put_cases l x s) as [(_ & E & _)|(_ & E & _)]; rewrite E; [|apply saved_refl].
    assert (dget l (f_tree s) = None) by (destruct l; [discriminate|exact El]).
    split; intros j c Hj.
    - rewrite dget_dset. destruct (eqb_spec j l); [subst; congruence|auto].
    - rewrite dget_dset in Hj. destruct (eqb_spec j l) as [->|]; [|auto].
      right. destruct Hx; subst x; congruence.
  Qed.

  Lemma mkdirs_quiet parts : runs quiet (mkdirs (V := V) (O := O) parts).
  Proof.
    apply runs_forM; [intros; apply saved_refl|intros a b c; apply saved_trans|]. intros a _.
    apply runs_get. intros s. destruct (walk (f_tree s) [] a) as [l|]; [|apply saved_refl].
    destruct (lookup (f_tree s) l) as [[|c]|] eqn:El; try apply saved_refl. apply put_quiet; auto.
  Qed.

  Lemma tensor_init_quiet (t : tensor V O) :
    nothing_saved (f_tree (t_fs t)) (f_tree (t_fs (snd (tensor_initialize t)))) .
  Proof.
    unfold tensor_initialize, wrap, bind, get, t_do, zoom.
    pose proof (mkdirs_quiet (t_base t) (t_fs t)) as H.
    destruct (mkdirs (t_base t) (t_fs t)) as [[[]|x] fs]; exact H.
  Qed.

  Lemma incr_init_quiet (t : incr V O) :
    nothing_saved (f_tree (i_fs t)) (f_tree (i_fs (snd (incr_initialize t)))).
  Proof.
    unfold incr_initialize, wrap, bind, get, i_do, zoom.
    pose proof (mkdirs_quiet (i_base t) (i_fs t)) as H.
    destruct (mkdirs (i_base t) (i_fs t)) as [[[]|x] fs]; [|exact H]. cbn [snd i_fs i_base i_interval i_init i_count i_last] in *.
    unfold quiet in H.
    assert (L : forall w, f_tree (i_fs (snd (match load_info w with (Ok _, s') => set_init true s' | (Raise e, s') => (Raise e, s') end : result unit * incr V O)))
                = f_tree (i_fs w)).
    { intros w. unfold load_info, bind, get, set_last, set_count, set_init, modify.
      destruct (node_at (f_tree (i_fs w)) (i_base w ++ [info_name])) as [[|[]]|]; reflexivity. }
    assert (W : forall (r : result unit * incr V O), i_fs (snd (let (r0, s') := r in match r0 with Ok a => (Ok a, s') | Raise _ => (Raise EPersist, s') end)) = i_fs (snd r))
      by (intros [[[]|] ?]; reflexivity).
    rewrite W.
    destruct (node_at (f_tree fs) (i_base t ++ [log_name])) as [nd|] eqn:En.
    - cbn [ret]. rewrite L. exact H.
    - unfold node_at in En. unfold touch, bind, get. cbn [i_fs i_base].
      destruct (walk (f_tree fs) [] (i_base t ++ [log_name])) as [l|].
      + pose proof (put_quiet l (File (CLog [])) fs En (or_intror eq_refl)) as Hq.
        destruct (put l (File (CLog [])) fs) as [[[]|x] fs']; cbn [snd] in *.
        * rewrite L. eapply saved_trans; [exact H|exact Hq].
        * eapply saved_trans; [exact H|exact Hq].
      + exact H.
  Qed.

  Lemma tensor_idle (t t' : tensor V O) : idle tensor_component t t' ->
    nothing_saved (f_tree (t_fs t)) (f_tree (t_fs t')).
  Proof.
    intros H. induction H; [apply saved_refl| |exact IHidle|exact IHidle].
    eapply saved_trans; [exact IHidle|]. apply tensor_init_quiet.
  Qed.

  Lemma incr_idle (t t' : incr V O) : idle incr_component t t' ->
    nothing_saved (f_tree (i_fs t)) (f_tree (i_fs t')).
  Proof.
    intros H. induction H; [apply saved_refl| |exact IHidle|exact IHidle].
    eapply saved_trans; [exact IHidle|]. apply incr_init_quiet.
  Qed.

  (** Room for a directory: the process is alive and no file is in the way. *)
  Definition room (base : loc) (fs : fsys V O) : Prop :=
    f_fuse fs = None /\ f_dead fs = false /\
    forall k c, lookup (f_tree fs) (firstn k base) <> Some (File c).

  Lemma mkdirs_room_from base (Hb : Forall ordinary base) n : forall i fs, i + n = length base ->
    room base fs -> (forall j, j <= i -> lookup (f_tree fs) (firstn j base) = Some Dir) ->
    exists fs', forM (map (fun k => firstn (S k) base) (seq i n)) mkdir1 fs = (Ok tt, fs') /\ room base fs'.
  Proof.
    induction n as [|n IH]; intros i fs Hi (R1 & R2 & R3) Hd; [exists fs; repeat split; auto|].
    cbn [seq map forM]. unfold bind at 1.
    assert (L : length (firstn (S i) base) = S i) by (rewrite firstn_length; lia).
    assert (Fj : forall j, j <= i -> firstn j (firstn (S i) base) = firstn j base)
      by (intros j Hj; rewrite firstn_firstn; f_equal; lia).
    assert (W : walk (f_tree fs) [] (firstn (S i) base) = Some (firstn (S i) base)).
    { rewrite (walk_all_dirs (fun l => l) (fun l => Permutation.Permutation_refl l) (f_tree fs) (firstn (S i) base)).
      - reflexivity.
      - apply Forall_forall. intros x Hx. rewrite Forall_forall in Hb. apply Hb. eapply In_firstn; eauto.
      - intros k Hk. rewrite L in Hk. cbn [app]. rewrite Fj by lia. apply Hd. lia. }
    assert (Hne : firstn (S i) base <> []) by (intros E; rewrite E in L; discriminate).
    unfold mkdir1 at 1, bind at 1, get. rewrite W.
    destruct (lookup (f_tree fs) (firstn (S i) base)) as [[|c]|] eqn:El; [|exfalso; eapply R3; eauto|].
    - cbn [ret]. apply (IH (S i)); [lia|repeat split; auto|].
      intros j Hj. destruct (Nat.eq_dec j (S i)) as [->|]; [auto|apply Hd; lia].
    - rewrite put_alive by auto. apply (IH (S i)); [lia| |].
      + split; [reflexivity|]. split; [reflexivity|]. intros k c. cbn [f_tree].
        rewrite lookup_dset by auto. destruct (eqb_spec (firstn k base) (firstn (S i) base)); [discriminate|auto].
      + intros j Hj. cbn [f_tree]. rewrite lookup_dset by auto.
        destruct (eqb_spec (firstn j base) (firstn (S i) base)) as [|Nj]; [auto|].
        apply Hd. assert (j <> S i) by congruence. lia.
  Qed.

  Lemma mkdirs_room base fs : Forall ordinary base -> room base fs ->
    exists fs', mkdirs base fs = (Ok tt, fs') /\ room base fs'.
  Proof.
    intros Hb Hr. apply (mkdirs_room_from base Hb (length base) 0); auto.
    intros j Hj. assert (j = 0) as -> by lia. reflexivity.
  Qed.

  Lemma tensor_alive t t' : idle tensor_component t t' -> Forall ordinary (t_base t) ->
    room (t_base t) (t_fs t) -> t_base t' = t_base t /\ room (t_base t) (t_fs t').
  Proof.
    intros H Hb Hr. induction H as [q|q q' H IH|q q' H IH|q q' H IH]; auto.
    - destruct (IH Hb Hr) as (E1 & E2). cbn [co_init tensor_component].
      unfold tensor_initialize, wrap, bind, get, t_do, zoom. rewrite E1.
      destruct (mkdirs_room _ _ Hb E2) as (fs' & -> & Hr'). split; [reflexivity|exact Hr'].
    - destruct (IH Hb Hr) as (E1 & E2). split; [exact E1|]. cbn.
      destruct E2 as (_ & _ & E2). repeat split. exact E2.
  Qed.

  (** A tensor manager with room for its directory never raises under a client. *)
  Lemma tensor_never_raises t : Forall ordinary (t_base t) -> room (t_base t) (t_fs t) ->
    never_raises tensor_component (Some t).
  Proof.
    intros Hb Hr. split; [repeat split|]. intros q q' E I1. injection E as <-. split; [|reflexivity].
    destruct (tensor_alive _ _ I1 Hb Hr) as (E1 & E2). cbn [co_init tensor_component].
    unfold tensor_initialize, wrap, bind, get, t_do, zoom. rewrite E1.
    destruct (mkdirs_room _ _ Hb E2) as (fs' & -> & Hr'). reflexivity.
  Qed.
End Files.

Section Used.
  Context {X S F Mt Orc Q P : Type}.
  Context (C : storage_class S (list F) Mt) (IC : index_class X S F Mt Orc).

  (** After every history a quantizer that came untrained is untrained, and quantises nothing. *)
  Theorem C125_scalar_untrained_partial (CP : component P) ops (c : fclient X S scalarq P) q :
    fc_quant c = Some q -> sq_trained q = false ->
    exists q', fc_quant (snd (fl_run C IC scalar_component CP c ops)) = Some q' /\
      sq_trained q' = false /\
      forall bits rnd v, fst (scalar_quantize bits rnd v q') = Raise EQuant.
  Proof.
    intros Hq Ht. destruct (C125_quantizer_idle_partial C IC scalar_component CP ops c q Hq) as (q' & E & I).
    exists q'. pose proof (scalar_idle _ _ I Ht) as T. repeat split; auto. intros.
    unfold scalar_quantize, bind, get. rewrite T. destruct (sq_init q'); reflexivity.
  Qed.

  Theorem C125_product_untrained_partial {G} `{Num G} (CP : component P) ops (c : fclient X S (productq G) P) q :
    fc_quant c = Some q -> pq_trained q = false ->
    exists q', fc_quant (snd (fl_run C IC product_component CP c ops)) = Some q' /\
      pq_trained q' = false /\ forall m v, fst (product_quantize m v q') = Raise EQuant.
  Proof.
    intros Hq Ht. destruct (C125_quantizer_idle_partial C IC product_component CP ops c q Hq) as (q' & E & I).
    exists q'. pose proof (product_idle _ _ I Ht) as T. repeat split; auto. intros.
    unfold product_quantize, bind, get. rewrite T. destruct (pq_init q'); reflexivity.
  Qed.

  (** After every history the files of a persistence manager are those it found, and at most an
      empty operation log more. *)
  Theorem C125_tensor_saves_nothing_partial {V O} (CQ : component Q) ops (c : fclient X S Q (tensor V O)) p :
    fc_pers c = Some p -> exists p', fc_pers (snd (fl_run C IC CQ tensor_component c ops)) = Some p' /\
      nothing_saved (f_tree (t_fs p)) (f_tree (t_fs p')).
  Proof.
    intros Hp. destruct (C125_manager_idle_partial C IC CQ tensor_component ops c p Hp) as (p' & E & I).
    exists p'. split; auto. apply tensor_idle; auto.
  Qed.

  Theorem C125_incremental_saves_nothing_partial {V O} (CQ : component Q) ops (c : fclient X S Q (incr V O)) p :
    fc_pers c = Some p -> exists p', fc_pers (snd (fl_run C IC CQ incr_component c ops)) = Some p' /\
      nothing_saved (f_tree (i_fs p)) (f_tree (i_fs p')).
  Proof.
    intros Hp. destruct (C125_manager_idle_partial C IC CQ incr_component ops c p Hp) as (p' & E & I).
    exists p'. split; auto. apply incr_idle; auto.
  Qed.

  (** *** C126 *)

  (** On a client in service [get_stats] answers if and only if the backend and the components
      report. *)
  Theorem C126_stats_answer_partial (CQ : component Q) (CP : component P) (c : fclient X S Q P) :
    fc_init c = true ->
    (exists i s, fst (fl_step C IC CQ CP c CStats) = ACounts i s) <->
    (exists st, fst (sc_stats C (fc_storage c)) = Ok st) /\
    (forall q, fc_quant c = Some q -> co_stats CQ q = Ok tt) /\
    (forall p, fc_pers c = Some p -> co_stats CP p = Ok tt).
  Proof.
    intros Hi. cbn [fl_step]. unfold fl_stats, fc_guarded, bind, get. rewrite Hi. cbn [negb].
    unfold fc_on_storage, zoom. destruct (sc_stats C (fc_storage c)) as [[st|e] s']; cbn [fst];
      [|split; [intros (i & s & G); discriminate G|intros ((st & G) & _); discriminate G]].
    unfold if_quant, if_pers. cbn [fc_quant fc_pers].
    split.
    - intros (i & s & G). split; [eauto|]. split.
      + intros q Eq. rewrite Eq in G. destruct (co_stats CQ q) as [[]|e]; [reflexivity|discriminate G].
      + intros p Ep. destruct (fc_quant c) as [q|]; [destruct (co_stats CQ q) as [[]|e]; [|discriminate G]|];
          cbn [fc_pers] in G; rewrite Ep in G; destruct (co_stats CP p) as [[]|e]; try reflexivity; discriminate G.
    - intros (_ & Sq & Sp).
      destruct (fc_quant c) as [q|]; [rewrite (Sq q eq_refl)|]; cbn [fc_pers];
        destruct (fc_pers c) as [p|]; try rewrite (Sp p eq_refl); cbn; eauto.
  Qed.
End Used.

(** ** Concrete cases *)

Definition demo_files : fsys (list (list Z)) Z := MkFs [] None false.
Definition demo_tensor := tensor_new demo_files [py "data"].

Definition demo_full : fclient (flat Z) (mem (list Z) Z) scalarq (tensor (list (list Z)) Z) :=
  fl_new (flat_class mem_class MEuclidean) mem_new (Some scalar_new) (Some demo_tensor).

Definition demo_session : list (cop Z Z (list Z -> list nat)) :=
  [CInit stable_argsort []; CInsert stable_argsort (demo_ids 97) (Mat [[1; 2]; [3; 4]]%Z) None;
   CSearch stable_argsort (Vec [1; 2]%Z) 2; CStats].

Notation demo_run := (fl_run mem_class (flat_class mem_class MEuclidean) scalar_component tensor_component).

(** The demo session answers as without the components; the scalar quantizer and the tensor
    manager meet the hypotheses. *)
Example C124_hypotheses_met :
  never_raises scalar_component (fc_quant demo_full) /\ never_raises tensor_component (fc_pers demo_full) /\
  reports saq_component (Some saq_life_new) /\
  fst (demo_run demo_full demo_session) =
    [AUnit; AIds [demo_ids 97 0; demo_ids 97 1];
     AHits [MkHit (demo_ids 97 0) 0%Z None; MkHit (demo_ids 97 1) 2%Z None]; ACounts (Some 2%Z) (Some 2%Z)].
Proof.
  split; [apply scalar_never_raises|]. split; [apply tensor_never_raises|].
  - constructor; [|constructor]. repeat split; try discriminate.
    cbn. intros H. repeat (destruct H as [H|H]; [discriminate|]). exact H.
  - repeat split. intros [|[|k]] c; discriminate.
  - split; [apply saq_never_raises; reflexivity|]. vm_compute. reflexivity.
Qed.

(** In the same session the manager made its directory, and the quantizer is initialised. *)
Example C125_hypotheses_met :
  fc_quant demo_full = Some scalar_new /\ sq_trained scalar_new = false /\ fc_pers demo_full = Some demo_tensor /\
  let c := snd (demo_run demo_full demo_session) in
  option_map sq_init (fc_quant c) = Some true /\
  option_map (fun p => f_tree (t_fs p)) (fc_pers c) = Some [([py "data"], Dir)].
Proof. vm_compute. auto 10. Qed.

(** An inserted vector is gone after a restart although the client has a persistence manager, was
    initialised and was closed in order; the files of the manager hold nothing. *)
Theorem C125_lost_refuted :
  exists (ops : list (cop Z Z (list Z -> list nat))),
    let out := demo_run demo_full ops in
    nth 1 (fst out) AUnit = AIds [demo_ids 97 0] /\ nth 2 (fst out) (AExn EValori) = AUnit /\
    last (fst out) AUnit = AHits [] /\
    forall p, fc_pers (snd out) = Some p -> Forall (fun e => snd e = Dir) (f_tree (t_fs p)).
Proof.
  exists [CInit stable_argsort []; CInsert stable_argsort (demo_ids 97) (Mat [[1; 2]]%Z) None; CClose [];
     CReopen; CInit stable_argsort []; CSearch stable_argsort (Vec [1; 2]%Z) 2].
  vm_compute. repeat split. intros p E. injection E as <-. repeat constructor.
Qed.

(** A SAQ quantizer trained before the client is initialised: [initialize] replaces its PCA but
    not its flag, and the statistics of the client, in service, raise. *)
Theorem C126_saq_refuted :
  exists (c : fclient (flat Z) (mem (list Z) Z) saqlife (tensor (list (list Z)) Z)) (ops : list (cop Z Z (list Z -> list nat))),
    fc_quant c = Some (saq_life_train (snd (co_init saq_component saq_life_new))) /\
    fst (fl_run mem_class (flat_class mem_class MEuclidean) saq_component tensor_component c ops) =
      [AUnit; AIds [demo_ids 97 0]; AExn EAttr].
Proof.
  exists (fl_new (flat_class mem_class MEuclidean) mem_new
           (Some (saq_life_train (snd (co_init saq_component saq_life_new)))) None),
    [CInit stable_argsort []; CInsert stable_argsort (demo_ids 97) (Mat [[1; 2]]%Z) None; CStats].
  vm_compute. auto.
Qed.

Example C126_hypotheses_met :
  let c := snd (demo_run demo_full (firstn 2 demo_session)) in
  fc_init c = true /\ (exists st, fst (sc_stats mem_class (fc_storage c)) = Ok st) /\
  (forall q, fc_quant c = Some q -> co_stats scalar_component q = Ok tt).
Proof. vm_compute. eauto. Qed.

Print Assumptions C124_no_influence.
Print Assumptions C124_as_without.
Print Assumptions C125_quantizer_idle_partial.
Print Assumptions C125_manager_idle_partial.
Print Assumptions C125_components_untouched_partial.
Print Assumptions C125_scalar_untrained_partial.
Print Assumptions C125_product_untrained_partial.
Print Assumptions C125_tensor_saves_nothing_partial.
Print Assumptions C125_incremental_saves_nothing_partial.
Print Assumptions C125_lost_refuted.
Print Assumptions C126_stats_answer_partial.
Print Assumptions C126_saq_refuted.
