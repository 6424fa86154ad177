(** Several threads inside one flat index: what every schedule of insertions and searches keeps. *)

From Coq Require Import List Arith ZArith NArith Lia Bool Permutation Sorted.
From Coq Require Import ZifyBool ZifyNat ZifyN.
From Verif Require Import PyBase BaseLemmas Payload StorageModel StorageSpec StorageRun
  StorageThms StorageOk Num ClientModel DbSpec ClientRun ClientProofs FlatModel FlatProofs
  StepModel StepProofs LshSteps FlatSteps.
Import ListNotations.

(** Changing one summand of a union over threads. *)
Lemma concat_map_upd {X} (f g : nat -> list X) t ts (a b : list X) :
  NoDup ts -> In t ts -> (forall u, u <> t -> g u = f u) ->
  Permutation (f t ++ a) (g t ++ b) ->
  Permutation (concat (map f ts) ++ a) (concat (map g ts) ++ b).
Proof.
  intros Hnd Hin Hsame Hp. apply in_split in Hin as [l1 [l2 ->]].
  assert (forall l, ~ In t l -> map g l = map f l) as Hmap.
  { intros l Hl. apply map_ext_in. intros u Hu. apply Hsame. intros ->. auto. }
  apply NoDup_remove_2 in Hnd. rewrite in_app_iff in Hnd.
  rewrite !map_app. simpl. rewrite !concat_app. simpl.
  rewrite (Hmap l1), (Hmap l2) by tauto.
  set (u := concat (map f l1)). set (v := concat (map f l2)).
  assert (forall y c : list X, Permutation ((u ++ y ++ v) ++ c) (u ++ v ++ y ++ c)) as Hgen.
  { intros y c. rewrite <- app_assoc. apply Permutation_app_head.
    rewrite <- app_assoc. apply Permutation_app_swap_app. }
  eapply perm_trans; [apply Hgen|]. eapply perm_trans; [|symmetry; apply Hgen].
  do 2 apply Permutation_app_head. exact Hp.
Qed.

Lemma NoDup_front {X} (l l' : list X) : NoDup (l ++ l') -> NoDup l.
Proof.
  induction l as [|a l IH]; simpl; intros Hnd; [constructor|].
  inversion Hnd as [|? ? Ha Hnd']; subst. constructor; auto.
  intros Hin. apply Ha. apply in_or_app. auto.
Qed.

Section Race.
  Context {F Mt S : Type} `{Num F} `{!NumOrder F} `{Payload (list F) Mt}.
  Context (C : storage_class S (list F) Mt) (mt : metric).
  Context (p b : bool) (sz : option (list F * option Mt -> N))
          (A : sstate (list F) Mt -> S -> Prop) (HC : storage_ok C p b sz A).
  (** A bound on the number of ids. *)
  Context (N : nat).
  Notation W := (flat F * S)%type.
  Notation ent := (entry (list F) Mt).
  Implicit Types recs : list ent.

  (** ** What one thread does to the shared state *)

  (** The three writes of one inserted row. *)
  Inductive act : Type := AStore (e : ent) | AAppend (e : ent) | ACache (e : ent).

  (** Facts about index and records that hold at every moment. *)
  Definition sound recs (x : flat F) : Prop :=
    f_init x = true /\ fcoh recs x /\ incl (f_ids x) (map fst recs) /\
    length (f_ids x) <= N /\ NoDup (map fst recs) /\ NoDup (f_ids x).

  (** What later moments keep. *)
  Definition grows recs (x : flat F) recs' (x' : flat F) : Prop :=
    (exists more, recs' = recs ++ more) /\ (exists more, f_ids x' = f_ids x ++ more) /\
    (forall id, dmem id (f_cache x) = true -> dmem id (f_cache x') = true).

  Definition mono (P : list ent -> flat F -> Prop) : Prop :=
    forall recs x recs' x', grows recs x recs' x' -> P recs x -> P recs' x'.

  (** One step: silent, or the next write of the thread's list. *)
  Definition effect (acts acts' : list act) recs (w : W) recs' (w' : W) : Prop :=
    (acts' = acts /\ recs' = recs /\ A (MkS true recs) (snd w') /\
     f_init (fst w') = f_init (fst w) /\ f_ids (fst w') = f_ids (fst w) /\
     fcoh recs (fst w') /\
     (forall id, dmem id (f_cache (fst w)) = true -> dmem id (f_cache (fst w')) = true) /\
     (forall id, dmem id (f_cache (fst w')) = true ->
        dmem id (f_cache (fst w)) = true \/ In id (map fst recs))) \/
    (exists e, acts = AStore e :: acts' /\ recs' = sp_put (fst e) (snd e) recs /\
       fst w' = fst w /\ A (MkS true recs') (snd w')) \/
    (exists e, acts = AAppend e :: acts' /\ recs' = recs /\ snd w' = snd w /\
       fst w' = fset_ids (f_ids (fst w) ++ [fst e]) (fst w)) \/
    (exists e, acts = ACache e :: acts' /\ recs' = recs /\ snd w' = snd w /\
       fst w' = fset_cache (dset (fst e) (fst (snd e)) (f_cache (fst w))) (fst w)).

  (** From a moment at which [P] holds, the program makes exactly the writes [acts], whatever
      other threads add in between, and what it returns satisfies [Q] then and later. *)
  Fixpoint runs {R} (q : prog W R) (acts : list act) (P : list ent -> flat F -> Prop)
      (Q : list ent -> flat F -> result R -> Prop) : Prop :=
    match q with
    | Return r => forall recs x, sound recs x -> P recs x -> acts = [] /\ Q recs x r
    | Step f =>
        forall w recs, A (MkS true recs) (snd w) -> sound recs (fst w) -> P recs (fst w) ->
        match f w with
        | (q', w') =>
            exists acts' recs' P',
              effect acts acts' recs w recs' w' /\
              mono P' /\ P' recs' (fst w') /\ runs q' acts' P' Q
        end
    end.

  Lemma runs_weaken {R} (q : prog W R) acts (P P' : list ent -> flat F -> Prop) Q :
    (forall recs x, sound recs x -> P' recs x -> P recs x) ->
    runs q acts P Q -> runs q acts P' Q.
  Proof. destruct q as [r|f]; simpl; intros Hw Hq; intros; apply Hq; auto. Qed.

  Lemma runs_post {R} (q : prog W R) (Q Q' : list ent -> flat F -> result R -> Prop) :
    (forall recs x r, sound recs x -> Q recs x r -> Q' recs x r) ->
    forall acts P, runs q acts P Q -> runs q acts P Q'.
  Proof.
    intros Hw. induction q as [r|f IH] using prog_induction; intros acts P Hq.
    - intros recs x Hs HP. destruct (Hq recs x Hs HP). auto.
    - intros w recs HA Hs HP. specialize (Hq w recs HA Hs HP). specialize (IH w).
      destruct (f w) as [q' w']. destruct Hq as (acts' & recs' & P' & ? & ? & ? & ?).
      exists acts', recs', P'. auto.
  Qed.

  Lemma effect_app a1 a1' a2 recs w recs' w' :
    effect a1 a1' recs w recs' w' -> effect (a1 ++ a2) (a1' ++ a2) recs w recs' w'.
  Proof.
    intros [(-> & ?)|[(e & -> & ?)|[(e & -> & ?)|(e & -> & ?)]]].
    - left. auto.
    - right. left. exists e. auto.
    - right. right. left. exists e. auto.
    - right. right. right. exists e. auto.
  Qed.

  Lemma runs_bind {R T} (q : prog W R) (k : R -> prog W T) a2 Q1 Q2 : forall a1 P,
    runs q a1 P Q1 ->
    (forall r, runs (k r) a2 (fun recs x => Q1 recs x (Ok r)) Q2) ->
    (forall recs x e, Q1 recs x (Raise e) -> a2 = [] /\ Q2 recs x (Raise e)) ->
    runs (pbind q k) (a1 ++ a2) P Q2.
  Proof.
    induction q as [[r|e]|f IH] using prog_induction; intros a1 P Hq Hk He.
    - change (pbind (Return (Ok r)) k) with (k r).
      specialize (Hk r). destruct (k r) as [r2|f2]; simpl in *.
      + intros recs x Hs HP. destruct (Hq recs x Hs HP) as [-> HQ]. apply Hk; auto.
      + intros w recs HA Hs HP. destruct (Hq recs (fst w) Hs HP) as [-> HQ].
        exact (Hk w recs HA Hs HQ).
    - intros recs x Hs HP. destruct (Hq recs x Hs HP) as [-> HQ]. apply He; auto.
    - cbn [pbind]. intros w recs HA Hs HP. specialize (Hq w recs HA Hs HP). specialize (IH w).
      destruct (f w) as [q' w']. destruct Hq as (acts' & recs' & P' & He' & Hm & HP' & Hq').
      exists (acts' ++ a2), recs', P'. split; [|split; [|split]]; auto.
      now apply effect_app.
  Qed.

  Lemma runs_wrap {R} E (q : prog W R) (Q Q' : list ent -> flat F -> result R -> Prop) :
    (forall recs x r, Q recs x (Ok r) -> Q' recs x (Ok r)) ->
    (forall recs x e, Q recs x (Raise e) -> Q' recs x (Raise E)) -> forall acts P,
    runs q acts P Q -> runs (pwrap E q) acts P Q'.
  Proof.
    intros H1 H2. induction q as [[r|e]|f IH] using prog_induction; intros acts P Hq.
    - intros recs x Hs HP. destruct (Hq recs x Hs HP). auto.
    - intros recs x Hs HP. destruct (Hq recs x Hs HP). eauto.
    - cbn [pwrap]. intros w recs HA Hs HP. specialize (Hq w recs HA Hs HP). specialize (IH w).
      destruct (f w) as [q' w']. destruct Hq as (acts' & recs' & P' & ? & ? & ? & ?).
      exists acts', recs', P'. auto.
  Qed.

  (** A step that changes nothing. *)
  Lemma effect_silent acts recs (w : W) : A (MkS true recs) (snd w) -> sound recs (fst w) ->
    effect acts acts recs w recs w.
  Proof. intros HA Hs. left. unfold sound in Hs. intuition auto. Qed.

  Lemma runs_read {R T} (g : flat F -> R) (k : R -> prog W T) acts
      (P : list ent -> flat F -> Prop) Q :
    (forall recs x, sound recs x -> P recs x ->
       exists P', mono P' /\ P' recs x /\ runs (k (g x)) acts P' Q) ->
    runs (pbind (fread g) k) acts P Q.
  Proof.
    intros Hk. cbn [pbind fread atomic]. intros w recs HA Hs HP.
    unfold bind, get_ix, ret. destruct (Hk recs (fst w) Hs HP) as (P' & ? & ? & ?).
    exists acts, recs, P'. split; [now apply effect_silent|auto].
  Qed.

  Lemma mono_True : mono (fun _ _ => True).
  Proof. intros ? ? ? ? ? ?. exact I. Qed.

  Lemma mono_and (P Q : list ent -> flat F -> Prop) :
    mono P -> mono Q -> mono (fun recs x => P recs x /\ Q recs x).
  Proof. intros HP HQ recs x recs' x' Hg [? ?]. split; [eapply HP|eapply HQ]; eauto. Qed.

  Lemma mono_find id v : mono (fun recs _ => exists m, sp_find id recs = Some (v, m)).
  Proof.
    intros recs x recs' x' [[more ->] _] [m E]. exists m. now rewrite sp_find_app, E.
  Qed.

  (** *** Insertion *)

  (** The writes of a batch. *)
  Definition row_acts (e : ent) : list act := [AStore e; AAppend e; ACache e].

  Lemma runs_store id v m (k : bool -> prog W (list pystr)) acts Q :
    uuid_like id -> meta_ok m ->
    (forall r, runs (k r) acts (fun _ _ => True) Q) ->
    runs (pbind (atomic (on_sb (sc_store C id v m))) k) (AStore (id, (v, m)) :: acts)
         (fun _ _ => True) Q.
  Proof.
    intros Hu Hm Hk. cbn [pbind atomic]. intros w recs HA Hs _.
    destruct (so_store C p b sz A HC recs (snd w) id v m HA Hu Hm) as (s1 & E & A1).
    unfold on_sb, zoom. rewrite E.
    exists acts, (sp_put id (v, m) recs), (fun _ _ => True).
    split; [|split; [apply mono_True|split; [exact I|apply Hk]]].
    right. left. exists (id, (v, m)). auto.
  Qed.

  Lemma runs_append e (k : unit -> prog W (list pystr)) acts Q :
    runs (k tt) acts (fun _ _ => True) Q ->
    runs (pbind (fwrite (fun x => fset_ids (f_ids x ++ [fst e]) x)) k)
         (AAppend e :: acts) (fun _ _ => True) Q.
  Proof.
    intros Hk. cbn [pbind fwrite atomic]. intros w recs HA Hs _.
    unfold set_ix, modify. exists acts, recs, (fun _ _ => True).
    split; [|split; [apply mono_True|split; [exact I|apply Hk]]].
    right. right. left. exists e. auto.
  Qed.

  Lemma runs_cache (e : ent) (k : unit -> prog W (list pystr)) acts Q :
    runs (k tt) acts (fun _ _ => True) Q ->
    runs (pbind (fwrite (fun x => fset_cache (dset (fst e) (fst (snd e)) (f_cache x)) x)) k)
         (ACache e :: acts) (fun _ _ => True) Q.
  Proof.
    intros Hk. cbn [pbind fwrite atomic]. intros w recs HA Hs _.
    unfold set_ix, modify. exists acts, recs, (fun _ _ => True).
    split; [|split; [apply mono_True|split; [exact I|apply Hk]]].
    right. right. right. exists e. auto.
  Qed.

  Lemma runs_rows fresh meta rows : forall i,
    (forall j, i <= j < i + length rows -> uuid_like (fresh j)) ->
    (forall l m, meta = Some l -> In m l -> meta_ok m) ->
    runs (insert_rows_steps C fresh meta i rows)
         (flat_map row_acts (batch_from fresh i rows meta)) (fun _ _ => True)
         (fun _ _ r => r = Ok (map fresh (seq i (length rows)))).
  Proof.
    induction rows as [|row rows IH]; intros i Hu Hm.
    - simpl. auto.
    - cbn [insert_rows_steps]. cbv zeta.
      change (batch_from fresh i (row :: rows) meta)
        with ((fresh i, (row, meta_of meta i)) :: batch_from fresh (Datatypes.S i) rows meta).
      cbn [flat_map row_acts app]. rewrite row_meta_of.
      apply runs_store.
      + apply Hu. simpl. lia.
      + now apply (meta_of_ok (V := list F)).
      + intros _. apply (runs_append (fresh i, (row, meta_of meta i))).
        apply (runs_cache (fresh i, (row, meta_of meta i))).
        rewrite <- (app_nil_r (flat_map _ _)).
        eapply runs_bind.
        * apply (IH (Datatypes.S i)); auto. intros j Hj. apply Hu. simpl. lia.
        * intros r recs x _ Hr. split; auto. injection Hr as ->. reflexivity.
        * intros recs x e Hr. discriminate.
  Qed.

  Lemma runs_recount (k : unit -> prog W (list pystr)) acts P Q :
    mono P -> runs (k tt) acts P Q -> runs (pbind recount_steps k) acts P Q.
  Proof.
    intros HM Hk.
    assert (runs (recount_steps (F := F) (S := S)) [] P (fun recs x r => P recs x /\ r = Ok tt)) as Hr.
    { unfold recount_steps. apply runs_read. intros recs x Hs HP. exists P.
      split; auto. split; auto. unfold fwrite. cbn [atomic].
      intros w recs' HA Hs' HP'. unfold set_ix, modify. exists [], recs', P.
      split; [|split; [auto|split]].
      - left. destruct w as [x' s']. simpl. unfold fcoh. simpl.
        destruct Hs' as (? & ? & ?). intuition auto.
      - revert HP'. apply HM. destruct w as [x' s']. simpl. split; [|split]; auto.
        + exists []. now rewrite app_nil_r.
        + exists []. now rewrite app_nil_r.
      - simpl. auto. }
    change acts with ([] ++ acts). eapply runs_bind; [exact Hr| |].
    - intros []. eapply runs_weaken; [|exact Hk]. tauto.
    - intros recs x e [_ E]. discriminate.
  Qed.

  Lemma runs_insert fresh rows meta :
    (forall j, j < length rows -> uuid_like (fresh j)) ->
    (forall l m, meta = Some l -> In m l -> meta_ok m) ->
    runs (flat_insert_steps C fresh rows meta)
         (flat_map row_acts (batch_from fresh 0 rows meta)) (fun _ _ => True)
         (fun _ _ r => r = Ok (map fresh (seq 0 (length rows)))).
  Proof.
    intros Hu Hm. unfold flat_insert_steps. apply runs_read. intros recs x Hs _.
    exists (fun _ _ => True). split; [apply mono_True|]. split; auto.
    destruct Hs as (Hi & _). rewrite Hi. cbn [negb].
    eapply runs_wrap with (Q := fun _ _ r => r = Ok (map fresh (seq 0 (length rows)))).
    - auto.
    - intros ? ? e E. discriminate.
    - rewrite <- (app_nil_r (flat_map _ _)). eapply runs_bind.
      + apply runs_rows; auto. intros j Hj. apply Hu. lia.
      + intros r. apply runs_recount; [intros ? ? ? ? _; auto|]. intros ? ? _ Hr.
        split; auto.
      + intros ? ? e E. discriminate.
  Qed.

  (** *** Search *)

  (** The loop returned everything from position [i] to the end of the id list as it was at one
      moment (at which [P] held), each with its recorded vector. *)
  Definition loaded_from (P : list ent -> flat F -> Prop) recs (x : flat F) (i : nat)
      (l : list (pystr * list F)) : Prop :=
    exists ids1 more recs1 x1, P recs1 x1 /\ f_ids x1 = ids1 /\
      f_ids x = ids1 ++ more /\ i <= length ids1 /\
      map fst l = skipn i ids1 /\
      Forall (fun e => exists m, sp_find (fst e) recs = Some (snd e, m)) l.

  Lemma skipn_nth {T} (l : list T) i a : nth_error l i = Some a ->
    skipn i l = a :: skipn (Datatypes.S i) l.
  Proof.
    revert i. induction l as [|c l IH]; intros [|i]; simpl; intros E; try discriminate.
    - now injection E as ->.
    - now apply IH.
  Qed.

  Lemma runs_load n : forall i P,
    N < n + i -> mono P ->
    (forall recs x, sound recs x -> P recs x -> i <= length (f_ids x)) ->
    runs (load_steps C n i) [] P
         (fun recs x r => exists l, r = Ok l /\ P recs x /\ loaded_from P recs x i l).
  Proof.
    induction n as [|n IH]; intros i P Hn HM Hi.
    - intros recs x Hs HP. specialize (Hi recs x Hs HP). destruct Hs as (_ & _ & _ & Hl & _). lia.
    - cbn [load_steps]. apply runs_read. intros recs0 x0 Hs0 HP0.
      destruct (nth_error (f_ids x0) i) as [id|] eqn:Enth.
      2:{ exists (fun recs x => P recs x /\ exists more, f_ids x = f_ids x0 ++ more).
          split; [|split].
          - apply mono_and; auto. intros recs x recs' x' (_ & [m1 E1] & _) [m2 E2].
            exists (m2 ++ m1). now rewrite E1, E2, app_assoc.
          - split; auto. exists []. now rewrite app_nil_r.
          - intros recs x Hs [HP [more E]]. split; auto. exists []. split; auto. split; auto.
            exists (f_ids x0), more, recs0, x0. split; auto. split; auto. split; auto.
            split; [now apply (Hi recs0)|].
            split; [|constructor]. apply nth_error_None in Enth. symmetry.
            now apply skipn_all2. }
      set (P1 := fun recs (x : flat F) => P recs x /\ nth_error (f_ids x) i = Some id).
      assert (mono P1) as HM1.
      { apply mono_and; auto. intros recs x recs' x' (_ & [m1 E1] & _) E. rewrite E1.
        rewrite nth_error_app1; auto. apply nth_error_Some. congruence. }
      exists P1. split; auto. split; [now split|].
      apply runs_read. intros recs1 x1 Hs1 HP1.
      set (P3 := fun v recs x => P1 recs x /\ exists m, sp_find id recs = Some (v, m)).
      assert (forall v, mono (P3 v)) as HM3.
      { intros v. apply mono_and; auto. apply mono_find. }
      assert (Hrest : forall v, runs
        (rest <~ load_steps C n (1 + i);; Return (Ok ((id, v) :: rest)))%py [] (P3 v)
        (fun recs x r => exists l, r = Ok l /\ P recs x /\ loaded_from P recs x i l)).
      { intros v. change (@nil act) with (@nil act ++ []). eapply runs_bind.
        - apply (IH (1 + i) (P3 v)); auto; [lia|].
          intros recs x Hs [[_ E] _]. apply Nat.le_succ_l. apply nth_error_Some.
          congruence.
        - intros l recs x Hs (l' & E & [[HP E1] [m Ef]] & ids1 & more & recs2 & x2 & HP2 & Ex2 &
                               Ei & Hle & Em & HF).
          injection E as <-. split; auto. exists ((id, v) :: l). split; auto. split; auto.
          exists ids1, more, recs2, x2. split; [apply HP2|]. split; auto. split; auto.
          split; [lia|]. split.
          + assert (nth_error ids1 i = Some id) as En1.
            { rewrite Ei in E1. rewrite nth_error_app1 in E1 by lia. auto. }
            simpl. rewrite (skipn_nth _ _ _ En1). simpl in Em. now rewrite Em.
          + constructor; simpl; eauto.
        - intros recs x e (l & E & _). discriminate. }
      assert (Hfind : forall recs x, sound recs x -> P1 recs x ->
                exists v m, sp_find id recs = Some (v, m)).
      { intros recs x (_ & _ & Hin & _) [_ E]. apply nth_error_In in E. apply Hin in E.
        apply In_keys_find in E as [[v m] E]. eauto. }
      destruct (dmem id (f_cache x1)) eqn:Ed.
      + exists (fun recs x => P1 recs x /\ dmem id (f_cache x) = true).
        split; [|split; auto].
        { apply mono_and; auto. intros recs x recs' x' (_ & _ & Hk). auto. }
        cbn [pbind atomic]. intros w recs HA Hs [HP Hd]. unfold bind, get_ix.
        destruct (dget id (f_cache (fst w))) as [v|] eqn:Eg.
        2:{ unfold dmem in Hd. rewrite Eg in Hd. discriminate. }
        unfold ret. exists [], recs, (P3 v).
        split; [now apply effect_silent|]. split; auto. split; [|apply Hrest].
        split; auto. destruct (Hfind recs (fst w) Hs HP) as (v' & m & Ef).
        destruct Hs as (_ & Hcoh & _). pose proof (Hcoh id v _ Eg Ef) as Ev. simpl in Ev.
        subst v'. eauto.
      + exists P1. split; auto. split; auto.
        cbn [pbind atomic]. intros w recs HA Hs HP. unfold on_sb, zoom.
        destruct (so_retrieve C p b sz A HC recs (snd w) id HA) as (s1 & E1 & A1). rewrite E1.
        destruct (Hfind recs (fst w) Hs HP) as (v & m & Ef). rewrite Ef.
        exists [], recs, (P3 v). split.
        { left. simpl. destruct Hs as (? & ? & ?). intuition auto. }
        split; auto. split; [simpl; split; eauto|].
        cbn [pbind fwrite atomic]. intros w2 recs2 HA2 Hs2 [HP2 [m2 Ef2]].
        unfold set_ix, modify. exists [], recs2, (P3 v). split.
        { left. simpl. destruct Hs2 as (? & Hcoh & ?).
          assert (In id (map fst recs2)) as Hin by (apply In_keys_find; eauto).
          intuition auto.
          - intros j u r Hd Hr. simpl in Hd. rewrite dget_dset in Hd.
            destruct (eqb_spec j id) as [->|].
            + injection Hd as <-. rewrite Ef2 in Hr. now injection Hr as <-.
            + eapply Hcoh; eauto.
          - unfold dmem in *. rewrite dget_dset. now destruct (eqb _ id).
          - unfold dmem in *. rewrite dget_dset in *. destruct (eqb_spec id0 id); subst; auto. }
        split; auto. split; [|apply Hrest].
        assert (grows recs2 (fst w2) recs2
                  (fset_cache (dset id v (f_cache (fst w2))) (fst w2))) as Hg.
        { split; [|split].
          - exists []. now rewrite app_nil_r.
          - exists []. simpl. now rewrite app_nil_r.
          - intros j Hj. simpl. unfold dmem in *. rewrite dget_dset. now destruct (eqb j id). }
        simpl. apply (HM3 v _ _ _ _ Hg). split; eauto.
  Qed.

  (** The metadata loop: every selected row is answered with the recorded metadata. *)
  Lemma runs_results ids ds P : length ids = length ds -> mono P ->
    (forall recs x id, sound recs x -> P recs x -> In id ids -> In id (map fst recs)) ->
    forall idxs, Forall (fun i => i < length ids) idxs ->
    runs (results_steps C ids ds idxs) [] P
         (fun recs x r => exists hits, r = Ok hits /\ P recs x /\
            map (fun h => (Some (h_id h), Some (h_dist h))) hits =
              map (fun i => (nth_error ids i, nth_error ds i)) idxs /\
            Forall (fun h => exists v, sp_find (h_id h) recs = Some (v, h_meta h)) hits).
  Proof.
    intros Hl HM Hin idxs HF. revert P HM Hin. induction HF as [|i idxs Hi HF IH]; intros P HM Hin.
    - intros recs x Hs HP. split; auto. exists []. auto.
    - unfold results_steps. cbn [pmapM]. fold (results_steps C ids ds idxs).
      cbn [pbind atomic]. intros w recs HA Hs HP. unfold flat_result.
      destruct (nth_error ids i) as [id|] eqn:Ei; [|apply nth_error_None in Ei; lia].
      destruct (nth_error ds i) as [d|] eqn:Ed; [|apply nth_error_None in Ed; lia].
      unfold bind, on_sb, zoom.
      destruct (so_retrieve C p b sz A HC recs (snd w) id HA) as (s1 & E1 & A1). rewrite E1.
      destruct (proj1 (In_keys_find id recs)) as [[v m] Ef].
      { apply (Hin recs (fst w) id Hs HP). eapply nth_error_In; eauto. }
      rewrite Ef. unfold ret.
      set (P3 := fun recs x => P recs x /\ exists v, sp_find id recs = Some (v, m)).
      assert (mono P3) as HM3.
      { apply mono_and; auto. intros r1 x1 r2 x2 [[more ->] _] [u E]. exists u.
        now rewrite sp_find_app, E. }
      exists [], recs, P3. split.
      { left. simpl. destruct Hs as (? & ? & ?). intuition auto. }
      split; auto. split; [split; eauto|]. cbn [pbind].
      change (@nil act) with (@nil act ++ []). eapply runs_bind.
      + apply (IH P3); auto. intros r1 x1 j Hs1 [HP1 _]. exact (Hin r1 x1 j Hs1 HP1).
      + intros hits r1 x1 Hs1 (hits' & E & [HP1 [u Eu]] & Em & HFm). injection E as <-.
        split; auto. exists (MkHit id d m :: hits). split; auto. split; auto. split.
        * simpl. now rewrite Ei, Ed, Em.
        * constructor; simpl; eauto.
      + intros r1 x1 e (hits & E & _). discriminate.
  Qed.

  Lemma sp_find_filter ids id recs : memb id ids = true ->
    sp_find id (filter (fun e => memb (fst e) ids) recs) = sp_find id recs.
  Proof.
    intros Hm. induction recs as [|[k r] recs IH]; simpl; auto.
    destruct (memb k ids) eqn:Ek; simpl.
    - now rewrite IH.
    - destruct (eqb_spec id k) as [->|]; [congruence|auto].
  Qed.

  Lemma NoDup_filter_keys ids recs : NoDup (map fst recs) ->
    NoDup (map fst (filter (fun e => memb (fst e) ids) recs)).
  Proof.
    induction recs as [|[k r] recs IH]; simpl; intros Hnd; [constructor|].
    inversion Hnd as [|? ? Hk Hnd']; subst. destruct (memb k ids); simpl; auto.
    constructor; auto. intros Hin. apply Hk. apply in_map_iff in Hin as [e [<- Hin]].
    apply filter_In in Hin as [Hin _]. now apply in_map.
  Qed.

  (** The records under the ids that were loaded. *)
  Lemma loaded_records recs x (l : list (pystr * list F)) : sound recs x ->
    (exists more, f_ids x = map fst l ++ more) ->
    Forall (fun e => exists m, sp_find (fst e) recs = Some (snd e, m)) l ->
    let R := filter (fun e => memb (fst e) (map fst l)) recs in
    incl R recs /\ NoDup (map fst R) /\ Permutation (map fst R) (map fst l) /\
    Forall (fun e => exists m, sp_find (fst e) R = Some (snd e, m)) l.
  Proof.
    intros (_ & _ & _ & _ & Hnd & Hni) [more Ei] HF R.
    assert (Forall (fun e => exists m, sp_find (fst e) R = Some (snd e, m)) l) as HF'.
    { rewrite Forall_forall in *. intros e He. destruct (HF e He) as [m Ef]. exists m.
      unfold R. rewrite sp_find_filter; auto. apply memb_In. now apply in_map. }
    assert (NoDup (map fst R)) as HndR by now apply NoDup_filter_keys.
    split; [|split; [|split]]; auto.
    - intros e He. now apply filter_In in He.
    - apply NoDup_Permutation; auto.
      + rewrite Ei in Hni. now apply NoDup_front in Hni.
      + intros id. split; intros Hin.
        * apply in_map_iff in Hin as [e [<- Hin]]. apply filter_In in Hin as [_ Hm].
          now apply memb_In.
        * apply in_map_iff in Hin as [e [<- Hin]]. rewrite Forall_forall in HF'.
          destruct (HF' e Hin) as [m Ef]. apply In_keys_find. eauto.
  Qed.

  (** A search answers exactly over the records of the ids listed at one moment after it began
      ([ids0] being those listed when it began); [n] is the number of ids when it read it. *)
  Definition answers (ids0 : list pystr) (q : list F) (k : Z) recs (x : flat F)
      (r : result (list (hit F Mt))) : Prop :=
    exists R n more later,
      incl R recs /\ NoDup (map fst R) /\ Permutation (map fst R) (ids0 ++ more) /\
      f_ids x = ids0 ++ more ++ later /\
      length ids0 <= n <= length R /\
      flat_ok mt R q (Z.min k (Z.of_nat n)) (match r with Ok l => AHits l | Raise e => AExn e end).

  Lemma flat_ok_some (R : list ent) q k r : R <> [] ->
    flat_ok mt R q k r =
    match mt with
    | MOther => r = AExn EIndex
    | _ => if searchable R q
           then exists hits, r = AHits hits /\
                  nearest nleb (row_distance mt q) R (want k (length R)) hits
           else r = AExn EIndex
    end.
  Proof. intros HR. destruct R; [congruence|reflexivity]. Qed.

  Lemma runs_search rounds argsort q k ids0 : argsort_ok argsort -> N < rounds ->
    runs (flat_search_steps C mt rounds argsort q k) []
         (fun _ x => exists more, f_ids x = ids0 ++ more) (answers ids0 q k).
  Proof.
    intros Harg Hrounds. unfold flat_search_steps.
    set (P0 := fun (_ : list ent) (x : flat F) => exists more, f_ids x = ids0 ++ more).
    assert (forall ids, mono (fun _ x => exists more, f_ids x = ids ++ more)) as HMids.
    { intros ids recs x recs' x' (_ & [m1 E1] & _) [m2 E2]. exists (m2 ++ m1).
      now rewrite E1, E2, app_assoc. }
    apply runs_read. intros recs1 x1 Hs1 HP1. exists P0. split; [apply HMids|]. split; auto.
    destruct Hs1 as (-> & _). cbn [negb].
    apply runs_wrap with (Q := fun recs x r =>
      answers ids0 q k recs x (match r with Ok l => Ok l | Raise _ => Raise EIndex end));
      [auto|auto|].
    apply runs_read. intros recs2 x2 Hs2 [more2 Em2].
    destruct (Nat.eqb_spec (length (f_ids x2)) 0) as [E0|E0].
    { exists P0. split; [apply HMids|]. split; [now exists more2|].
      intros recs x Hs [more Em]. split; auto.
      assert (ids0 = []) as ->.
      { rewrite Em2 in E0. rewrite app_length in E0. destruct ids0; simpl in *; auto; lia. }
      exists [], 0, [], more. simpl. repeat split; auto; try constructor; try lia.
      intros e []. }
    exists (fun _ x => exists more, f_ids x = f_ids x2 ++ more).
    split; [apply HMids|]. split; [exists []; now rewrite app_nil_r|].
    apply runs_read. intros recs3 x3 Hs3 [more3 Em3].
    set (P3 := fun (_ : list ent) (x : flat F) => exists more, f_ids x = f_ids x3 ++ more).
    exists P3. split; [apply HMids|]. split; [exists []; now rewrite app_nil_r|].
    cbv zeta. set (n := length (f_ids x3)).
    assert (0 < n) as Hn by (unfold n; rewrite Em3, app_length; lia).
    assert (exists m, f_ids x3 = ids0 ++ m) as [m3 E3].
    { exists (more2 ++ more3). now rewrite Em3, Em2, app_assoc. }
    change (@nil act) with (@nil act ++ []). eapply runs_bind.
    { apply (runs_load rounds 0 P3); [lia|apply HMids|]. intros. lia. }
    2:{ intros recs x e (l & E & _). discriminate. }
    intros l.
    set (P4 := fun recs (x : flat F) =>
           (exists more, f_ids x = map fst l ++ more) /\
           Forall (fun e => exists m, sp_find (fst e) recs = Some (snd e, m)) l).
    set (Pl := exists m, map fst l = f_ids x3 ++ m).
    apply runs_weaken with (P := fun recs x => Pl /\ P4 recs x).
    { intros recs x Hs (l' & E & _ & ids1 & more & recs1' & x1' & [m1 HP1'] & Ex1 & Ei & _ & Em & HF).
      injection E as <-. simpl in Em. split; [|split]; auto.
      - exists m1. rewrite Em, <- Ex1. exact HP1'.
      - exists more. now rewrite Em. }
    assert (mono P4) as HM4.
    { apply mono_and; [apply HMids|]. intros r1 y1 r2 y2 Hg. apply Forall_impl.
      intros e. apply (mono_find (fst e) (snd e) _ _ _ _ Hg). }
    assert (mono (fun recs x => Pl /\ P4 recs x)) as HM4'.
    { intros r1 y1 r2 y2 Hg [Hpl HP4]. split; auto. eapply HM4; eauto. }
    (* the records under the loaded ids, seen from any later moment *)
    assert (HR : forall recs x, sound recs x -> Pl /\ P4 recs x -> exists R more later,
              incl R recs /\ NoDup (map fst R) /\ Permutation (map fst R) (map fst l) /\
              Permutation (map fst R) (ids0 ++ more) /\ f_ids x = ids0 ++ more ++ later /\
              length ids0 <= n <= length R /\ R <> [] /\
              Permutation l (map (fun e => (fst e, fst (snd e))) R) /\
              (forall id, In id (map fst l) -> sp_find id R = sp_find id recs)).
    { intros recs x Hs [[m4 E4] [[later E5] HF]].
      destruct (loaded_records recs x l Hs (ex_intro _ _ E5) HF) as (HiR & HndR & HpR & HFR).
      set (R := filter _ recs) in *.
      assert (length R = length l) as ElR.
      { apply Permutation_length in HpR. now rewrite !map_length in HpR. }
      assert (length l = n + length m4) as Ell.
      { rewrite <- (map_length fst l), E4, app_length. reflexivity. }
      exists R, (m3 ++ m4), later. split; [|split; [|split; [|split; [|split; [|split; [|split; [|split]]]]]]]; auto.
      - rewrite app_assoc, <- E3, <- E4. exact HpR.
      - rewrite E5, E4, E3. now rewrite <- !app_assoc.
      - split; [|lia]. unfold n. rewrite E3, app_length. lia.
      - intros E. rewrite E in ElR. simpl in ElR. lia.
      - apply permutation_recs; auto. now symmetry.
      - intros id Hid. apply sp_find_filter. now apply memb_In. }
    assert (Hdone : forall recs x r, sound recs x -> Pl /\ P4 recs x ->
              (forall R, R <> [] -> Permutation l (map (fun e => (fst e, fst (snd e))) R) ->
                 NoDup (map fst R) -> Permutation (map fst R) (map fst l) ->
                 (forall id, In id (map fst l) -> sp_find id R = sp_find id recs) ->
                 n <= length R ->
                 flat_ok mt R q (Z.min k (Z.of_nat n))
                   (match r with Ok l => AHits l | Raise e => AExn e end)) ->
              answers ids0 q k recs x r).
    { intros recs x r Hs HP Hfo. destruct (HR recs x Hs HP) as
        (R & more & later & ? & ? & ? & ? & ? & [? ?] & ? & ? & ?).
      exists R, n, more, later. repeat split; auto. }
    destruct (Nat.eqb_spec (length l) 0) as [El|El].
    { intros recs x Hs HP. exfalso. destruct HP as [[m4 E4] _].
      apply (f_equal (@length pystr)) in E4. rewrite map_length, app_length in E4.
      fold n in E4. lia. }
    destruct (matrix_distances mt q (map snd l)) as [ds|e] eqn:Emd.
    - (* distances computed *)
      assert (mt <> MOther /\
              negb (length q =? 0) && row_ok (length q) q &&
                forallb (row_ok (length q)) (map snd l) = true /\
              ds = map (row_distance mt q) (map snd l)) as (Hmt & Hok & ->).
      { unfold matrix_distances in Emd. destruct mt; try discriminate;
          destruct (negb _ && _ && _); try discriminate; injection Emd as <-; repeat split; auto; discriminate. }
      set (ds := map (row_distance mt q) (map snd l)) in *.
      assert (length ds = length l) as Edl by (unfold ds; now rewrite !map_length).
      destruct (Harg ds) as [Hap _]. pose proof (Permutation_length Hap) as Hal.
      rewrite seq_length in Hal.
      eapply runs_post; [|eapply runs_results with (P := fun recs x => Pl /\ P4 recs x)].
      + intros recs x r Hs (hits & -> & HP & Em & HFm). apply (Hdone recs x (Ok hits) Hs HP).
        intros R HRne Hpl Hnd Hkeys Hfind HnR.
        assert (length R = length l) as ElR.
        { apply Permutation_length in Hkeys. now rewrite !map_length in Hkeys. }
        assert (slice_to (Z.min k (Z.of_nat n)) (argsort ds) =
                firstn (want (Z.min k (Z.of_nat n)) (length R)) (argsort ds)) as Esl.
        { rewrite ElR, <- Edl, <- Hal, <- slice_to_min. f_equal. lia. }
        rewrite Esl in Em.
        assert (Forall (fun h => exists v, sp_find (h_id h) R = Some (v, h_meta h)) hits) as HFR.
        { rewrite Forall_forall in *. intros h Hh. destruct (HFm h Hh) as [v Ev]. exists v.
          rewrite Hfind; auto.
          apply (in_map (fun h => (Some (h_id h), Some (h_dist h)))) in Hh. rewrite Em in Hh.
          apply in_map_iff in Hh as [i [Ei _]]. injection Ei as Ei _.
          eapply nth_error_In; eauto. }
        rewrite (flat_ok_some R q _ _ HRne).
        assert (nearest nleb (row_distance mt q) R
                  (want (Z.min k (Z.of_nat n)) (length R)) hits) as Hnear.
        { apply (hits_nearest mt argsort q R l _ hits); auto; [now symmetry|apply want_le]. }
        rewrite <- (searchable_rows R q l Hpl), Hok. destruct mt; eauto. congruence.
      + rewrite map_length. lia.
      + exact HM4'.
      + intros recs x id Hs [_ [_ HF]] Hid. apply in_map_iff in Hid as [e [<- He]].
        rewrite Forall_forall in HF. destruct (HF e He) as [m Ef]. apply In_keys_find. eauto.
      + rewrite Forall_forall. intros i Hi. rewrite map_length.
        assert (In i (argsort ds)) as Hi'.
        { unfold slice_to in Hi. apply In_firstn in Hi. exact Hi. }
        apply (Permutation_in _ Hap) in Hi'. apply in_seq in Hi'. lia.
    - intros recs x Hs HP. split; auto. apply (Hdone recs x (Raise EIndex) Hs HP).
      intros R HRne Hpl _ _ _ _. rewrite (flat_ok_some R q _ _ HRne).
      rewrite <- (searchable_rows R q l Hpl).
      unfold matrix_distances in Emd. destruct mt; auto;
        destruct (negb _ && _ && _); auto; discriminate.
  Qed.

  (** ** All threads together *)

  (** The writes still to come of one row, then whole rows. *)
  Inductive whole : list act -> Prop :=
  | whole_nil : whole []
  | whole_row e l : whole l -> whole (AStore e :: AAppend e :: ACache e :: l).

  Definition shape recs (acts : list act) : Prop :=
    whole acts \/
    (exists e l, acts = AAppend e :: ACache e :: l /\ sp_find (fst e) recs = Some (snd e) /\ whole l) \/
    (exists e l, acts = ACache e :: l /\ sp_find (fst e) recs = Some (snd e) /\ whole l).

  (** Records still to be stored; ids stored but not yet listed. *)
  Definition future (acts : list act) : list ent :=
    flat_map (fun a => match a with AStore e => [e] | _ => [] end) acts.
  Definition pending (acts : list act) : list pystr :=
    match acts with AAppend e :: _ => [fst e] | _ => [] end.

  Lemma whole_rows l : whole (flat_map row_acts l).
  Proof. induction l; simpl; constructor; auto. Qed.

  Lemma future_rows l : future (flat_map row_acts l) = l.
  Proof. induction l as [|e l IH]; auto. change (e :: future (flat_map row_acts l) = e :: l). now rewrite IH. Qed.

  Lemma pending_whole l : whole l -> pending l = [].
  Proof. now destruct 1. Qed.

  Lemma shape_grow recs more acts : shape recs acts -> shape (recs ++ more) acts.
  Proof.
    intros [Hw|[(e & l & -> & E & Hw)|(e & l & -> & E & Hw)]].
    - now left.
    - right. left. exists e, l. repeat split; auto. now rewrite sp_find_app, E.
    - right. right. exists e, l. repeat split; auto. now rewrite sp_find_app, E.
  Qed.

  Context (ts : list nat) (Hts : NoDup ts).
  Context (total : list ent) (Htotal : NoDup (map fst total)) (HN : length total <= N).

  Record inv recs (w : W) (todo : nat -> list act) : Prop := {
    iv_A : A (MkS true recs) (snd w);
    iv_init : f_init (fst w) = true;
    iv_coh : fcoh recs (fst w);
    iv_total : Permutation (concat (map (fun t => future (todo t)) ts) ++ recs) total;
    iv_ids : Permutation (concat (map (fun t => pending (todo t)) ts) ++ f_ids (fst w))
                         (map fst recs);
    iv_shape : forall t, shape recs (todo t);
    iv_idle : forall t, ~ In t ts -> todo t = [];
    iv_new : forall t e, In e (future (todo t)) -> dmem (fst e) (f_cache (fst w)) = false
  }.

  Lemma inv_nd recs w todo : inv recs w todo ->
    NoDup (map fst (concat (map (fun t => future (todo t)) ts) ++ recs)).
  Proof.
    intros I. eapply Permutation_NoDup; [|exact Htotal].
    apply Permutation_map. symmetry. apply (iv_total _ _ _ I).
  Qed.

  Lemma NoDup_back {X} (l l' : list X) : NoDup (l ++ l') -> NoDup l'.
  Proof. induction l; simpl; auto. intros Hnd. inversion Hnd; auto. Qed.

  Lemma NoDup_apart {X} (l l' : list X) x : NoDup (l ++ l') -> In x l -> ~ In x l'.
  Proof.
    induction l as [|a l IH]; simpl; [tauto|]. intros Hnd [->|Hin]; inversion Hnd as [|? ? Ha Hnd']; subst; auto.
    intros Hx. apply Ha. apply in_or_app. auto.
  Qed.

  Lemma inv_sound recs w todo : inv recs w todo -> sound recs (fst w).
  Proof.
    intros I. pose proof (inv_nd _ _ _ I) as Hnd. rewrite map_app in Hnd.
    pose proof (NoDup_back _ _ Hnd) as Hndr.
    pose proof (iv_ids _ _ _ I) as Hids.
    split; [apply (iv_init _ _ _ I)|]. split; [apply (iv_coh _ _ _ I)|]. split; [|split; [|split]]; auto.
    - intros id Hid. eapply Permutation_in; [exact Hids|]. apply in_or_app. auto.
    - pose proof (Permutation_length Hids) as El1. rewrite app_length, map_length in El1.
      pose proof (Permutation_length (iv_total _ _ _ I)) as El2. rewrite app_length in El2. lia.
    - apply (NoDup_back (concat (map (fun t => pending (todo t)) ts))).
      eapply Permutation_NoDup; [symmetry; exact Hids|auto].
  Qed.

  Lemma future_new recs w todo t e : inv recs w todo -> In e (future (todo t)) ->
    ~ In (fst e) (map fst recs).
  Proof.
    intros I Hin. pose proof (inv_nd _ _ _ I) as Hnd. rewrite map_app in Hnd.
    apply (NoDup_apart _ _ _ Hnd). apply in_map. apply in_concat. exists (future (todo t)).
    split; auto. apply in_map_iff. exists t. split; auto.
    destruct (in_dec Nat.eq_dec t ts) as [|Hn]; auto.
    rewrite (iv_idle _ _ _ I t Hn) in Hin. destruct Hin.
  Qed.

  Definition upd {X} (f : nat -> X) (t : nat) (v : X) (u : nat) : X :=
    if Nat.eqb u t then v else f u.

  Lemma upd_same {X} (f : nat -> X) t v : upd f t v t = v.
  Proof. unfold upd. now rewrite Nat.eqb_refl. Qed.
  Lemma upd_other {X} (f : nat -> X) t v u : u <> t -> upd f t v u = f u.
  Proof. unfold upd. intros Hu. destruct (Nat.eqb_spec u t); congruence. Qed.

  Lemma inv_step recs w todo t acts' recs' w' :
    inv recs w todo -> effect (todo t) acts' recs w recs' w' ->
    inv recs' w' (upd todo t acts') /\ grows recs (fst w) recs' (fst w').
  Proof.
    intros I He.
    assert (Hin : acts' <> todo t -> In t ts).
    { intros Hne. destruct (in_dec Nat.eq_dec t ts) as [|Hn]; auto. exfalso. apply Hne.
      rewrite (iv_idle _ _ _ I t Hn) in *.
      destruct He as [(-> & _)|[(e & E & _)|[(e & E & _)|(e & E & _)]]]; auto; discriminate. }
    assert (Hidle : acts' <> todo t -> forall u, ~ In u ts -> upd todo t acts' u = []).
    { intros Hne u Hu. rewrite upd_other; [apply (iv_idle _ _ _ I u Hu)|].
      intros ->. auto. }
    assert (Hother : forall (f : list act -> list ent) u, u <> t -> f (upd todo t acts' u) = f (todo u))
      by (intros f u Hu; now rewrite upd_other).
    assert (Hother' : forall (f : list act -> list pystr) u, u <> t -> f (upd todo t acts' u) = f (todo u))
      by (intros f u Hu; now rewrite upd_other).
    destruct He as [(-> & -> & HA & Ei & Eids & Hcoh & Hk1 & Hk2)|
                   [(e & E & -> & Ex & HA)|[(e & E & -> & Es & Ex)|(e & E & -> & Es & Ex)]]].
    - (* silent *)
      assert (forall u, upd todo t (todo t) u = todo u) as Eu.
      { intros u. unfold upd. destruct (Nat.eqb_spec u t); congruence. }
      split.
      + constructor; auto.
        * rewrite Ei. apply (iv_init _ _ _ I).
        * erewrite map_ext; [apply (iv_total _ _ _ I)|]. intros u. simpl. now rewrite Eu.
        * rewrite Eids. erewrite map_ext; [apply (iv_ids _ _ _ I)|]. intros u. simpl. now rewrite Eu.
        * intros u. rewrite Eu. apply (iv_shape _ _ _ I).
        * intros u Hu. rewrite Eu. now apply (iv_idle _ _ _ I).
        * intros u e Hu. rewrite Eu in Hu.
          destruct (dmem (fst e) (f_cache (fst w'))) eqn:Ed; auto. exfalso.
          destruct (Hk2 _ Ed) as [Ed'|Hin'].
          -- rewrite (iv_new _ _ _ I u e Hu) in Ed'. discriminate.
          -- now apply (future_new _ _ _ u e I) in Hin'.
      + split; [exists []; now rewrite app_nil_r|]. split; auto.
        exists []. now rewrite app_nil_r.
    - (* store *)
      assert (In t ts) as Ht. { apply Hin. rewrite E. intros Ea. apply (f_equal (@length act)) in Ea. simpl in Ea. lia. }
      assert (acts' <> todo t) as Hne.
      { rewrite E. intros Ea. apply (f_equal (@length act)) in Ea. simpl in Ea. lia. }
      assert (whole (todo t)) as Hw.
      { destruct (iv_shape _ _ _ I t) as [Hw|[(e' & l & E' & _)|(e' & l & E' & _)]]; auto;
          rewrite E in E'; discriminate. }
      rewrite E in Hw. inversion Hw as [|e' l Hl Ee]; subst e' acts'.
      assert (In e (future (todo t))) as Hfe by (rewrite E; now left).
      pose proof (future_new _ _ _ t e I Hfe) as Hnew.
      rewrite sp_put_fresh in * by auto.
      assert ((fst e, snd e) = e) as Ee by now destruct e. rewrite Ee in *.
      assert (grows recs (fst w) (recs ++ [e]) (fst w')) as Hg.
      { rewrite Ex. split; [eauto|]. split; auto. exists []. now rewrite app_nil_r. }
      split; auto. constructor; auto.
      + rewrite Ex. apply (iv_init _ _ _ I).
      + rewrite Ex. intros id v r Hd Hr. rewrite sp_find_app in Hr.
        destruct (sp_find id recs) eqn:Ef.
        * injection Hr as <-. eapply (iv_coh _ _ _ I); eauto.
        * simpl in Hr. destruct e as [k [v' m]]. simpl in *.
          destruct (eqb_spec id k) as [->|]; [|discriminate].
          pose proof (iv_new _ _ _ I t _ Hfe) as Hn. unfold dmem in Hn. simpl in Hn.
          rewrite Hd in Hn. discriminate.
      + eapply perm_trans; [|apply (iv_total _ _ _ I)]. symmetry.
        apply concat_map_upd with (t := t); auto.
        rewrite upd_same, E. simpl.
        change (flat_map _ l) with (future l).
        eapply perm_trans; [apply Permutation_cons_append|]. rewrite <- app_assoc. reflexivity.
      + rewrite Ex, map_app. simpl.
        eapply perm_trans; [|apply Permutation_app_tail, (iv_ids _ _ _ I)].
        rewrite <- app_assoc. symmetry.
        apply concat_map_upd with (t := t); auto.
        rewrite upd_same, E. simpl. symmetry. apply Permutation_cons_append.
      + intros u. unfold upd. destruct (Nat.eqb_spec u t).
        * right. left. exists e, l. repeat split; auto. rewrite sp_find_app.
          apply sp_find_None in Hnew. rewrite Hnew. destruct e as [k r]. simpl.
          now rewrite eqb_refl.
        * apply shape_grow, (iv_shape _ _ _ I).
      + intros u e' Hu. rewrite Ex. unfold upd in Hu. destruct (Nat.eqb_spec u t).
        * apply (iv_new _ _ _ I t). rewrite E. simpl. right. exact Hu.
        * eapply (iv_new _ _ _ I); eauto.
    - (* append *)
      assert (acts' <> todo t) as Hne.
      { rewrite E. intros Ea. apply (f_equal (@length act)) in Ea. simpl in Ea. lia. }
      pose proof (Hin Hne) as Ht.
      assert (exists l, acts' = ACache e :: l /\ sp_find (fst e) recs = Some (snd e) /\ whole l)
        as (l & -> & Ef & Hl).
      { destruct (iv_shape _ _ _ I t) as [Hw|[(e' & l & E' & Ef & Hl)|(e' & l & E' & _)]];
          rewrite E in *.
        - inversion Hw.
        - injection E' as <- ->. eauto.
        - discriminate. }
      split.
      + constructor; auto.
        * rewrite Es. apply (iv_A _ _ _ I).
        * rewrite Ex. apply (iv_init _ _ _ I).
        * rewrite Ex. exact (iv_coh _ _ _ I).
        * eapply perm_trans; [|apply (iv_total _ _ _ I)]. symmetry.
          apply concat_map_upd with (t := t); auto. rewrite upd_same, E. reflexivity.
        * rewrite Ex. simpl. eapply perm_trans; [|apply (iv_ids _ _ _ I)]. symmetry.
          apply concat_map_upd with (t := t); auto. rewrite upd_same, E. simpl.
          apply Permutation_cons_append.
        * intros u. unfold upd. destruct (Nat.eqb_spec u t); [|apply (iv_shape _ _ _ I)].
          right. right. eauto.
        * intros u e' Hu. rewrite Ex. simpl. unfold upd in Hu. destruct (Nat.eqb_spec u t).
          -- apply (iv_new _ _ _ I t). rewrite E. simpl in *. exact Hu.
          -- eapply (iv_new _ _ _ I); eauto.
      + rewrite Ex. split; [exists []; now rewrite app_nil_r|]. split; simpl; eauto.
    - (* cache *)
      assert (acts' <> todo t) as Hne.
      { rewrite E. intros Ea. apply (f_equal (@length act)) in Ea. simpl in Ea. lia. }
      pose proof (Hin Hne) as Ht.
      assert (sp_find (fst e) recs = Some (snd e) /\ whole acts') as [Ef Hl].
      { destruct (iv_shape _ _ _ I t) as [Hw|[(e' & l & E' & _)|(e' & l & E' & Ef & Hl)]];
          rewrite E in *.
        - inversion Hw.
        - discriminate.
        - injection E' as <- ->. eauto. }
      split.
      + constructor; auto.
        * rewrite Es. apply (iv_A _ _ _ I).
        * rewrite Ex. apply (iv_init _ _ _ I).
        * rewrite Ex. intros id v r Hd Hr. simpl in Hd. rewrite dget_dset in Hd.
          destruct (eqb_spec id (fst e)) as [->|].
          -- injection Hd as <-. rewrite Ef in Hr. now injection Hr as <-.
          -- eapply (iv_coh _ _ _ I); eauto.
        * eapply perm_trans; [|apply (iv_total _ _ _ I)]. symmetry.
          apply concat_map_upd with (t := t); auto. rewrite upd_same, E. reflexivity.
        * rewrite Ex. simpl. eapply perm_trans; [|apply (iv_ids _ _ _ I)]. symmetry.
          apply concat_map_upd with (t := t); auto. rewrite upd_same, E. simpl.
          now rewrite pending_whole.
        * intros u. unfold upd. destruct (Nat.eqb_spec u t); [|apply (iv_shape _ _ _ I)].
          now left.
        * intros u e' Hu. rewrite Ex. simpl. unfold dmem. rewrite dget_dset.
          assert (In e' (future (todo u))) as Hu'.
          { unfold upd in Hu. destruct (Nat.eqb_spec u t); auto. subst. rewrite E. exact Hu. }
          destruct (eqb_spec (fst e') (fst e)) as [Ee|].
          -- exfalso. apply (future_new _ _ _ u e' I Hu'). rewrite Ee. apply In_keys_find. eauto.
          -- apply (iv_new _ _ _ I u e' Hu').
      + rewrite Ex. split; [exists []; now rewrite app_nil_r|]. split.
        * exists []. simpl. now rewrite app_nil_r.
        * intros id Hd. simpl. unfold dmem in *. rewrite dget_dset. now destruct (eqb id (fst e)).
  Qed.

  Lemma grows_refl recs x : grows recs x recs x.
  Proof. split; [|split]; auto; exists []; now rewrite app_nil_r. Qed.

  Lemma grows_trans r1 x1 r2 x2 r3 x3 :
    grows r1 x1 r2 x2 -> grows r2 x2 r3 x3 -> grows r1 x1 r3 x3.
  Proof.
    intros ([m1 ->] & [i1 E1] & K1) ([m2 ->] & [i2 E2] & K2). split; [|split]; auto.
    - exists (m1 ++ m2). now rewrite app_assoc.
    - exists (i1 ++ i2). now rewrite E2, E1, app_assoc.
  Qed.

  (** Every schedule keeps the invariant, and every thread stays on its course. *)
  Lemma threads_inv {R} (Q : nat -> list ent -> flat F -> result R -> Prop) sched :
    forall (ps : nat -> prog W R) w recs todo,
    inv recs w todo ->
    (forall t, exists P, mono P /\ P recs (fst w) /\ runs (ps t) (todo t) P (Q t)) ->
    match threads sched ps w with
    | (ps', w') => exists recs' todo',
        inv recs' w' todo' /\ grows recs (fst w) recs' (fst w') /\
        (forall t, exists P, mono P /\ P recs' (fst w') /\ runs (ps' t) (todo' t) P (Q t))
    end.
  Proof.
    induction sched as [|t sched IH]; intros ps w recs todo I Hps; cbn [threads].
    - exists recs, todo. split; auto. split; auto. apply grows_refl.
    - destruct (ps t) as [r|f] eqn:Ept; [now apply (IH ps w recs todo)|].
      destruct (Hps t) as (P & HM & HP & Hr). rewrite Ept in Hr. cbn [runs] in Hr.
      specialize (Hr w recs (iv_A _ _ _ I) (inv_sound _ _ _ I) HP).
      destruct (f w) as [q' w1]. destruct Hr as (acts' & recs1 & P' & He & HM' & HP' & Hq').
      destruct (inv_step _ _ _ _ _ _ _ I He) as [I1 Hg].
      specialize (IH (fun u => if Nat.eqb u t then q' else ps u) w1 recs1 (upd todo t acts') I1).
      destruct (threads sched _ w1) as [ps' w'].
      destruct IH as (recs' & todo' & I' & Hg' & Hps').
      + intros u. unfold upd. destruct (Nat.eqb_spec u t); [subst; exists P'; auto|].
        destruct (Hps u) as (Pu & HMu & HPu & Hru). exists Pu. split; auto. split; auto.
        eapply HMu; eauto.
      + exists recs', todo'. split; auto. split; auto. eapply grows_trans; eauto.
  Qed.
End Race.
