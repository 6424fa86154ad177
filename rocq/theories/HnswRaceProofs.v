(** Several threads insert into one graph index: what every schedule keeps. *)

From Coq Require Import List Arith ZArith NArith Lia Bool Permutation Sorted.
From Coq Require Import ZifyBool ZifyNat ZifyN.
From Verif Require Import PyBase PyMore BaseLemmas Payload StorageModel StorageSpec StorageRun
  StorageThms StorageOk Num ClientModel DbSpec ClientRun ClientProofs FlatModel FlatProofs
  HnswModel HnswProofs StepModel StepProofs LshSteps FlatRaceProofs RelyProofs IvfProofs HnswSteps.
Import ListNotations.
Open Scope py_scope.

(** ** Nodes and links of a list of levels *)

Definition node (l : nat) (id : pystr) (ls : list graph) : Prop :=
  exists g, nth_error ls l = Some g /\ In id (dkeys g).

(** [b] is in the list of [a] at level [l]. *)
Definition linked (l : nat) (a b : pystr) (ls : list graph) : Prop :=
  exists g la, nth_error ls l = Some g /\ dget a g = Some la /\ In b la.

Lemma linked_node l a b ls : linked l a b ls -> node l a ls.
Proof.
  intros (g & la & E & Ea & _). exists g. split; auto. apply dget_Some_In in Ea.
  apply in_map_iff. now exists (a, la).
Qed.

Lemma node_get l a ls : node l a ls -> exists g la, nth_error ls l = Some g /\ dget a g = Some la.
Proof.
  intros (g & E & Hin). exists g. apply dmem_In in Hin. unfold dmem in Hin.
  destruct (dget a g) as [la|]; [|discriminate]. eauto.
Qed.

Lemma nth_grow (ls : list graph) l g : nth_error (ls ++ [[]]) l = Some g ->
  g = [] \/ nth_error ls l = Some g.
Proof.
  intros E. destruct (Nat.lt_ge_cases l (length ls)); [rewrite nth_error_app1 in E by lia; auto|].
  rewrite nth_error_app2 in E by lia. destruct (l - length ls) as [|[|n]]; simpl in E; [|discriminate..].
  left. congruence.
Qed.

Lemma nth_grown (ls : list graph) l g : nth_error ls l = Some g -> nth_error (ls ++ [[]]) l = Some g.
Proof. intros E. rewrite nth_error_app1; auto. apply nth_error_Some. congruence. Qed.

Lemma node_grow l id ls : node l id (ls ++ [[]]) <-> node l id ls.
Proof.
  split; intros (g & E & Hin); exists g; (split; [|exact Hin]).
  - apply nth_grow in E as [->|]; [destruct Hin|auto].
  - now apply nth_grown.
Qed.

Lemma linked_grow l a b ls : linked l a b (ls ++ [[]]) <-> linked l a b ls.
Proof.
  split; intros (g & la & E & Ea & Hin); exists g, la; (split; [|auto]).
  - apply nth_grow in E as [->|]; [discriminate|auto].
  - now apply nth_grown.
Qed.

Lemma nth_put l (g g' : graph) ls l' : nth_error ls l = Some g ->
  nth_error (set_nth l g' ls) l' = if Nat.eqb l' l then Some g' else nth_error ls l'.
Proof.
  intros E. rewrite nth_error_set_nth, Nat.eqb_sym.
  destruct (Nat.eqb_spec l' l) as [->|]; [now rewrite E|reflexivity].
Qed.

Lemma node_put l g a la ls l' id : nth_error ls l = Some g ->
  node l' id (set_nth l (dset a la g) ls) <-> node l' id ls \/ l' = l /\ id = a.
Proof.
  intros E. split.
  - intros (g' & E' & Hin). rewrite (nth_put _ _ _ _ _ E) in E'.
    destruct (Nat.eqb_spec l' l) as [->|]; [|left; now exists g'].
    injection E' as <-. apply In_dkeys_dset in Hin as [->|Hin]; [auto|left; now exists g].
  - intros [(g' & E' & Hin)|[-> ->]].
    + destruct (Nat.eqb_spec l' l) as [->|Hne].
      * exists (dset a la g). rewrite (nth_put _ _ _ _ _ E), Nat.eqb_refl. split; auto.
        apply In_dkeys_dset. right. congruence.
      * exists g'. rewrite (nth_put _ _ _ _ _ E). destruct (Nat.eqb_spec l' l); [congruence|auto].
    + exists (dset a la g). rewrite (nth_put _ _ _ _ _ E), Nat.eqb_refl. split; auto.
      apply In_dkeys_dset. auto.
Qed.

Lemma linked_put l g a la ls l' a' b' : nth_error ls l = Some g ->
  linked l' a' b' (set_nth l (dset a la g) ls) <->
  (l' = l /\ a' = a /\ In b' la) \/ ((l' <> l \/ a' <> a) /\ linked l' a' b' ls).
Proof.
  intros E. split.
  - intros (g' & la' & E' & Ea & Hin). rewrite (nth_put _ _ _ _ _ E) in E'.
    destruct (Nat.eqb_spec l' l) as [->|Hne].
    + injection E' as <-. rewrite dget_dset in Ea. destruct (eqb_spec a' a) as [->|Hne].
      * injection Ea as <-. auto.
      * right. split; auto. now exists g, la'.
    + right. split; auto. now exists g', la'.
  - intros [(-> & -> & Hin)|[Hor (g' & la' & E' & Ea & Hin)]].
    + exists (dset a la g), la. rewrite (nth_put _ _ _ _ _ E), Nat.eqb_refl, dget_dset, eqb_refl. auto.
    + destruct (Nat.eqb_spec l' l) as [->|Hne].
      * exists (dset a la g), la'. rewrite (nth_put _ _ _ _ _ E), Nat.eqb_refl, dget_dset.
        destruct (eqb_spec a' a); [tauto|]. split; auto. split; auto. congruence.
      * exists g', la'. rewrite (nth_put _ _ _ _ _ E). destruct (Nat.eqb_spec l' l); [congruence|auto].
Qed.

(** A list of links grows by one. *)
Lemma linked_add l a b g la ls : nth_error ls l = Some g -> dget a g = Some la -> forall l' a' b',
  linked l' a' b' (set_nth l (dset a (la ++ [b]) g) ls) <->
  linked l' a' b' ls \/ (l' = l /\ a' = a /\ b' = b).
Proof.
  intros E Ea l' a' b'. rewrite (linked_put l g a (la ++ [b]) ls l' a' b' E). split.
  - intros [(-> & -> & Hin)|[_ Hl]]; [|auto]. apply in_app_or in Hin as [Hin|[<-|[]]]; [|auto].
    left. now exists g, la.
  - intros [Hl|(-> & -> & ->)].
    + destruct (Nat.eq_dec l' l) as [->|]; [|auto]. destruct (eqb_spec a' a) as [->|]; [|auto].
      left. split; auto. split; auto. apply in_or_app. left.
      destruct Hl as (g' & la' & E' & Ea' & Hin). congruence.
    + left. split; auto. split; auto. apply in_or_app. right. now left.
Qed.

Lemma node_same l a g la la' ls : nth_error ls l = Some g -> dget a g = Some la -> forall l' id,
  node l' id (set_nth l (dset a la' g) ls) <-> node l' id ls.
Proof.
  intros E Ea l' id. rewrite (node_put l g a la' ls l' id E). split; [|auto].
  intros [|[-> ->]]; auto. exists g. split; auto. apply dget_Some_In in Ea. apply in_map_iff. now exists (a, la).
Qed.

Lemma nodup_put l g a la (ls : list graph) : nth_error ls l = Some g ->
  Forall (fun g => NoDup (dkeys g)) ls -> Forall (fun g => NoDup (dkeys g)) (set_nth l (dset a la g) ls).
Proof.
  intros E HF. rewrite Forall_forall in *. intros g' Hg'. apply In_nth_error in Hg' as [j Ej].
  rewrite (nth_put _ _ _ _ _ E) in Ej. destruct (Nat.eqb j l); [|apply HF; now apply nth_error_In in Ej].
  injection Ej as <-. apply NoDup_dkeys_dset. apply HF. now apply nth_error_In in E.
Qed.

Section HnswRace.
  Context {F Mt S : Type} `{Num F} `{!NumOrder F} `{Payload (list F) Mt}.
  Context (C : storage_class S (list F) Mt) (m : Z) (Hm : (0 <= m)%Z).
  Context (p b : bool) (sz : option (list F * option Mt -> N))
          (A : sstate (list F) Mt -> S -> Prop) (HC : storage_ok C p b sz A).
  Notation W := (hnsw F * S)%type.
  Notation ent := (entry (list F) Mt).
  Implicit Types recs : list ent.

  (** ** What one thread does *)

  (** The writes of one inserted row: the record, the vector, a node at a level, and the second
      half of a link. *)
  Inductive hact : Type :=
  | HStore (e : ent) | HVec (e : ent) | HNode (l : nat) (id : pystr) | HHalf (l : nat) (a b : pystr).

  Definition hgood recs (w : W) : Prop :=
    A (MkS true recs) (snd w) /\ h_init (fst w) = true /\
    h_max (fst w) < length (h_levels (fst w)) /\
    Forall (fun g => NoDup (dkeys g)) (h_levels (fst w)).

  Definition hlater recs (w : W) recs' (w' : W) : Prop :=
    incl recs recs' /\ incl (dkeys (h_vectors (fst w))) (dkeys (h_vectors (fst w'))) /\
    length (h_levels (fst w)) <= length (h_levels (fst w')) /\
    forall l id, node l id (h_levels (fst w)) -> node l id (h_levels (fst w')).

  (** One step.  A thread may promise the second half of a link at any time. *)
  Inductive heff : list hact -> list hact -> list ent -> W -> list ent -> W -> Prop :=
  | HE_silent acts recs x s mx n : mx < length (h_levels x) ->
      heff acts acts recs (x, s) recs (MkHnsw (h_levels x) (h_vectors x) mx n (h_init x), s)
  | HE_store e acts recs x s s' :
      A (MkS true (sp_put (fst e) (snd e) recs)) s' ->
      heff (HStore e :: acts) acts recs (x, s) (sp_put (fst e) (snd e) recs) (x, s')
  | HE_vec e acts recs x s : In e recs ->
      heff (HVec e :: acts) acts recs (x, s)
           recs (hset_vectors (dset (fst e) (fst (snd e)) (h_vectors x)) x, s)
  | HE_grow acts recs x s :
      heff acts acts recs (x, s) recs (hset_levels (h_levels x ++ [[]]) x, s)
  | HE_node l id g acts recs x s : nth_error (h_levels x) l = Some g ->
      In id (dkeys (h_vectors x)) -> (l = 0 \/ node (l - 1) id (h_levels x)) ->
      heff (HNode l id :: acts) acts recs (x, s)
           recs (hset_levels (set_nth l (dset id [] g) (h_levels x)) x, s)
  | HE_there l id acts recs w : node l id (h_levels (fst w)) ->
      heff (HNode l id :: acts) acts recs w recs w
  | HE_plan l a b acts recs w : linked l b a (h_levels (fst w)) ->
      heff acts (HHalf l a b :: acts) recs w recs w
  | HE_first l a b g la acts recs x s : nth_error (h_levels x) l = Some g -> dget a g = Some la ->
      node l b (h_levels x) -> a <> b ->
      heff acts (HHalf l b a :: acts) recs (x, s)
           recs (hset_levels (set_nth l (dset a (la ++ [b]) g) (h_levels x)) x, s)
  | HE_second l a b g la acts recs x s : nth_error (h_levels x) l = Some g -> dget a g = Some la ->
      node l b (h_levels x) -> a <> b ->
      heff (HHalf l a b :: acts) acts recs (x, s)
           recs (hset_levels (set_nth l (dset a (la ++ [b]) g) (h_levels x)) x, s)
  | HE_done l a b acts recs w : linked l a b (h_levels (fst w)) ->
      heff (HHalf l a b :: acts) acts recs w recs w.

  Lemma heff_app a1 a1' a2 recs w recs' w' :
    heff a1 a1' recs w recs' w' -> heff (a1 ++ a2) (a1' ++ a2) recs w recs' w'.
  Proof. destruct 1; cbn [app]; econstructor; eauto. Qed.

  Lemma hlater_refl recs w : hlater recs w recs w.
  Proof. split; [apply incl_refl|]. split; [apply incl_refl|]. auto. Qed.

  Lemma hlater_trans r1 w1 r2 w2 r3 w3 : hlater r1 w1 r2 w2 -> hlater r2 w2 r3 w3 -> hlater r1 w1 r3 w3.
  Proof.
    intros (A1 & B1 & C1 & D1) (A2 & B2 & C2 & D2). split; [eapply incl_tran; eauto|].
    split; [eapply incl_tran; eauto|]. split; [lia|]. auto.
  Qed.

  Lemma hlater_put recs x s l g a la : nth_error (h_levels x) l = Some g ->
    hlater recs (x, s) recs (hset_levels (set_nth l (dset a la g) (h_levels x)) x, s).
  Proof.
    intros E. split; [apply incl_refl|]. split; [apply incl_refl|]. split.
    - simpl. now rewrite set_nth_length.
    - intros l' id Hn. simpl. apply node_put; auto.
  Qed.

  Lemma heff_later acts acts' recs w recs' w' :
    heff acts acts' recs w recs' w' -> incl recs recs' -> hlater recs w recs' w'.
  Proof.
    destruct 1; intros Hincl; try apply hlater_refl; try (now apply hlater_put).
    - split; [apply incl_refl|]. split; [apply incl_refl|]. auto.
    - split; [exact Hincl|]. split; [apply incl_refl|]. auto.
    - split; [apply incl_refl|]. split; [|auto]. simpl. intros k Hk. apply In_dkeys_dset. auto.
    - split; [apply incl_refl|]. split; [apply incl_refl|]. simpl. split; [rewrite app_length; lia|].
      intros l id Hn. now apply node_grow.
  Qed.

  Notation Follows := (follows hgood heff hlater).
  Notation Stays := (stays (G := list ent) hlater).

  Lemma stays_and P Q : Stays P -> Stays Q -> Stays (fun r w => P r w /\ Q r w).
  Proof. intros HP HQ r w r' w' HL [? ?]. split; [eapply HP|eapply HQ]; eauto. Qed.

  Lemma stays_rec e : Stays (fun recs _ => In e recs).
  Proof. intros r w r' w' (Hr & _) Hin. auto. Qed.

  Lemma stays_vec id : Stays (fun _ w => In id (dkeys (h_vectors (fst w)))).
  Proof. intros r w r' w' (_ & Hv & _) Hin. auto. Qed.

  Lemma stays_length n : Stays (fun _ w => n < length (h_levels (fst w))).
  Proof. intros r w r' w' (_ & _ & Hl & _) Hin. lia. Qed.

  Lemma stays_node l id : Stays (fun _ w => node l id (h_levels (fst w))).
  Proof. intros r w r' w' (_ & _ & _ & Hn) Hin. auto. Qed.

  Lemma stays_forall {T} (Q : T -> list ent -> W -> Prop) : (forall i, Stays (Q i)) ->
    Stays (fun r w => forall i, Q i r w).
  Proof. intros HQ r w r' w' HL Hin i. eapply HQ; eauto. Qed.

  Lemma stays_impl (X : Prop) (Q : list ent -> W -> Prop) : Stays Q -> Stays (fun r w => X -> Q r w).
  Proof. intros HQ r w r' w' HL Hin Hx. eapply HQ; eauto. Qed.

  Lemma silent_same acts recs (w : W) : hgood recs w -> heff acts acts recs w recs w.
  Proof.
    intros (_ & _ & Hmx & _). destruct w as [[ls vs mx n i] s]. exact (HE_silent acts recs (MkHnsw ls vs mx n i) s mx n Hmx).
  Qed.

  (** A read. *)
  Lemma follows_hread {R T} (g : hnsw F -> R) (k : R -> prog W T) acts (P : list ent -> W -> Prop)
      (K : R -> list ent -> W -> Prop) Q :
    Stays P -> (forall r, Stays (K r)) ->
    (forall recs w, hgood recs w -> P recs w -> K (g (fst w)) recs w) ->
    (forall r, Follows (k r) acts (fun recs w => P recs w /\ K r recs w) Q) ->
    Follows (pbind (hread g) k) acts P Q.
  Proof.
    intros HS HK Hg Hk. cbn [pbind hread atomic]. intros w recs Hgood HP.
    unfold bind, get_ix, ret. exists acts, recs, (fun recs' w' => P recs' w' /\ K (g (fst w)) recs' w').
    split; [now apply silent_same|]. split; [now apply stays_and|]. split; [split; auto|].
    apply Hk.
  Qed.

  (** A write, after which the thread knows [K]. *)
  Lemma follows_hwrite {T} f (k : unit -> prog W T) acts acts' (P K : list ent -> W -> Prop) Q :
    Stays P -> Stays K ->
    (forall recs x s, hgood recs (x, s) -> P recs (x, s) ->
       heff acts acts' recs (x, s) recs (f x, s) /\ K recs (f x, s)) ->
    Follows (k tt) acts' (fun recs w => P recs w /\ K recs w) Q ->
    Follows (pbind (hwrite f) k) acts P Q.
  Proof.
    intros HS HK He Hk. cbn [pbind hwrite atomic]. intros [x s] recs Hg HP.
    unfold set_ix, modify. cbn [fst snd]. destruct (He recs x s Hg HP) as [He1 He2].
    exists acts', recs, (fun r w => P r w /\ K r w). split; [auto|]. split; [now apply stays_and|].
    split; [split; auto|auto]. eapply HS; [|exact HP]. eapply heff_later; [exact He1|apply incl_refl].
  Qed.

  (** The level numbered [l]. *)
  Lemma follows_hlevel {T} l (k : graph -> prog W T) acts (P : list ent -> W -> Prop) Q :
    Stays P -> (forall recs w, hgood recs w -> P recs w -> l < length (h_levels (fst w))) ->
    (forall g, NoDup (dkeys g) ->
       Follows (k g) acts (fun recs w => P recs w /\ forall id, In id (dkeys g) -> node l id (h_levels (fst w))) Q) ->
    Follows (pbind (hlevel l) k) acts P Q.
  Proof.
    intros HS Hl Hk. cbn [pbind hlevel atomic]. intros w recs Hg HP.
    unfold bind, get_ix. destruct (nth_error (h_levels (fst w)) l) as [g|] eqn:E.
    - unfold ret. exists acts, recs, (fun recs w => P recs w /\ forall id, In id (dkeys g) -> node l id (h_levels (fst w))).
      split; [now apply silent_same|]. split.
      + apply stays_and; auto. apply stays_forall. intros id. apply stays_impl, stays_node.
      + split; [split; auto; intros id Hid; now exists g|]. apply Hk.
        destruct Hg as (_ & _ & _ & HF). rewrite Forall_forall in HF. apply HF. now apply nth_error_In in E.
    - apply nth_error_None in E. specialize (Hl recs w Hg HP). lia.
  Qed.

  (** Making enough levels. *)
  Lemma follows_pad level P : Stays P -> forall rounds n, level < n + rounds -> 1 <= rounds ->
    Follows (pad_steps rounds level) [] (fun recs w => P recs w /\ n <= length (h_levels (fst w)))
      (fun recs w r => r = Ok tt /\ P recs w /\ level < length (h_levels (fst w))).
  Proof.
    intros HS. induction rounds as [|rounds IH]; intros n Hr H1; [lia|].
    cbn [pad_steps].
    apply follows_hread with (K := fun k _ w => k <= length (h_levels (fst w))).
    - apply stays_and; auto. intros r w r' w' (_ & _ & Hl & _) Hn. lia.
    - intros k r w r' w' (_ & _ & Hl & _) Hn. lia.
    - auto.
    - intros k. destruct (Nat.leb_spec k level) as [Hk|Hk].
      2:{ intros recs w Hg ((HP & Hn) & Hk'). split; auto. split; auto. split; auto. lia. }
      apply follows_hwrite with (acts' := []) (K := fun _ w => Datatypes.S n <= length (h_levels (fst w))).
      + apply stays_and; [apply stays_and; auto|]; intros r w r' w' (_ & _ & Hl & _) Hn; lia.
      + intros r w r' w' (_ & _ & Hl & _) Hn. lia.
      + intros recs x s Hg ((HP & Hn) & Hk'). split; [constructor|]. cbn [fst h_levels hset_levels].
        rewrite app_length. cbn [fst] in Hn. simpl length. lia.
      + destruct rounds as [|rounds].
        * cbn [pad_steps]. intros recs w Hg (((HP & Hn) & Hk') & Hn'). split; auto. split; auto. split; auto. lia.
        * eapply follows_weaken; [|apply (IH (Datatypes.S n)); lia].
          intros recs w Hg (((HP & _) & _) & Hn). auto.
  Qed.

  (** Adding the node at one level. *)
  Lemma follows_node id l P : Stays P ->
    (forall recs w, hgood recs w -> P recs w -> l < length (h_levels (fst w)) /\
       In id (dkeys (h_vectors (fst w))) /\ (l = 0 \/ node (l - 1) id (h_levels (fst w)))) ->
    Follows (add_node_steps id l) [HNode l id] P
      (fun recs w r => r = Ok tt /\ P recs w /\ node l id (h_levels (fst w))).
  Proof.
    intros HS HP. cbn [pbind add_node_steps hlevel atomic]. intros w recs Hg Hw.
    destruct (HP recs w Hg Hw) as (Hl & Hv & Hb). unfold bind, get_ix.
    destruct (nth_error (h_levels (fst w)) l) as [g|] eqn:E; [|apply nth_error_None in E; lia].
    unfold ret. destruct (dmem id g) eqn:Ed.
    - exists [], recs, (fun recs w => P recs w /\ node l id (h_levels (fst w))).
      assert (node l id (h_levels (fst w))) by (exists g; split; auto; now apply dmem_In).
      split; [now constructor|]. split; [apply stays_and; auto using stays_node|]. split; [auto|].
      cbn [pbind]. rewrite Ed. intros recs' w' _ [? ?]. auto.
    - exists [HNode l id], recs, P. split; [now apply silent_same|]. split; [auto|]. split; [auto|].
      cbn [pbind]. rewrite Ed. cbn [hlevel_put atomic follows]. intros [x s] recs' Hg' Hw'.
      destruct (HP recs' _ Hg' Hw') as (Hl' & Hv' & Hb'). unfold bind, get_ix, lift. cbn [fst] in *.
      destruct (nth_error (h_levels x) l) as [g'|] eqn:E'; [|apply nth_error_None in E'; lia].
      unfold set_ix, modify. cbn [fst snd].
      exists [], recs', (fun recs w => P recs w /\ node l id (h_levels (fst w))).
      assert (heff [HNode l id] [] recs' (x, s) recs' (hset_levels (set_nth l (dset id [] g') (h_levels x)) x, s)) as He
        by (now constructor).
      split; [exact He|]. split; [apply stays_and; auto using stays_node|]. split.
      + split; [eapply HS; [eapply heff_later; [exact He|apply incl_refl]|auto]|]. cbn [fst hset_levels h_levels].
        apply (node_put l g' id [] (h_levels x) l id); auto.
      + intros recs2 w2 _ [? ?]. auto.
  Qed.

  Lemma follows_nodes id n : forall a P, Stays P -> 1 <= a ->
    (forall recs w, hgood recs w -> P recs w -> a + n <= length (h_levels (fst w)) /\
       In id (dkeys (h_vectors (fst w))) /\ node (a - 1) id (h_levels (fst w))) ->
    Follows (pforM (seq a n) (add_node_steps id)) (map (fun l => HNode l id) (seq a n)) P
      (fun recs w r => r = Ok tt /\ P recs w /\ forall l, a <= l < a + n -> node l id (h_levels (fst w))).
  Proof.
    induction n as [|n IH]; intros a P HS Ha HP.
    - cbn [pforM seq map follows]. intros recs w Hg Hw. split; auto. split; auto. split; auto. intros l Hl. lia.
    - cbn [pforM seq map]. change (HNode a id :: ?l) with ([HNode a id] ++ l).
      eapply follows_bind; [apply heff_app| | |].
      + apply follows_node; [exact HS|]. intros recs w Hg Hw. destruct (HP recs w Hg Hw) as (? & ? & ?). split; [lia|auto].
      + intros []. eapply follows_weaken with (P := fun recs w => P recs w /\ node a id (h_levels (fst w))).
        { intros recs w _ (_ & ? & ?). auto. }
        assert (HS' : Stays (fun recs w => P recs w /\ node a id (h_levels (fst w))))
          by (apply stays_and; auto using stays_node).
        assert (HP' : forall recs w, hgood recs w -> P recs w /\ node a id (h_levels (fst w)) ->
                  Datatypes.S a + n <= length (h_levels (fst w)) /\
                  In id (dkeys (h_vectors (fst w))) /\ node (Datatypes.S a - 1) id (h_levels (fst w))).
        { intros recs w Hg [Hw Hn]. destruct (HP recs w Hg Hw) as (? & ? & ?). split; [lia|]. split; auto.
          replace (Datatypes.S a - 1) with a by lia. auto. }
        specialize (IH (Datatypes.S a) _ HS' ltac:(lia) HP').
        eapply follows_post; [|exact IH]. intros recs w r (-> & (Hw & Hn) & Hall). split; auto. split; auto.
        intros l Hl. destruct (Nat.eq_dec l a) as [->|]; auto. apply Hall. lia.
      + intros recs w e (E & _). discriminate.
  Qed.

  (** The two halves of a link. *)
  Lemma follows_first {T} l a b' (k : unit -> prog W T) acts P Q : Stays P -> a <> b' ->
    (forall recs w, P recs w -> node l a (h_levels (fst w)) /\ node l b' (h_levels (fst w))) ->
    Follows (k tt) (HHalf l b' a :: acts) P Q ->
    Follows (pbind (half_link_steps l a b') k) acts P Q.
  Proof.
    intros HS Hne HP Hk. cbn [pbind half_link_steps atomic]. intros w recs Hg Hw.
    destruct (HP recs w Hw) as [Ha Hb]. apply node_get in Ha as (g & la & E & Ea).
    unfold bind, get_ix. rewrite E, Ea. unfold ret. cbn [pbind]. destruct (memb b' la) eqn:Em.
    - exists (HHalf l b' a :: acts), recs, P. split; [constructor; exists g, la; rewrite <- memb_In; auto|]. auto.
    - exists acts, recs, P. split; [now apply silent_same|]. split; [auto|]. split; [auto|].
      cbn [hlevel_put atomic pbind]. intros [x s] recs' Hg' Hw'.
      destruct (HP recs' _ Hw') as [Ha' Hb']. apply node_get in Ha' as (g' & la' & E' & Ea').
      unfold bind, get_ix, lift. cbn [fst] in *. rewrite E', Ea'. unfold set_ix, modify. cbn [fst snd].
      assert (heff acts (HHalf l b' a :: acts) recs' (x, s) recs'
                (hset_levels (set_nth l (dset a (la' ++ [b']) g') (h_levels x)) x, s)) as He
        by (now econstructor).
      exists (HHalf l b' a :: acts), recs', P. split; [exact He|]. split; [auto|].
      split; [eapply HS; [eapply heff_later; [exact He|apply incl_refl]|auto]|]. exact Hk.
  Qed.

  Lemma follows_second l a b' P : Stays P -> a <> b' ->
    (forall recs w, P recs w -> node l a (h_levels (fst w)) /\ node l b' (h_levels (fst w))) ->
    Follows (half_link_steps l a b') [HHalf l a b'] P (fun recs w r => r = Ok tt /\ P recs w).
  Proof.
    intros HS Hne HP. cbn [pbind half_link_steps atomic]. intros w recs Hg Hw.
    destruct (HP recs w Hw) as [Ha Hb]. apply node_get in Ha as (g & la & E & Ea).
    unfold bind, get_ix. rewrite E, Ea. unfold ret. cbn [pbind]. destruct (memb b' la) eqn:Em.
    - exists [], recs, P. split; [constructor; exists g, la; rewrite <- memb_In; auto|].
      split; [auto|]. split; [auto|]. cbn [follows]. auto.
    - exists [HHalf l a b'], recs, P. split; [now apply silent_same|]. split; [auto|]. split; [auto|].
      cbn [hlevel_put atomic follows]. intros [x s] recs' Hg' Hw'.
      destruct (HP recs' _ Hw') as [Ha' Hb']. apply node_get in Ha' as (g' & la' & E' & Ea').
      unfold bind, get_ix, lift. cbn [fst] in *. rewrite E', Ea'. unfold set_ix, modify. cbn [fst snd].
      assert (heff [HHalf l a b'] [] recs' (x, s) recs'
                (hset_levels (set_nth l (dset a (la' ++ [b']) g') (h_levels x)) x, s)) as He
        by (now econstructor).
      exists [], recs', P. split; [exact He|]. split; [auto|].
      split; [eapply HS; [eapply heff_later; [exact He|apply incl_refl]|auto]|]. cbn [follows]. auto.
  Qed.

  Lemma follows_link id l nb P : Stays P ->
    (forall recs w, P recs w -> node l nb (h_levels (fst w)) /\ node l id (h_levels (fst w))) ->
    Follows (link_steps id l nb) [] P (fun recs w r => r = Ok tt /\ P recs w).
  Proof.
    intros HS HP. unfold link_steps. destruct (eqb_spec nb id) as [|Hne]; [cbn [follows]; auto|].
    apply follows_first; auto. apply follows_second; auto. intros recs w Hw. destruct (HP recs w Hw). auto.
  Qed.

  Lemma follows_forM {T} (l : list T) (f : T -> prog W unit) P :
    (forall a, In a l -> Follows (f a) [] P (fun recs w r => r = Ok tt /\ P recs w)) ->
    Follows (pforM l f) [] P (fun recs w r => r = Ok tt /\ P recs w).
  Proof.
    induction l as [|a l IH]; intros Hf; [cbn [pforM follows]; auto|]. cbn [pforM].
    change (@nil hact) with (@nil hact ++ []). eapply follows_bind; [apply heff_app|apply Hf; now left| |].
    - intros []. eapply follows_weaken; [|apply IH; intros a' Ha; apply Hf; now right].
      intros recs w _ (_ & Hw). exact Hw.
    - intros recs w e (E & _). discriminate.
  Qed.

  Lemma follows_connect id rnd i l P : sample_ok rnd -> Stays P ->
    (forall recs w, P recs w -> node l id (h_levels (fst w))) ->
    Follows (connect_level_steps m id (r_sample rnd i l) l) [] P (fun recs w r => r = Ok tt /\ P recs w).
  Proof.
    intros Hs HS HP. unfold connect_level_steps. apply follows_hlevel; [auto| |].
    - intros recs w _ Hw. destruct (HP recs w Hw) as (g & E & _). apply nth_error_Some. congruence.
    - intros g Hnd. cbv zeta.
      set (P' := fun recs (w : W) => P recs w /\ forall j, In j (dkeys g) -> node l j (h_levels (fst w))).
      assert (HS' : Stays P').
      { apply stays_and; auto. apply stays_forall. intros j. apply stays_impl, stays_node. }
      destruct (length (dkeys g) =? 0) eqn:E0; [cbn [follows]; intros recs w _ [? ?]; auto|].
      destruct (Z.ltb_spec (Z.min m (Z.of_nat (length (dkeys g)))) 0) as [|Hz]; [lia|].
      destruct (Hs i l (dkeys g) (Z.to_nat (Z.min m (Z.of_nat (length (dkeys g)))))) as (_ & Hincl & _); [auto|lia|].
      eapply follows_post; [|apply (follows_forM _ _ P')].
      + intros recs w r (-> & Hw & _). auto.
      + intros nb Hnb. apply follows_link; [auto|]. intros recs w [Hw Hn]. split; eauto.
  Qed.

  (** Putting a vector in the graph. *)
  Definition add_acts (level : nat) (e : ent) : list hact :=
    HVec e :: map (fun l => HNode l (fst e)) (seq 0 (1 + level)).

  Definition drawn (rnd : hnsw_rand) (i : nat) : nat := draw_level (r_coin rnd i) 0 10.

  Lemma follows_add rnd i id v mm P : sample_ok rnd -> Stays P ->
    (forall recs w, P recs w -> In (id, (v, mm)) recs) ->
    Follows (hnsw_add_steps m rnd i id v) (add_acts (drawn rnd i) (id, (v, mm))) P
      (fun recs w r => r = Ok tt /\ P recs w).
  Proof.
    intros Hs HS HP. unfold hnsw_add_steps, add_acts, drawn. set (level := draw_level (r_coin rnd i) 0 10).
    apply follows_hwrite with (acts' := map (fun l => HNode l id) (seq 0 (1 + level)))
      (K := fun _ w => In id (dkeys (h_vectors (fst w)))); [auto|apply stays_vec| |].
    { intros recs x s Hg Hw. split; [exact (HE_vec (id, (v, mm)) _ recs x s (HP recs _ Hw))|].
      simpl. apply In_dkeys_dset. auto. }
    set (P1 := fun recs (w : W) => P recs w /\ In id (dkeys (h_vectors (fst w)))).
    assert (HS1 : Stays P1) by (apply stays_and; auto using stays_vec).
    unfold hrecount_steps.
    change (map (fun l => HNode l id) (seq 0 (1 + level))) with ([] ++ map (fun l => HNode l id) (seq 0 (1 + level))).
    eapply follows_bind with (Q1 := fun recs w r => r = Ok tt /\ P1 recs w); [apply heff_app| | |].
    { apply follows_hread with (K := fun _ _ _ => True); [auto|intros r ? ? ? ? _ _; exact I|auto|].
      intros n. cbn [hwrite atomic]. intros [x s] recs Hg [Hw _]. unfold set_ix, modify. cbn [fst snd].
      assert (heff [] [] recs (x, s) recs (hput_count n x, s)) as He by (constructor; apply Hg).
      exists [], recs, P1. split; [exact He|]. split; [auto|].
      split; [eapply HS1; [eapply heff_later; [exact He|apply incl_refl]|auto]|]. cbn [follows]. auto. }
    2:{ intros recs w e (E & _). discriminate. }
    intros []. cbv zeta.
    eapply follows_weaken with (P := P1); [intros recs w _ (_ & Hw); exact Hw|].
    change (map (fun l => HNode l id) (seq 0 (1 + level))) with ([] ++ map (fun l => HNode l id) (seq 0 (1 + level))).
    eapply follows_bind; [apply heff_app| | |].
    { eapply follows_weaken; [|apply (follows_pad level P1 HS1 (2 + level) 0); lia].
      intros recs w _ Hw. split; [auto|lia]. }
    2:{ intros recs w e (E & _). discriminate. }
    intros [].
    set (P2 := fun recs (w : W) => P1 recs w /\ level < length (h_levels (fst w))).
    assert (HS2 : Stays P2) by (apply stays_and; auto using stays_length).
    eapply follows_weaken with (P := P2); [intros recs w _ (_ & Hw); exact Hw|].
    change (map (fun l => HNode l id) (seq 0 (1 + level))) with ([HNode 0 id] ++ map (fun l => HNode l id) (seq 1 level)).
    eapply follows_bind; [apply heff_app| | |].
    { apply (follows_node id 0 P2 HS2). intros recs w _ ((_ & Hv) & Hl). split; [lia|auto]. }
    2:{ intros recs w e (E & _). discriminate. }
    intros [].
    set (P3 := fun recs (w : W) => P2 recs w /\ node 0 id (h_levels (fst w))).
    assert (HS3 : Stays P3) by (apply stays_and; auto using stays_node).
    eapply follows_weaken with (P := P3); [intros recs w _ (_ & Hw); exact Hw|].
    apply follows_hread with (K := fun n _ _ => level < n); [auto|intros r ? ? ? ? _ Hn; exact Hn| |].
    { intros recs w _ ((_ & Hl) & _). exact Hl. }
    intros n.
    destruct (Nat.lt_ge_cases level n) as [Hn|Hn].
    2:{ apply follows_absurd. intros recs w [_ Hn']. lia. }
    eapply follows_weaken with (P := P3); [intros recs w _ (Hw & _); exact Hw|].
    replace (Nat.min (1 + level) n - 1) with level by lia.
    rewrite <- (app_nil_r (map (fun l => HNode l id) (seq 1 level))).
    eapply follows_bind; [apply heff_app| | |].
    { apply (follows_nodes id level 1 P3 HS3); [lia|]. intros recs w _ (((_ & Hv) & Hl) & H0').
      split; [lia|auto]. }
    2:{ intros recs w e (E & _). discriminate. }
    intros [].
    set (P4 := fun recs (w : W) => P2 recs w /\ forall l, l <= level -> node l id (h_levels (fst w))).
    assert (HS4 : Stays P4).
    { apply stays_and; auto. apply stays_forall. intros l. apply stays_impl, stays_node. }
    eapply follows_weaken with (P := P4).
    { intros recs w _ (_ & (Hw & H0') & Hall). split; [exact Hw|]. intros l Hl.
      destruct l as [|l]; [exact H0'|]. apply Hall. lia. }
    apply follows_hread with (K := fun top _ w => top < length (h_levels (fst w))); [auto|intros top; apply stays_length| |].
    { intros recs w (_ & _ & Hmx & _) _. exact Hmx. }
    intros top.
    apply follows_hwrite with (acts' := []) (K := fun _ _ => True).
    { apply stays_and; auto using stays_length. }
    { intros ? ? ? ? _ _. exact I. }
    { intros recs x s Hg (((_ & Hl) & _) & Ht). split; [|exact I]. cbn [fst] in *. apply HE_silent. lia. }
    eapply follows_weaken with (P := P4); [intros recs w _ ((Hw & _) & _); exact Hw|].
    apply follows_hread with (K := fun _ _ _ => True); [auto|intros r ? ? ? ? _ _; exact I|auto|].
    intros n'. eapply follows_weaken with (P := P4); [intros recs w _ (Hw & _); exact Hw|].
    eapply follows_post; [|apply (follows_forM _ _ P4)].
    - intros recs w r (-> & ((Hw & _) & _) & _). auto.
    - intros l Hl. apply in_seq in Hl. apply follows_connect; auto. intros recs w (_ & Hall). apply Hall. lia.
  Qed.

  (** The writes of a list of rows, the first of which is row [i]. *)
  Fixpoint rows_acts (rnd : hnsw_rand) (i : nat) (es : list ent) : list hact :=
    match es with
    | [] => []
    | e :: es' => HStore e :: add_acts (drawn rnd i) e ++ rows_acts rnd (1 + i) es'
    end.

  Lemma follows_hrows rnd fresh meta rows : sample_ok rnd -> forall i,
    (forall j, i <= j < i + length rows -> uuid_like (fresh j)) ->
    (forall l m, meta = Some l -> In m l -> meta_ok m) ->
    Follows (hnsw_rows_steps C m rnd fresh meta i rows) (rows_acts rnd i (batch_from fresh i rows meta))
      (fun _ _ => True) (fun g w r => r = Ok (map fresh (seq i (length rows)))).
  Proof.
    intros Hs. induction rows as [|row rows IH]; intros i Hu Hmm.
    - simpl. auto.
    - cbn [hnsw_rows_steps]. cbv zeta.
      change (batch_from fresh i (row :: rows) meta)
        with ((fresh i, (row, meta_of meta i)) :: batch_from fresh (Datatypes.S i) rows meta).
      cbn [rows_acts]. rewrite row_meta_of. set (e := (fresh i, (row, meta_of meta i))).
      assert (uuid_like (fresh i)) as Hui by (apply Hu; simpl; lia).
      pose proof (meta_of_ok (V := list F) meta i Hmm) as Hmi.
      cbn [pbind atomic]. intros w recs Hg _.
      destruct (so_store C p b sz A HC recs (snd w) (fresh i) row (meta_of meta i) (proj1 Hg) Hui Hmi)
        as (s1 & E & A1).
      unfold on_sb, zoom. rewrite E. destruct w as [x s]. cbn [fst snd] in *.
      eexists _, (sp_put (fresh i) (row, meta_of meta i) recs), (fun recs _ => In e recs).
      split; [exact (HE_store e _ recs x s s1 A1)|]. split; [apply stays_rec|]. split.
      { apply sp_find_In; [exact (so_nd C p b sz A HC _ _ A1)|]. apply find_put_same. }
      cbn [pbind]. eapply follows_bind; [apply heff_app| | |].
      + apply (follows_add rnd i (fresh i) row (meta_of meta i) (fun recs _ => In e recs) Hs (stays_rec e)). auto.
      + intros []. cbn [pbind]. rewrite <- (app_nil_r (rows_acts _ _ _)).
        eapply follows_bind; [apply heff_app| | |].
        * eapply follows_weaken; [|apply (IH (Datatypes.S i)); [|exact Hmm]].
          -- intros g w _ _. exact I.
          -- intros j Hj. apply Hu. simpl. lia.
        * intros r g2 w2 _ Hr. split; auto. injection Hr as ->. reflexivity.
        * intros g2 w2 e' Hr. discriminate.
      + intros g2 w2 e' (Hr & _). discriminate.
  Qed.

  Lemma follows_hinsert rnd fresh rows meta : sample_ok rnd ->
    (forall j, j < length rows -> uuid_like (fresh j)) ->
    (forall l m, meta = Some l -> In m l -> meta_ok m) ->
    Follows (hnsw_insert_steps C m rnd fresh rows meta) (rows_acts rnd 0 (batch_from fresh 0 rows meta))
      (fun _ _ => True) (fun g w r => r = Ok (map fresh (seq 0 (length rows)))).
  Proof.
    intros Hs Hu Hmm. unfold hnsw_insert_steps.
    apply follows_hread with (K := fun o _ _ => o = true); [apply stays_True|intros r ? ? ? ? _ Hr; exact Hr| |].
    { intros recs w Hg _. apply Hg. }
    intros o. destruct o; cbn [negb].
    - eapply follows_wrap; [| |eapply follows_weaken; [|apply follows_hrows; auto]].
      + intros g w r Hr. exact Hr.
      + intros g w e He. discriminate.
      + intros g w _ _. exact I.
      + intros j Hj. apply Hu. lia.
    - apply follows_absurd. intros g w [_ Hf]. discriminate.
  Qed.

  (** ** All threads together *)

  (** What a thread does once only: it stores a record, it adds a node at a level. *)
  Definition skey (a : hact) : list (nat * pystr) :=
    match a with
    | HStore e => [(0, fst e)]
    | HNode l id => [(Datatypes.S l, id)]
    | _ => []
    end.
  Definition skeys (acts : list hact) : list (nat * pystr) := flat_map skey acts.

  (** The vector comes after the record, the node after the vector. *)
  Fixpoint ordered (acts : list hact) : Prop :=
    match acts with
    | [] => True
    | HStore e :: r => In (HVec e) r /\ ordered r
    | HVec e :: r => In (HNode 0 (fst e)) r /\ ordered r
    | _ :: r => ordered r
    end.

  Lemma ordered_tail a r : ordered (a :: r) -> ordered r.
  Proof. destruct a; simpl; tauto. Qed.

  Definition pend (a : hact) (todo : nat -> list hact) : Prop := exists t, In a (todo t).

  (** What a step can do to the list of writes. *)
  Definition shrink (acts acts' : list hact) : Prop :=
    acts' = acts \/ (exists h, acts = h :: acts') \/ (exists l a b, acts' = HHalf l a b :: acts).

  Lemma shrink_skeys acts acts' : shrink acts acts' -> exists pre, skeys acts = pre ++ skeys acts'.
  Proof.
    intros [->|[(h & ->)|(l & a & b' & ->)]]; [now exists []|now exists (skey h)|now exists []].
  Qed.

  Lemma shrink_ordered acts acts' : shrink acts acts' -> ordered acts -> ordered acts'.
  Proof. intros [->|[(h & ->)|(l & a & b' & ->)]] Ho; auto. now apply ordered_tail in Ho. Qed.

  Lemma shrink_in acts acts' a : shrink acts acts' -> In a acts' -> In a acts \/ exists l x y, a = HHalf l x y.
  Proof.
    intros [->|[(h & ->)|(l & x & y & ->)]] Hin; auto.
    - left. now right.
    - destruct Hin as [<-|Hin]; eauto.
  Qed.

  Context (own : pystr -> nat) (total : list ent) (Htotal : NoDup (map fst total)).

  Record hinv recs (w : W) (todo : nat -> list hact) : Prop := {
    hi_good : hgood recs w;
    hi_keys : NoDup (dkeys (h_vectors (fst w)));
    hi_vecs : forall id v, dget id (h_vectors (fst w)) = Some v -> exists mm, In (id, (v, mm)) recs;
    hi_zero : forall id, node 0 id (h_levels (fst w)) -> In id (dkeys (h_vectors (fst w)));
    hi_nest : forall l id, node (Datatypes.S l) id (h_levels (fst w)) -> node l id (h_levels (fst w));
    hi_link : forall l a b, linked l a b (h_levels (fst w)) -> node l b (h_levels (fst w)) /\ a <> b;
    hi_sym : forall l a b, linked l a b (h_levels (fst w)) ->
      linked l b a (h_levels (fst w)) \/ pend (HHalf l b a) todo;
    hi_half : forall t l a b, In (HHalf l a b) (todo t) -> linked l b a (h_levels (fst w));
    hi_sub : incl recs total;
    hi_total : forall e, In e total -> In e recs \/ pend (HStore e) todo;
    hi_vec : forall e, In e recs -> In (fst e) (dkeys (h_vectors (fst w))) \/ pend (HVec e) todo;
    hi_node : forall id, In id (dkeys (h_vectors (fst w))) ->
      node 0 id (h_levels (fst w)) \/ pend (HNode 0 id) todo;
    hi_store : forall t e, In (HStore e) (todo t) -> In e total /\ ~ In (fst e) (map fst recs);
    hi_new : forall t l id, In (HNode l id) (todo t) -> ~ node l id (h_levels (fst w));
    hi_own : forall t k id, In (k, id) (skeys (todo t)) -> own id = t;
    hi_once : forall t, NoDup (skeys (todo t));
    hi_order : forall t, ordered (todo t)
  }.

  Lemma in_skeys a k id (todo : nat -> list hact) t : In a (todo t) -> In (k, id) (skey a) -> In (k, id) (skeys (todo t)).
  Proof. intros Ha Hk. apply in_flat_map. eauto. Qed.

  (** Nobody else, and not the thread itself again. *)
  Lemma once recs w todo t h acts' k id : hinv recs w todo -> todo t = h :: acts' -> In (k, id) (skey h) ->
    forall u a, In a (upd todo t acts' u) -> ~ In (k, id) (skey a).
  Proof.
    intros I E Hk u a Ha Hka. unfold upd in Ha. destruct (Nat.eqb_spec u t) as [->|Hne].
    - pose proof (hi_once _ _ _ I t) as Hnd. rewrite E in Hnd. cbn [skeys flat_map] in Hnd.
      apply (NoDup_apart _ _ (k, id) Hnd); auto. apply in_flat_map. eauto.
    - apply Hne. rewrite <- (hi_own _ _ _ I u k id (in_skeys a k id todo u Ha Hka)).
      apply (hi_own _ _ _ I t k id). apply (in_skeys h); auto. rewrite E. now left.
  Qed.

  Lemma hinv_step recs w todo t acts' recs' w' :
    hinv recs w todo -> heff (todo t) acts' recs w recs' w' ->
    hinv recs' w' (upd todo t acts') /\ hlater recs w recs' w'.
  Proof.
    intros I He.
    assert (Hsh : shrink (todo t) acts').
    { destruct He; unfold shrink; eauto 6. }
    assert (Hown : forall u k id, In (k, id) (skeys (upd todo t acts' u)) -> own id = u).
    { intros u k id Hin. unfold upd in Hin. destruct (Nat.eqb_spec u t) as [->|]; [|now apply (hi_own _ _ _ I u k)].
      apply (hi_own _ _ _ I t k). destruct (shrink_skeys _ _ Hsh) as (pre & ->). apply in_or_app. auto. }
    assert (Honce : forall u, NoDup (skeys (upd todo t acts' u))).
    { intros u. unfold upd. destruct (Nat.eqb_spec u t) as [->|]; [|apply (hi_once _ _ _ I u)].
      pose proof (hi_once _ _ _ I t) as Hnd. destruct (shrink_skeys _ _ Hsh) as (pre & Ep). rewrite Ep in Hnd.
      now apply NoDup_app_r in Hnd. }
    assert (Hord : forall u, ordered (upd todo t acts' u)).
    { intros u. unfold upd. destruct (Nat.eqb_spec u t) as [->|]; [|apply (hi_order _ _ _ I u)].
      apply (shrink_ordered _ _ Hsh), (hi_order _ _ _ I t). }
    assert (Hin : forall u a, (forall l x y, a <> HHalf l x y) -> In a (upd todo t acts' u) -> In a (todo u)).
    { intros u a Hna Ha. unfold upd in Ha. destruct (Nat.eqb_spec u t) as [->|]; [|exact Ha].
      destruct (shrink_in _ _ a Hsh Ha) as [|(l & x & y & ->)]; auto. exfalso. eapply Hna; eauto. }
    assert (Hpend : forall a, pend a todo -> pend a (upd todo t acts') \/ todo t = a :: acts').
    { intros a [u Hu]. destruct (Nat.eq_dec u t) as [->|Hne].
      - destruct Hsh as [E|[(h & E)|(l & x & y & E)]].
        + left. exists t. rewrite upd_same. congruence.
        + rewrite E in Hu. destruct Hu as [->|Hu]; [auto|]. left. exists t. now rewrite upd_same.
        + left. exists t. rewrite upd_same, E. now right.
      - left. exists u. now rewrite upd_other. }
    assert (Hpush : forall a r, acts' = a :: r -> pend a (upd todo t acts')).
    { intros a r ->. exists t. rewrite upd_same. now left. }
    assert (Hsub : (forall a, In a acts' -> In a (todo t)) -> forall u a, In a (upd todo t acts' u) -> In a (todo u)).
    { intros Hs u a Ha. unfold upd in Ha. destruct (Nat.eqb_spec u t) as [->|]; auto. }
    assert (Hlat : incl recs recs' -> hlater recs w recs' w') by (apply (heff_later _ _ _ _ _ _ He)).
    remember (todo t) as acts0 eqn:Et. symmetry in Et.
    revert I Et Hin Hpend Hpush Hsub Hlat Hsh. destruct He as
      [acts recs x s mx n Hmx|e acts recs x s s' HA|e acts recs x s He|acts recs x s
      |l id g acts recs x s El Hv Hb|l id acts recs w Hn|l a b' acts recs w Hback
      |l a b' g la acts recs x s El Ea Hb Hne|l a b' g la acts recs x s El Ea Hb Hne|l a b' acts recs w Hl];
      intros I Et Hin Hpend Hpush Hsub Hlat _.
    - (* silent *)
      split; [|apply Hlat, incl_refl].
      assert (Hp : forall a, pend a todo -> pend a (upd todo t acts)).
      { intros a Ha. destruct (Hpend a Ha) as [|E]; auto. exfalso. apply (f_equal (@length _)) in E. simpl in E. lia. }
      destruct I. constructor; cbn [fst snd h_vectors h_levels] in *; auto.
      + destruct hi_good0 as (? & ? & ? & ?). split; [|split; [|split]]; auto.
      + intros l a b' Hl. destruct (hi_sym0 l a b' Hl); auto.
      + intros u l0 a0 b0 Hu. apply (hi_half0 u). apply Hsub; [|exact Hu]. auto.
      + intros e He. destruct (hi_total0 e He); auto.
      + intros e He. destruct (hi_vec0 e He); auto.
      + intros id Hid. destruct (hi_node0 id Hid); auto.
      + intros u e Hu. apply (hi_store0 u). apply Hin; auto. discriminate.
      + intros u l id Hu. apply (hi_new0 u). apply Hin; auto. discriminate.
    - (* store *)
      assert (Hst : In (HStore e) (todo t)) by (rewrite Et; now left).
      destruct (hi_store _ _ _ I t e Hst) as [Het Hnew].
      pose proof (once recs (x, s) todo t (HStore e) acts 0 (fst e) I Et (or_introl eq_refl)) as Ho.
      rewrite (sp_put_fresh (fst e) (snd e) recs Hnew) in *. replace (fst e, snd e) with e in * by now destruct e.
      split; [|apply Hlat; intros a Ha; apply in_or_app; auto].
      assert (Hv : pend (HVec e) (upd todo t acts)).
      { exists t. rewrite upd_same. pose proof (hi_order _ _ _ I t) as Hor. rewrite Et in Hor. apply Hor. }
      destruct I. constructor; cbn [fst snd] in *; auto.
      + destruct hi_good0 as (? & ? & ? & ?). split; [|split; [|split]]; auto.
      + intros id v Hg. destruct (hi_vecs0 id v Hg) as [mm Hm']. exists mm. apply in_or_app. auto.
      + intros l a b' Hl. destruct (hi_sym0 l a b' Hl) as [|Hp]; auto. destruct (Hpend _ Hp) as [|E]; auto. congruence.
      + intros u l0 a0 b0 Hu. apply (hi_half0 u). apply Hsub; [|exact Hu]. intros; now right.
      + intros a Ha. apply in_app_or in Ha as [Ha|[<-|[]]]; auto.
      + intros e' He'. destruct (hi_total0 e' He') as [|Hp]; [left; apply in_or_app; auto|].
        destruct (Hpend _ Hp) as [|E]; auto. injection E as ->. left. apply in_or_app. right. now left.
      + intros e' He'. apply in_app_or in He' as [He'|[<-|[]]]; auto.
        destruct (hi_vec0 e' He') as [|Hp]; auto. destruct (Hpend _ Hp) as [|E]; auto. congruence.
      + intros id Hid. destruct (hi_node0 id Hid) as [|Hp]; auto. destruct (Hpend _ Hp) as [|E]; auto. congruence.
      + intros u e' Hu. assert (Hu' : In (HStore e') (todo u)) by (apply Hin; auto; discriminate).
        destruct (hi_store0 u e' Hu') as [H1 H2]. split; auto. rewrite map_app. intros Hc.
        apply in_app_or in Hc as [|[Ec|[]]]; auto. apply (Ho u (HStore e') Hu). left. now rewrite Ec.
      + intros u l id Hu. apply (hi_new0 u). apply Hin; auto. discriminate.
    - (* vector *)
      split; [|apply Hlat, incl_refl].
      assert (Hn : pend (HNode 0 (fst e)) (upd todo t acts)).
      { exists t. rewrite upd_same. pose proof (hi_order _ _ _ I t) as Hor. rewrite Et in Hor. apply Hor. }
      destruct I. constructor; cbn [fst snd h_vectors h_levels hset_vectors] in *; auto.
      + intros id v Hg. rewrite dget_dset in Hg. destruct (eqb_spec id (fst e)) as [->|]; [|auto].
        injection Hg as <-. exists (snd (snd e)). destruct e as [k [v' m']]. exact He.
      + intros id Hid. apply In_dkeys_dset. auto.
      + intros l a b' Hl. destruct (hi_sym0 l a b' Hl) as [|Hp]; auto. destruct (Hpend _ Hp) as [|E]; auto. congruence.
      + intros u l0 a0 b0 Hu. apply (hi_half0 u). apply Hsub; [|exact Hu]. intros; now right.
      + intros e' He'. destruct (hi_total0 e' He') as [|Hp]; auto. destruct (Hpend _ Hp) as [|E]; auto. congruence.
      + intros e' He'. destruct (hi_vec0 e' He') as [Hk|Hp]; [left; apply In_dkeys_dset; auto|].
        destruct (Hpend _ Hp) as [|E]; auto. injection E as ->. left. apply In_dkeys_dset. auto.
      + intros id Hid. apply In_dkeys_dset in Hid as [->|Hid]; auto.
        destruct (hi_node0 id Hid) as [|Hp]; auto. destruct (Hpend _ Hp) as [|E]; auto. congruence.
      + intros u e' Hu. apply (hi_store0 u). apply Hin; auto. discriminate.
      + intros u l id Hu. apply (hi_new0 u). apply Hin; auto. discriminate.
    - (* a new level *)
      split; [|apply Hlat, incl_refl].
      assert (Hp : forall a, pend a todo -> pend a (upd todo t acts)).
      { intros a Ha. destruct (Hpend a Ha) as [|E]; auto. exfalso. apply (f_equal (@length _)) in E. simpl in E. lia. }
      destruct I. constructor; cbn [fst snd h_vectors h_levels hset_levels] in *; auto.
      + destruct hi_good0 as (? & ? & ? & ?). split; [|split; [|split]]; auto; cbn [fst h_levels h_max hset_levels] in *.
        * rewrite app_length. lia.
        * apply Forall_app. split; auto. repeat constructor.
      + intros id Hid. apply hi_zero0. now apply (proj1 (node_grow _ _ _)) in Hid.
      + intros l id Hid. apply (proj2 (node_grow _ _ _)). apply hi_nest0. now apply (proj1 (node_grow _ _ _)) in Hid.
      + intros l a b' Hl. apply (proj1 (linked_grow _ _ _ _)) in Hl. rewrite node_grow. auto.
      + intros l a b' Hl. apply (proj1 (linked_grow _ _ _ _)) in Hl. rewrite linked_grow. destruct (hi_sym0 l a b' Hl); auto.
      + intros u l0 a0 b0 Hu. apply (proj2 (linked_grow _ _ _ _)). apply (hi_half0 u). apply Hsub; [|exact Hu]. auto.
      + intros e He. destruct (hi_total0 e He); auto.
      + intros e He. destruct (hi_vec0 e He); auto.
      + intros id Hid. rewrite node_grow. destruct (hi_node0 id Hid); auto.
      + intros u e Hu. apply (hi_store0 u). apply Hin; auto. discriminate.
      + intros u l id Hu. rewrite node_grow. apply (hi_new0 u). apply Hin; auto. discriminate.
    - (* a node *)
      split; [|apply Hlat, incl_refl].
      pose proof (once recs (x, s) todo t (HNode l id) acts (Datatypes.S l) id I Et (or_introl eq_refl)) as Ho.
      assert (Hnew : ~ node l id (h_levels x)).
      { apply (hi_new _ _ _ I t). rewrite Et. now left. }
      assert (Hlk : forall l' a b', linked l' a b' (set_nth l (dset id [] g) (h_levels x)) <-> linked l' a b' (h_levels x)).
      { intros l' a b'. rewrite (linked_put l g id [] (h_levels x) l' a b' El). split.
        - intros [(_ & _ & [])|[_ Hl]]. exact Hl.
        - intros Hl. right. split; auto. destruct (Nat.eq_dec l' l) as [->|]; auto. right. intros ->.
          apply Hnew. eapply linked_node; eauto. }
      assert (Hnd : forall l' id', node l' id' (set_nth l (dset id [] g) (h_levels x)) <-> node l' id' (h_levels x) \/ l' = l /\ id' = id)
        by (intros l' id'; apply node_put; auto).
      destruct I. constructor; cbn [fst snd h_vectors h_levels hset_levels] in *; auto.
      + destruct hi_good0 as (? & ? & ? & ?). split; [|split; [|split]]; auto; cbn [fst h_levels h_max hset_levels] in *.
        * now rewrite set_nth_length.
        * now apply nodup_put.
      + intros id' Hid. apply Hnd in Hid as [|[_ ->]]; auto.
      + intros l' id' Hid. apply Hnd. apply Hnd in Hid as [|[<- ->]]; auto. left.
        destruct Hb as [|Hb]; [discriminate|]. now replace (Datatypes.S l' - 1) with l' in Hb by lia.
      + intros l' a b' Hl. apply Hlk in Hl. rewrite Hnd. destruct (hi_link0 l' a b' Hl). auto.
      + intros l' a b' Hl. apply Hlk in Hl. rewrite Hlk. destruct (hi_sym0 l' a b' Hl) as [|Hp]; auto.
        destruct (Hpend _ Hp) as [|E]; auto. congruence.
      + intros u l0 a0 b0 Hu. apply Hlk. apply (hi_half0 u). apply Hsub; [|exact Hu]. intros; now right.
      + intros e' He'. destruct (hi_total0 e' He') as [|Hp]; auto. destruct (Hpend _ Hp) as [|E]; auto. congruence.
      + intros e' He'. destruct (hi_vec0 e' He') as [|Hp]; auto. destruct (Hpend _ Hp) as [|E]; auto. congruence.
      + intros id' Hid. rewrite Hnd. destruct (hi_node0 id' Hid) as [|Hp]; auto.
        destruct (Hpend _ Hp) as [|E]; auto. injection E as -> ->. auto.
      + intros u e' Hu. apply (hi_store0 u). apply Hin; auto. discriminate.
      + intros u l' id' Hu. rewrite Hnd. assert (Hu' : In (HNode l' id') (todo u)) by (apply Hin; auto; discriminate).
        intros [Hc|[-> ->]]; [now apply (hi_new0 u l' id')|]. apply (Ho u _ Hu). now left.
    - (* a node that is there: not possible *)
      exfalso. apply (hi_new _ _ _ I t l id); [rewrite Et; now left|exact Hn].
    - (* a promise *)
      split; [|apply Hlat, incl_refl].
      assert (Hp : forall z, pend z todo -> pend z (upd todo t (HHalf l a b' :: acts))).
      { intros z Hz. destruct (Hpend z Hz) as [|E]; auto. exfalso. apply (f_equal (@length _)) in E. simpl in E. lia. }
      destruct I. constructor; auto.
      + intros l' a' b2 Hl. destruct (hi_sym0 l' a' b2 Hl) as [|Hx]; auto.
      + intros u l0 a0 b0 Hu. unfold upd in Hu. destruct (Nat.eqb_spec u t) as [->|]; [|now apply (hi_half0 u)].
        destruct Hu as [E|Hu]; [injection E as <- <- <-; exact Hback|]. apply (hi_half0 t). now rewrite Et.
      + intros e' He'. destruct (hi_total0 e' He') as [|Hx]; auto.
      + intros e' He'. destruct (hi_vec0 e' He') as [|Hx]; auto.
      + intros id' Hid. destruct (hi_node0 id' Hid) as [|Hx]; auto.
      + intros u e' Hu. apply (hi_store0 u). apply Hin; auto. discriminate.
      + intros u l' id' Hu. apply (hi_new0 u). apply Hin; auto. discriminate.
    - (* the first half of a link *)
      split; [|apply Hlat, incl_refl].
      assert (Hp : forall z, pend z todo -> pend z (upd todo t (HHalf l b' a :: acts))).
      { intros z Hz. destruct (Hpend z Hz) as [|E]; auto. exfalso. apply (f_equal (@length _)) in E. simpl in E. lia. }
      pose proof (linked_add l a b' g la (h_levels x) El Ea) as Hlk.
      pose proof (node_same l a g la (la ++ [b']) (h_levels x) El Ea) as Hnd.
      destruct I. constructor; cbn [fst snd h_vectors h_levels hset_levels] in *; auto.
      + destruct hi_good0 as (? & ? & ? & ?). split; [|split; [|split]]; auto; cbn [fst h_levels h_max hset_levels] in *.
        * now rewrite set_nth_length.
        * now apply nodup_put.
      + intros id' Hid. apply Hnd in Hid; auto.
      + intros l' id' Hid. apply Hnd. apply Hnd in Hid. auto.
      + intros l' a' b2 Hl. apply Hlk in Hl as [Hl|(-> & -> & ->)]; rewrite Hnd; auto.
      + intros l' a' b2 Hl. apply Hlk in Hl as [Hl|(-> & -> & ->)].
        * destruct (hi_sym0 l' a' b2 Hl) as [|Hx]; auto. left. apply Hlk. auto.
        * right. eapply Hpush. reflexivity.
      + intros u l0 a0 b0 Hu. apply Hlk. unfold upd in Hu.
        destruct (Nat.eqb_spec u t) as [->|]; [|left; now apply (hi_half0 u)].
        destruct Hu as [E|Hu]; [injection E as <- <- <-; auto|]. left. apply (hi_half0 t). now rewrite Et.
      + intros e' He'. destruct (hi_total0 e' He') as [|Hx]; auto.
      + intros e' He'. destruct (hi_vec0 e' He') as [|Hx]; auto.
      + intros id' Hid. rewrite Hnd. destruct (hi_node0 id' Hid) as [|Hx]; auto.
      + intros u e' Hu. apply (hi_store0 u). apply Hin; auto. discriminate.
      + intros u l' id' Hu. rewrite Hnd. apply (hi_new0 u). apply Hin; auto. discriminate.
    - (* the second half of a link *)
      split; [|apply Hlat, incl_refl].
      assert (Hback : linked l b' a (h_levels x)) by (apply (hi_half _ _ _ I t); rewrite Et; now left).
      pose proof (linked_add l a b' g la (h_levels x) El Ea) as Hlk.
      pose proof (node_same l a g la (la ++ [b']) (h_levels x) El Ea) as Hnd.
      destruct I. constructor; cbn [fst snd h_vectors h_levels hset_levels] in *; auto.
      + destruct hi_good0 as (? & ? & ? & ?). split; [|split; [|split]]; auto; cbn [fst h_levels h_max hset_levels] in *.
        * now rewrite set_nth_length.
        * now apply nodup_put.
      + intros id' Hid. apply Hnd in Hid; auto.
      + intros l' id' Hid. apply Hnd. apply Hnd in Hid. auto.
      + intros l' a' b2 Hl. apply Hlk in Hl as [Hl|(-> & -> & ->)]; rewrite Hnd; auto.
      + intros l' a' b2 Hl. rewrite Hlk. apply Hlk in Hl as [Hl|(-> & -> & ->)]; [|auto].
        destruct (hi_sym0 l' a' b2 Hl) as [|Hx]; auto. destruct (Hpend _ Hx) as [|E]; auto.
        injection E as -> -> ->. auto.
      + intros u l0 a0 b0 Hu. apply Hlk. left. apply (hi_half0 u). apply Hsub; [|exact Hu]. intros; now right.
      + intros e' He'. destruct (hi_total0 e' He') as [|Hp]; auto. destruct (Hpend _ Hp) as [|E]; auto. congruence.
      + intros e' He'. destruct (hi_vec0 e' He') as [|Hp]; auto. destruct (Hpend _ Hp) as [|E]; auto. congruence.
      + intros id' Hid. rewrite Hnd. destruct (hi_node0 id' Hid) as [|Hp]; auto. destruct (Hpend _ Hp) as [|E]; auto. congruence.
      + intros u e' Hu. apply (hi_store0 u). apply Hin; auto. discriminate.
      + intros u l' id' Hu. rewrite Hnd. apply (hi_new0 u). apply Hin; auto. discriminate.
    - (* a link that is there *)
      split; [|apply Hlat, incl_refl].
      destruct I. constructor; auto.
      + intros l' a' b2 Hl2. destruct (hi_sym0 l' a' b2 Hl2) as [|Hx]; auto. destruct (Hpend _ Hx) as [|E]; auto.
        injection E as -> -> ->. auto.
      + intros u l0 a0 b0 Hu. apply (hi_half0 u). apply Hsub; [|exact Hu]. intros; now right.
      + intros e' He'. destruct (hi_total0 e' He') as [|Hp]; auto. destruct (Hpend _ Hp) as [|E]; auto. congruence.
      + intros e' He'. destruct (hi_vec0 e' He') as [|Hp]; auto. destruct (Hpend _ Hp) as [|E]; auto. congruence.
      + intros id' Hid. destruct (hi_node0 id' Hid) as [|Hp]; auto. destruct (Hpend _ Hp) as [|E]; auto. congruence.
      + intros u e' Hu. apply (hi_store0 u). apply Hin; auto. discriminate.
      + intros u l' id' Hu. apply (hi_new0 u). apply Hin; auto. discriminate.
  Qed.

  Lemma hthreads {R} (Q : nat -> list ent -> W -> result R -> Prop) sched
      (ps : nat -> prog W R) w recs todo :
    hinv recs w todo ->
    (forall t, Follows (ps t) (todo t) (fun _ _ => True) (Q t)) ->
    match threads sched ps w with
    | (ps', w') => exists recs' todo',
        hinv recs' w' todo' /\
        (forall t r, ps' t = Return r -> todo' t = [] /\ Q t recs' w' r)
    end.
  Proof.
    intros I Hps.
    pose proof (threads_follow hgood heff hlater hlater_refl hlater_trans hinv hi_good hinv_step
                  Q sched ps w recs todo I) as Hthr.
    destruct (threads sched ps w) as [ps' w'].
    destruct Hthr as (recs' & todo' & I' & _ & Hps').
    - intros t. exists (fun _ _ => True). split; [|split]; auto. intros ? ? ? ? _ _. exact Logic.I.
    - exists recs', todo'. split; auto. intros t r Er.
      destruct (Hps' t) as (P & _ & HP & Hr). rewrite Er in Hr. cbn [follows] in Hr.
      apply (Hr recs' w'); auto. eapply hi_good; eauto.
  Qed.

  (** ** The writes of whole rows *)

  Lemma skeys_app l l' : skeys (l ++ l') = skeys l ++ skeys l'.
  Proof. apply flat_map_app. Qed.

  Lemma skeys_nodes id ls : skeys (map (fun l => HNode l id) ls) = map (fun l => (Datatypes.S l, id)) ls.
  Proof. induction ls as [|l ls IH]; simpl; auto. now rewrite IH. Qed.

  Lemma rows_skeys_in rnd es : forall i k id, In (k, id) (skeys (rows_acts rnd i es)) -> In id (map fst es).
  Proof.
    induction es as [|e es IH]; intros i k id Hin; [destruct Hin|]. cbn [rows_acts] in Hin.
    cbn [skeys flat_map skey app] in Hin. destruct Hin as [E|Hin]; [left; congruence|].
    change (In (k, id) (skeys (add_acts (drawn rnd i) e ++ rows_acts rnd (1 + i) es))) in Hin.
    rewrite skeys_app in Hin. apply in_app_or in Hin as [Hin|Hin]; [|right; now apply (IH (1 + i) k)].
    unfold add_acts in Hin. cbn [skeys flat_map skey app] in Hin.
    change (In (k, id) (skeys (map (fun l => HNode l (fst e)) (seq 0 (1 + drawn rnd i))))) in Hin.
    rewrite skeys_nodes in Hin. apply in_map_iff in Hin as (l & E & _). left. congruence.
  Qed.

  Lemma rows_once rnd es : NoDup (map fst es) -> forall i, NoDup (skeys (rows_acts rnd i es)).
  Proof.
    induction es as [|e es IH]; intros Hnd i; [constructor|]. inversion Hnd as [|? ? Hn Hnd']; subst.
    cbn [rows_acts]. change (skeys (HStore e :: add_acts (drawn rnd i) e ++ rows_acts rnd (1 + i) es))
      with ((0, fst e) :: skeys (add_acts (drawn rnd i) e ++ rows_acts rnd (1 + i) es)).
    rewrite skeys_app. change (skeys (add_acts (drawn rnd i) e))
      with (skeys (map (fun l => HNode l (fst e)) (seq 0 (1 + drawn rnd i)))).
    rewrite skeys_nodes. constructor.
    - intros Hin. apply in_app_or in Hin as [Hin|Hin].
      + apply in_map_iff in Hin as (l & E & _). discriminate.
      + apply Hn. now apply (rows_skeys_in rnd es (1 + i) 0).
    - apply NoDup_app_disj.
      + apply FinFun.Injective_map_NoDup; [|apply seq_NoDup]. intros a1 a2 E. congruence.
      + now apply IH.
      + intros [k id] Hin1 Hin2. apply in_map_iff in Hin1 as (l & E & _). injection E as _ <-.
        apply Hn. now apply (rows_skeys_in rnd es (1 + i) k).
  Qed.

  Lemma ordered_nodes id ls r : ordered r -> ordered (map (fun l => HNode l id) ls ++ r).
  Proof. intros Hr. induction ls; simpl; auto. Qed.

  Lemma rows_ordered rnd es : forall i, ordered (rows_acts rnd i es).
  Proof.
    induction es as [|e es IH]; intros i; [exact I|]. cbn [rows_acts ordered].
    split; [now left|]. unfold add_acts. cbn [app ordered]. split; [now left|].
    apply ordered_nodes, IH.
  Qed.

  Lemma rows_in rnd es a : forall i, In a (rows_acts rnd i es) ->
    (exists e, In e es /\ (a = HStore e \/ a = HVec e)) \/ (exists l id, In id (map fst es) /\ a = HNode l id).
  Proof.
    induction es as [|e es IH]; intros i Hin; [destruct Hin|]. cbn [rows_acts] in Hin.
    destruct Hin as [<-|Hin]; [left; exists e; split; [now left|auto]|].
    apply in_app_or in Hin as [Hin|Hin].
    - unfold add_acts in Hin. destruct Hin as [<-|Hin]; [left; exists e; split; [now left|auto]|].
      apply in_map_iff in Hin as (l & <- & _). right. exists l, (fst e). split; [now left|auto].
    - destruct (IH _ Hin) as [(e' & He & Ha)|(l & id & Hid & Ha)].
      + left. exists e'. split; [now right|auto].
      + right. exists l, id. split; [now right|auto].
  Qed.

  Lemma rows_store rnd es e : In e es -> forall i, In (HStore e) (rows_acts rnd i es).
  Proof.
    induction es as [|e' es IH]; intros Hin i; [destruct Hin|]. cbn [rows_acts].
    destruct Hin as [->|Hin]; [now left|]. right. apply in_or_app. right. now apply IH.
  Qed.
End HnswRace.
