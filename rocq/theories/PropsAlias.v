(** Property C03: objects shared between the in-memory backend and its callers. *)

From Coq Require Import List Arith ZArith NArith Lia Bool.
From Coq Require String.
Import (notations) Coq.Strings.String.
From Verif Require Import PyBase BaseLemmas PyMore AliasModel.
Import ListNotations.

(** ** What the backend was told *)

(** Contents of the objects handed over with a record, at the moment of the call. *)
Record account : Type := MkAcc {
  ac_open : bool;
  ac_told : pystr -> option (pyobj * option pyobj)
}.

Definition account0 : account := MkAcc false (fun _ => None).

(** Contents now. *)
Definition contents (w : world) (a : nat) : option pyobj := nth_error (h_heap (w_sh w)) a.

Definition handed (w : world) (v : nat) (m : option nat) : option (pyobj * option pyobj) :=
  match contents w v, m with
  | Some o, None => Some (o, None)
  | Some o, Some a => match contents w a with Some x => Some (o, Some x) | None => None end
  | None, _ => None
  end.

Definition put_told (id : pystr) (x : option (pyobj * option pyobj)) (t : account) : account :=
  MkAcc (ac_open t) (fun j => if eqb j id then x else ac_told t j).

Definition hears (w : world) (e : happening) (t : account) : account :=
  match e with
  | HInit => MkAcc true (fun _ => None)
  | HClose => MkAcc false (fun _ => None)
  | HStore id v m => if ac_open t && negb (eqb id []) then put_told id (handed w v m) t else t
  | HUpdate id v m =>
      if ac_open t
      then match ac_told t id with Some _ => put_told id (handed w v m) t | None => t end
      else t
  | HDelete id => if ac_open t then put_told id None t else t
  | HRetrieve _ | HNew _ | HWrite _ _ => t
  end.

Fixpoint hears_all (w : world) (es : list happening) (t : account) : account :=
  match es with
  | [] => t
  | e :: r => hears_all (happens e w) r (hears w e t)
  end.

(** ** Proof *)

Record inv (w : world) (t : account) : Prop := {
  i_open : h_init (w_sh w) = ac_open t;
  i_closed : ac_open t = false ->
             (forall id, dget id (h_vectors (w_sh w)) = None);
  i_held : forall a, In a (w_held w) -> a < length (h_heap (w_sh w));
  i_refs : forall b o c, contents w b = Some o -> In c (refs o) -> c < length (h_heap (w_sh w));
  i_vec : forall id a, dget id (h_vectors (w_sh w)) = Some a ->
    ~ In a (w_held w) /\
    (forall b o, contents w b = Some o -> ~ In a (refs o)) /\
    (forall j, dget j (h_metadata (w_sh w)) <> Some a) /\
    exists o m, contents w a = Some o /\ ac_told t id = Some (o, m);
  i_none : forall id, dget id (h_vectors (w_sh w)) = None -> ac_told t id = None;
  i_meta : forall id a, dget id (h_metadata (w_sh w)) = Some a ->
    a < length (h_heap (w_sh w)) /\
    (In a (w_held w) -> In a (w_got w)) /\
    (forall b o, contents w b = Some o -> In a (refs o) -> In a (w_got w))
}.

Record minv (w : world) (t : account) : Prop := {
  mi_meta : forall id a, dget id (h_metadata (w_sh w)) = Some a ->
    exists o x, ac_told t id = Some (o, Some x) /\ contents w a = Some x;
  mi_none : forall id, dget id (h_metadata (w_sh w)) = None ->
    forall o x, ac_told t id <> Some (o, Some x)
}.

Lemma reach_inv w t a : inv w t -> reach w a ->
  a < length (h_heap (w_sh w)) /\
  (forall id, dget id (h_vectors (w_sh w)) <> Some a) /\
  (forall id, dget id (h_metadata (w_sh w)) = Some a -> In a (w_got w)).
Proof.
  intros HI. induction 1 as [a Ha|a o b Ha IH E Hb].
  - split; [now apply (i_held w t HI)|]. split.
    + intros id E. now apply (i_vec w t HI) in E.
    + intros id E. apply (i_meta w t HI) in E. tauto.
  - split; [now apply (i_refs w t HI a o)|]. split.
    + intros id Ev. apply (i_vec w t HI) in Ev as [_ [Ev _]]. now apply (Ev a o).
    + intros id Em. apply (i_meta w t HI) in Em as [_ [_ Em]]. now apply (Em a o).
Qed.

Lemma nth_error_some {A} (l : list A) a : a < length l -> exists o, nth_error l a = Some o.
Proof. intros Ha. apply nth_error_Some in Ha. destruct (nth_error l a); [eauto|congruence]. Qed.

(** The heap grown by copies or new objects whose references were reachable. *)
Lemma grow_inv w t o : inv w t ->
  (forall c, In c (refs o) -> c < length (h_heap (w_sh w)) /\
     (forall id, dget id (h_vectors (w_sh w)) <> Some c) /\
     (forall id, dget id (h_metadata (w_sh w)) = Some c -> In c (w_got w))) ->
  inv (MkWorld (snd (alloc o (w_sh w))) (w_held w) (w_got w)) t.
Proof.
  intros [I1 I2 I3 I4 I5 I6 I7] Ho. unfold alloc, bind, get, modify, ret. simpl.
  assert (forall b x, nth_error (h_heap (w_sh w) ++ [o]) b = Some x ->
            contents w b = Some x \/ (b = length (h_heap (w_sh w)) /\ x = o)) as Hnew.
  { intros b x E. destruct (Nat.lt_ge_cases b (length (h_heap (w_sh w)))) as [Hl|Hl].
    - rewrite nth_error_app1 in E by auto. auto.
    - rewrite nth_error_app2 in E by auto. destruct (b - _) as [|k] eqn:Eb.
      + simpl in E. injection E as <-. right. split; auto. lia.
      + now destruct k. }
  constructor; unfold contents; simpl; auto.
  - intros a Ha. apply I3 in Ha. rewrite app_length. lia.
  - intros b x c E Hc. rewrite app_length.
    destruct (Hnew b x E) as [E'|[-> ->]]; [pose proof (I4 b x c E' Hc); lia|].
    destruct (Ho c Hc). lia.
  - intros id a E. destruct (I5 id a E) as [V1 [V2 [V3 [x [m [V4 V5]]]]]].
    split; [auto|]. split; [|split; [auto|]].
    + intros b y Eb Hin. destruct (Hnew b y Eb) as [E'|[-> ->]]; [now apply (V2 b y)|].
      destruct (Ho a Hin) as [_ [Hv _]]. now apply (Hv id).
    + exists x, m. split; auto. unfold contents in V4. rewrite nth_error_app1; auto.
      apply nth_error_Some. congruence.
  - intros id a E. destruct (I7 id a E) as [M1 [M2 M3]]. rewrite app_length. split; [lia|].
    split; [auto|]. intros b y Eb Hin. destruct (Hnew b y Eb) as [E'|[-> ->]]; [now apply (M3 b y)|].
    destruct (Ho a Hin) as [_ [_ Hm]]. now apply (Hm id).
Qed.

Lemma refs_private w t b o c : inv w t -> contents w b = Some o -> In c (refs o) ->
  c < length (h_heap (w_sh w)) /\
  (forall id, dget id (h_vectors (w_sh w)) <> Some c) /\
  (forall id, dget id (h_metadata (w_sh w)) = Some c -> In c (w_got w)).
Proof.
  intros HI E Hc. split; [now apply (i_refs w t HI b o)|]. split.
  - intros id Ev. apply (i_vec w t HI) in Ev as [_ [Ev _]]. now apply (Ev b o).
  - intros id Em. apply (i_meta w t HI) in Em as [_ [_ Em]]. now apply (Em b o).
Qed.

(** Copying never fails on an object there is. *)
Lemma copy_there s a o : nth_error (h_heap s) a = Some o ->
  copy_obj a s = (Ok (length (h_heap s)), MkSh (h_heap s ++ [o]) (h_vectors s) (h_metadata s) (h_init s)).
Proof. intros E. unfold copy_obj, bind, get. rewrite E. reflexivity. Qed.

(** memory.py:52-58 with objects the caller has. *)
Lemma write_inv w t id v m ov : inv w t -> ac_open t = true ->
  reach w v -> (forall a, m = Some a -> reach w a) ->
  contents w v = Some ov ->
  exists s', sh_write id v m (w_sh w) = (Ok tt, s') /\
    inv (MkWorld s' (w_held w) (w_got w)) (put_told id (handed w v m) t) /\
    (minv w t -> minv (MkWorld s' (w_held w) (w_got w)) (put_told id (handed w v m) t)).
Proof.
  intros HI Hop Hv Hm Ev. unfold sh_write, bind.
  rewrite (copy_there _ _ _ Ev). unfold modify at 1. cbn [h_heap h_vectors h_metadata h_init set_h_vectors].
  set (n := length (h_heap (w_sh w))).
  assert (inv (MkWorld (snd (alloc ov (w_sh w))) (w_held w) (w_got w)) t) as HI1.
  { apply grow_inv; auto. intros c Hc. now apply (refs_private w t v ov). }
  unfold alloc, bind, get, modify, ret in HI1. simpl in HI1.
  destruct m as [a|].
  - destruct (reach_inv w t a HI (Hm a eq_refl)) as [Ha _].
    destruct (nth_error_some _ _ Ha) as [om Em].
    unfold set_h_vectors. simpl.
    assert (nth_error (h_heap (w_sh w) ++ [ov]) a = Some om) as Em1.
    { now rewrite nth_error_app1. }
    match goal with |- context [copy_obj a ?s] => rewrite (copy_there s a om Em1) end.
    simpl. unfold modify. simpl.
    assert (handed w v (Some a) = Some (ov, Some om)) as Eh.
    { unfold handed. rewrite Ev. unfold contents. now rewrite Em. }
    assert (inv (MkWorld (snd (alloc om (w_sh (MkWorld (MkSh (h_heap (w_sh w) ++ [ov]) (h_vectors (w_sh w))
                  (h_metadata (w_sh w)) (h_init (w_sh w))) (w_held w) (w_got w))))) (w_held w) (w_got w)) t)
      as HI2.
    { apply (grow_inv (MkWorld _ (w_held w) (w_got w))); auto. intros c Hc.
      eapply (refs_private _ t a om); eauto. }
    unfold alloc, bind, get, modify, ret in HI2. simpl in HI2.
    eexists. split; [reflexivity|]. rewrite Eh. fold n. rewrite app_length. simpl length. fold n.
    destruct HI2 as [I1 I2 I3 I4 I5 I6 I7]. unfold contents in *. simpl in *.
    rewrite !app_length in *. simpl in *. fold n in I3, I4, I5, I6, I7 |- *.
    split.
    + constructor; unfold contents; simpl; rewrite ?app_length; simpl; fold n; auto.
      * congruence.
      * intros j b. rewrite dget_dset. destruct (eqb_spec j id) as [->|Hj].
        -- intros [= <-]. split; [|split; [|split]].
           ++ intros Hin. apply (i_held w t HI) in Hin. unfold n in Hin. lia.
           ++ intros b o Eb Hin.
              assert (n < n) as Hlt; [|lia].
              destruct (Nat.lt_ge_cases b n) as [Hl|Hl].
              ** rewrite nth_error_app1, nth_error_app1 in Eb by (rewrite ?app_length; unfold n in *; lia).
                 exact (i_refs w t HI b o n Eb Hin).
              ** destruct (Nat.eq_dec b n) as [->|Hn].
                 --- rewrite nth_error_app1, nth_error_app2 in Eb by (rewrite ?app_length; simpl; unfold n; lia).
                     unfold n in Eb at 1. rewrite Nat.sub_diag in Eb. injection Eb as <-.
                     exact (i_refs w t HI v ov n Ev Hin).
                 --- rewrite nth_error_app2 in Eb by (rewrite app_length; simpl; unfold n in *; lia).
                     destruct (b - _) as [|k]; [|now destruct k]. injection Eb as <-.
                     exact (i_refs w t HI a om n Em Hin).
           ++ intros j E. rewrite dget_dset in E. destruct (eqb j id); [injection E; lia|].
              apply (i_meta w t HI) in E as [E _]. unfold n in E. lia.
           ++ exists ov, (Some om). split.
              ** rewrite nth_error_app1, nth_error_app2 by (rewrite ?app_length; simpl; unfold n; lia).
                 unfold n. now rewrite Nat.sub_diag.
              ** reflexivity.
        -- intros E. destruct (I5 j b E) as [V1 [V2 [V3 V4]]]. split; [auto|]. split; [auto|].
           split; [|exact V4].
           intros k Ek. rewrite dget_dset in Ek. destruct (eqb k id); [|now apply (V3 k)].
           injection Ek as <-. destruct (i_vec w t HI j (n + 1) E) as [_ [_ [_ [o [mm [Eo _]]]]]].
           unfold contents in Eo.
           assert (n + 1 < length (h_heap (w_sh w))) by (apply nth_error_Some; congruence).
           unfold n in *. lia.
      * intros j. rewrite dget_dset. destruct (eqb_spec j id); [discriminate|]. apply I6.
      * intros j b. rewrite dget_dset. destruct (eqb_spec j id) as [->|Hj]; [|apply I7].
        intros [= <-]. split; [lia|].
        split.
        -- intros Hin. apply (i_held w t HI) in Hin. unfold n in Hin. lia.
        -- intros b o Eb Hin. exfalso. pose proof (I4 b o (n + 1) Eb Hin) as Hlt.
           assert (n + 1 < n) as Hx; [|lia].
           destruct (Nat.lt_ge_cases b n) as [Hl|Hl].
           ++ rewrite nth_error_app1, nth_error_app1 in Eb by (rewrite ?app_length; unfold n in *; lia).
              exact (i_refs w t HI b o (n+1) Eb Hin).
           ++ destruct (Nat.eq_dec b n) as [->|Hn].
              ** rewrite nth_error_app1, nth_error_app2 in Eb by (rewrite ?app_length; simpl; unfold n; lia).
                 unfold n in Eb at 1. rewrite Nat.sub_diag in Eb. injection Eb as <-.
                 exact (i_refs w t HI v ov (n+1) Ev Hin).
              ** rewrite nth_error_app2 in Eb by (rewrite app_length; simpl; unfold n in *; lia).
                 destruct (b - _) as [|k]; [|now destruct k]. injection Eb as <-.
                 exact (i_refs w t HI a om (n+1) Em Hin).
    + intros [M1 M2]. constructor; unfold contents; simpl.
      * intros j b. rewrite dget_dset. destruct (eqb_spec j id) as [->|Hj].
        -- intros [= <-]. exists ov, om. split; [reflexivity|].
           rewrite nth_error_app2 by (rewrite app_length; simpl; unfold n; lia).
           rewrite app_length. simpl. fold n. now rewrite Nat.sub_diag.
        -- intros E. destruct (M1 j b E) as [o [x [E1 E2]]]. exists o, x. split; auto.
           unfold contents in E2.
           assert (b < length (h_heap (w_sh w))) by (apply nth_error_Some; congruence).
           rewrite !nth_error_app1; auto; rewrite app_length; lia.
      * intros j. rewrite dget_dset. destruct (eqb_spec j id); [discriminate|]. apply M2.
  - assert (handed w v None = Some (ov, None)) as Eh by (unfold handed; now rewrite Ev).
    unfold modify, set_h_metadata, set_h_vectors. simpl.
    eexists. split; [reflexivity|]. rewrite Eh. fold n.
    destruct HI1 as [I1 I2 I3 I4 I5 I6 I7]. unfold contents in *. simpl in *.
    rewrite !app_length in *. simpl in *. fold n in I3, I4, I5, I6, I7 |- *.
    split.
    + constructor; unfold contents; simpl; rewrite ?app_length; simpl; fold n; auto.
      * congruence.
      * intros j b. rewrite dget_dset. destruct (eqb_spec j id) as [->|Hj].
        -- intros [= <-]. split; [|split; [|split]].
           ++ intros Hin. apply (i_held w t HI) in Hin. unfold n in Hin. lia.
           ++ intros b o Eb Hin.
              assert (n < n) as Hlt; [|lia].
              destruct (Nat.lt_ge_cases b n) as [Hl|Hl].
              ** rewrite nth_error_app1 in Eb by (unfold n in *; lia).
                 exact (i_refs w t HI b o n Eb Hin).
              ** rewrite nth_error_app2 in Eb by (unfold n in *; lia).
                 destruct (b - _) as [|k]; [|now destruct k]. injection Eb as <-.
                 exact (i_refs w t HI v ov n Ev Hin).
           ++ intros j E. rewrite dget_ddel in E. destruct (eqb j id); [discriminate|].
              apply (i_meta w t HI) in E as [E _]. unfold n in E. lia.
           ++ exists ov, None. split; [|reflexivity].
              rewrite nth_error_app2 by (unfold n; lia). unfold n. now rewrite Nat.sub_diag.
        -- intros E. destruct (I5 j b E) as [V1 [V2 [V3 V4]]]. split; [auto|]. split; [auto|].
           split; [|exact V4].
           intros k Ek. rewrite dget_ddel in Ek. destruct (eqb k id); [discriminate|now apply (V3 k)].
      * intros j. rewrite dget_dset. destruct (eqb_spec j id); [discriminate|]. apply I6.
      * intros j b. rewrite dget_ddel. destruct (eqb_spec j id) as [->|Hj]; [discriminate|apply I7].
    + intros [M1 M2]. constructor; unfold contents; simpl.
      * intros j b. rewrite dget_ddel. destruct (eqb_spec j id) as [->|Hj]; [discriminate|].
        intros E. destruct (M1 j b E) as [o [x [E1 E2]]]. exists o, x. split; auto.
        unfold contents in E2.
        assert (b < length (h_heap (w_sh w))) by (apply nth_error_Some; congruence).
        rewrite nth_error_app1; auto.
      * intros j. rewrite dget_ddel. destruct (eqb_spec j id); [intros _ o x; discriminate|]. apply M2.
Qed.

(** Writing to what has been received is the one thing excluded. *)
Definition polite (w : world) (e : happening) : Prop :=
  match e with HWrite a _ => ~ In a (w_got w) | _ => True end.

Fixpoint polite_all (w : world) (es : list happening) : Prop :=
  match es with
  | [] => True
  | e :: r => polite w e /\ polite_all (happens e w) r
  end.

Lemma world_eta w : MkWorld (w_sh w) (w_held w) (w_got w) = w.
Proof. now destruct w. Qed.

Lemma told_known w t id : inv w t -> dmem id (h_vectors (w_sh w)) =
  match ac_told t id with Some _ => true | None => false end.
Proof.
  intros HI. unfold dmem. destruct (dget id (h_vectors (w_sh w))) as [a|] eqn:E.
  - destruct (i_vec w t HI id a E) as [_ [_ [_ [o [m [_ ->]]]]]]. reflexivity.
  - now rewrite (i_none w t HI id E).
Qed.

Lemma bind_get {S A} (k : S -> M S A) s : bind get k s = k s s.
Proof. reflexivity. Qed.

Lemma step_inv w t e : inv w t -> possible w e ->
  inv (happens e w) (hears w e t) /\
  (minv w t -> polite w e -> minv (happens e w) (hears w e t)).
Proof.
  intros HI Hp. destruct e as [| |id v m|id v m|id|id|o|a o].
  - destruct HI as [I1 I2 I3 I4 I5 I6 I7]. split.
    + constructor; unfold contents in *; simpl; auto; try discriminate.
    + intros [M1 M2] _. constructor; unfold contents; simpl; discriminate.
  - destruct HI as [I1 I2 I3 I4 I5 I6 I7]. split.
    + constructor; unfold contents in *; simpl; auto; try discriminate.
    + intros [M1 M2] _. constructor; unfold contents; simpl; discriminate.
  - destruct Hp as [Hv Hm]. simpl. unfold sh_store.
    destruct id as [|c id].
    { rewrite andb_false_r. unfold ret. simpl. rewrite world_eta. auto. }
    rewrite !bind_get. rewrite (i_open w t HI). destruct (ac_open t) eqn:Eo; simpl.
    2:{ rewrite world_eta. auto. }
    destruct (reach_inv w t v HI Hv) as [Hl _]. destruct (nth_error_some _ _ Hl) as [ov Ev].
    destruct (write_inv w t (c :: id) v m ov HI Eo Hv Hm Ev) as [s' [E [H1 H2]]].
    unfold wrap, bind. rewrite E. simpl. split; auto.
  - destruct Hp as [Hv Hm]. simpl. unfold sh_update.
    rewrite !bind_get. rewrite (i_open w t HI). destruct (ac_open t) eqn:Eo; simpl.
    2:{ rewrite world_eta. auto. }
    rewrite (told_known w t id HI). destruct (ac_told t id) as [x|] eqn:Et.
    2:{ simpl. rewrite world_eta. auto. }
    destruct (reach_inv w t v HI Hv) as [Hl _]. destruct (nth_error_some _ _ Hl) as [ov Ev].
    destruct (write_inv w t id v m ov HI Eo Hv Hm Ev) as [s' [E [H1 H2]]].
    unfold wrap, bind. rewrite E. simpl. split; auto.
  - simpl. unfold sh_retrieve. rewrite !bind_get. destruct (h_init (w_sh w)) eqn:Ei; simpl.
    2:{ rewrite world_eta. auto. }
    destruct (dget id (h_vectors (w_sh w))) as [a|] eqn:Ea; simpl.
    2:{ rewrite world_eta. auto. }
    destruct (i_vec w t HI id a Ea) as [V1 [V2 [V3 [o [mm [V4 V5]]]]]].
    unfold bind. rewrite (copy_there _ _ _ V4). simpl.
    assert (inv (MkWorld (snd (alloc o (w_sh w))) (w_held w) (w_got w)) t) as HI1.
    { apply grow_inv; auto. intros c Hc. now apply (refs_private w t a o). }
    unfold alloc, bind, get, modify, ret in HI1. simpl in HI1.
    pose proof HI as HI0.
    destruct HI1 as [I1 I2 I3 I4 I5 I6 I7]. unfold contents in *. simpl in *.
    assert (minv w t -> forall hs gs, minv (MkWorld (MkSh (h_heap (w_sh w) ++ [o]) (h_vectors (w_sh w))
              (h_metadata (w_sh w)) (h_init (w_sh w))) hs gs) t) as HM.
    { intros [M1 M2] hs gs. constructor; unfold contents; simpl; auto.
      intros j b E. destruct (M1 j b E) as [y [x [E1 E2]]]. exists y, x. split; auto.
      unfold contents in E2. rewrite nth_error_app1; auto. apply nth_error_Some. congruence. }
    assert (forall j b, dget j (h_vectors (w_sh w)) = Some b -> length (h_heap (w_sh w)) <> b) as Hnv.
    { intros j b E <-. destruct (i_vec w t HI0 j _ E) as [_ [_ [_ [y [z [Ey _]]]]]].
      unfold contents in Ey. apply (Nat.lt_irrefl (length (h_heap (w_sh w)))).
      apply nth_error_Some. congruence. }
    assert (forall j b, dget j (h_metadata (w_sh w)) = Some b -> length (h_heap (w_sh w)) <> b) as Hnm.
    { intros j b E <-. destruct (i_meta w t HI0 j _ E) as [Hl _]. lia. }
    destruct (dget id (h_metadata (w_sh w))) as [m|] eqn:Em; split; auto.
    + constructor; unfold contents; simpl; auto; try congruence.
      * intros b [<-|[<-|Hb]]; [rewrite app_length; simpl; lia|now apply (I7 id m)|auto].
      * intros j b E. destruct (I5 j b E) as [W1 [W2 [W3 W4]]]. split; [|auto].
        intros [Hb|[Hb|Hb]]; [now apply (Hnv j b)| |auto].
        subst b. now apply (W3 id).
      * intros j b E. destruct (I7 j b E) as [W1 [W2 W3]]. split; [auto|]. split.
        -- intros [Hb|[Hb|Hb]]; [exfalso; now apply (Hnm j b)|auto|auto].
        -- eauto.
    + constructor; unfold contents; simpl; auto; try congruence.
      * intros b [<-|Hb]; [rewrite app_length; simpl; lia|auto].
      * intros j b E. destruct (I5 j b E) as [W1 [W2 [W3 W4]]]. split; [|auto].
        intros [Hb|Hb]; [now apply (Hnv j b)|auto].
      * intros j b E. destruct (I7 j b E) as [W1 [W2 W3]]. split; [auto|]. split; [|auto].
        intros [Hb|Hb]; [exfalso; now apply (Hnm j b)|auto].
  - simpl. unfold sh_delete. rewrite !bind_get. rewrite (i_open w t HI).
    destruct (ac_open t) eqn:Eo; simpl.
    2:{ rewrite world_eta. auto. }
    rewrite (told_known w t id HI).
    assert (forall s', h_heap s' = h_heap (w_sh w) -> h_init s' = h_init (w_sh w) ->
      (forall j, dget j (h_vectors s') = if eqb j id then None else dget j (h_vectors (w_sh w))) ->
      (forall j b, dget j (h_metadata s') = Some b ->
                   eqb j id = false /\ dget j (h_metadata (w_sh w)) = Some b) ->
      (forall j, eqb j id = false -> dget j (h_metadata s') = dget j (h_metadata (w_sh w))) ->
      inv (MkWorld s' (w_held w) (w_got w)) (put_told id None t) /\
      (minv w t -> minv (MkWorld s' (w_held w) (w_got w)) (put_told id None t))) as Hgen.
    { intros s' Eh Ei Ev Em Em'. destruct HI as [I1 I2 I3 I4 I5 I6 I7]. split.
      - constructor; unfold contents in *; simpl; rewrite ?Eh; auto; try congruence.
        + intros j b. rewrite Ev. destruct (eqb j id) eqn:Ej; [discriminate|]. intros E.
          destruct (I5 j b E) as [V1 [V2 [V3 V4]]]. split; [auto|]. split; [auto|]. split; [|auto].
          intros k Ek. apply Em in Ek as [_ Ek]. now apply (V3 k).
        + intros j. rewrite Ev. destruct (eqb j id); auto.
        + intros j b E. apply Em in E as [_ E]. now apply (I7 j).
      - intros [M1 M2]. constructor; unfold contents; simpl; rewrite ?Eh.
        + intros j b E. apply Em in E as [Ej E]. rewrite Ej. now apply M1.
        + intros j. destruct (eqb j id) eqn:Ej; [discriminate|]. rewrite (Em' j Ej). apply M2. }
    destruct (ac_told t id) as [x|] eqn:Et.
    + unfold bind, modify, ret. simpl.
      destruct (Hgen (MkSh (h_heap (w_sh w)) (ddel id (h_vectors (w_sh w)))
                  (ddel id (h_metadata (w_sh w))) (h_init (w_sh w)))) as [H1 H2]; auto.
      * intros j. simpl. apply dget_ddel.
      * intros j b. simpl. rewrite dget_ddel. now destruct (eqb j id).
      * intros j E. simpl. now rewrite dget_ddel, E.
    + simpl. rewrite world_eta.
      assert (dget id (h_vectors (w_sh w)) = None) as En.
      { generalize (told_known w t id HI). unfold dmem. rewrite Et. now destruct dget. }
      split.
      * destruct HI as [I1 I2 I3 I4 I5 I6 I7]. constructor; simpl; auto.
        -- intros j b E. destruct (eqb_spec j id) as [->|Hj]; [congruence|]. auto.
        -- intros j E. destruct (eqb_spec j id); auto.
      * intros [M1 M2] _. constructor; simpl.
        -- intros j b E. destruct (eqb_spec j id) as [->|Hj]; [|auto].
           destruct (M1 id b E) as [y [z [E1 _]]]. congruence.
        -- intros j. destruct (eqb_spec j id) as [->|Hj]; [discriminate|auto].
  - assert (inv (MkWorld (snd (alloc o (w_sh w))) (w_held w) (w_got w)) t) as HI1.
    { apply grow_inv; auto. intros c Hc. apply (reach_inv w t c HI). now apply Hp. }
    unfold alloc, bind, get, modify, ret in HI1. simpl in HI1.
    simpl. unfold alloc, bind, get, modify, ret. simpl. pose proof HI as HI0.
    destruct HI1 as [I1 I2 I3 I4 I5 I6 I7]. unfold contents in *. simpl in *. split.
    + constructor; unfold contents; simpl; auto.
      * intros b [<-|Hb]; [rewrite app_length; simpl; lia|auto].
      * intros j b E. destruct (I5 j b E) as [W1 [W2 [W3 W4]]]. split; [|auto].
        intros [Hb|Hb]; [|auto]. destruct (i_vec w t HI0 j b E) as [_ [_ [_ [y [z [Ey _]]]]]].
        unfold contents in Ey. apply (Nat.lt_irrefl (length (h_heap (w_sh w)))).
        apply nth_error_Some. congruence.
      * intros j b E. destruct (I7 j b E) as [W1 [W2 W3]]. split; [auto|]. split; [|auto].
        intros [Hb|Hb]; [|auto]. destruct (i_meta w t HI0 j b E) as [Hl _]. lia.
    + intros [M1 M2] _. constructor; unfold contents; simpl; auto.
      intros j b E. destruct (M1 j b E) as [y [x [E1 E2]]]. exists y, x. split; auto.
      unfold contents in E2. rewrite nth_error_app1; auto. apply nth_error_Some. congruence.
  - destruct Hp as [Ha Ho]. simpl. pose proof (reach_inv w t a HI Ha) as [R1 [R2 R3]].
    pose proof HI as HI0. destruct HI as [I1 I2 I3 I4 I5 I6 I7].
    assert (forall b x, nth_error (set_nth a o (h_heap (w_sh w))) b = Some x ->
              (a <> b /\ contents w b = Some x) \/ (b = a /\ x = o)) as Hs.
    { intros b x. rewrite nth_error_set_nth. destruct (Nat.eqb_spec a b) as [<-|Hn]; [|auto].
      destruct (nth_error _ a); [|discriminate]. intros [= <-]. auto. }
    split.
    + constructor; unfold contents; simpl; rewrite ?set_nth_length; auto.
      * intros b x c Eb Hc. destruct (Hs b x Eb) as [[_ Eb']|[-> ->]]; [now apply (I4 b x)|].
        now apply (reach_inv w t c HI0 (Ho c Hc)).
      * intros j b E. destruct (I5 j b E) as [V1 [V2 [V3 [y [z [V4 V5]]]]]].
        split; [auto|]. split; [|split; [auto|]].
        -- intros k x Ek Hin. destruct (Hs k x Ek) as [[_ Ek']|[-> ->]]; [now apply (V2 k x)|].
           apply (reach_inv w t b HI0 (Ho b Hin)) with (id := j). exact E.
        -- exists y, z. split; auto. rewrite nth_error_set_nth.
           destruct (Nat.eqb_spec a b) as [<-|Hn]; [|exact V4].
           exfalso. now apply (R2 j).
      * intros j b E. destruct (I7 j b E) as [W1 [W2 W3]]. split; [auto|]. split; [auto|].
        intros k x Ek Hin. destruct (Hs k x Ek) as [[_ Ek']|[-> ->]]; [now apply (W3 k x)|].
        apply (reach_inv w t b HI0 (Ho b Hin)) with (id := j). exact E.
    + intros [M1 M2] Hpol. simpl in Hpol. constructor; unfold contents; simpl; auto.
      intros j b E. destruct (M1 j b E) as [y [x [E1 E2]]]. exists y, x. split; auto.
      rewrite nth_error_set_nth. destruct (Nat.eqb_spec a b) as [<-|Hn]; [|exact E2].
      exfalso. apply Hpol. now apply (R3 j).
Qed.

Lemma inv0 : inv world0 account0.
Proof.
  constructor; unfold contents, world0, account0; simpl; auto; try discriminate; try tauto.
  intros [|b]; discriminate.
Qed.

Lemma minv0 : minv world0 account0.
Proof. constructor; unfold contents, world0, account0; simpl; discriminate. Qed.

Lemma run_inv es : forall w t, inv w t -> possible_all w es ->
  inv (happen_all es w) (hears_all w es t) /\
  (minv w t -> polite_all w es -> minv (happen_all es w) (hears_all w es t)).
Proof.
  induction es as [|e es IH]; intros w t HI Hp; [auto|].
  destruct Hp as [Hp Hr]. destruct (step_inv w t e HI Hp) as [H1 H2].
  destruct (IH _ _ H1 Hr) as [J1 J2]. split; [exact J1|].
  intros HM [Hq Hqr]. apply J2; auto.
Qed.

(** ** C03 *)

(** However callers go on with their arrays and dictionaries - those they passed and those they
    received -, [retrieve_vector] gives out a new array with the contents the array passed to the
    last store or update had at that call. *)
Theorem C03_vectors_isolated_partial : forall es, possible_all world0 es ->
  forall id, let w := happen_all es world0 in let t := hears_all world0 es account0 in
  match sh_retrieve id (w_sh w) with
  | (Ok (Some (v, _)), s') =>
      ac_open t = true /\
      (exists o m, ac_told t id = Some (o, m) /\ nth_error (h_heap s') v = Some o) /\
      ~ reach w v /\ (forall j, dget j (h_vectors s') <> Some v)
  | (Ok None, _) => ac_open t = true /\ ac_told t id = None
  | (Raise e, _) => ac_open t = false /\ e = EStorage
  end.
Proof.
  intros es Hp id w t. destruct (run_inv es world0 account0 inv0 Hp) as [HI _].
  fold w t in HI. unfold sh_retrieve, bind at 1, get. rewrite (i_open w t HI).
  destruct (ac_open t) eqn:Eo; simpl; [|auto].
  destruct (dget id (h_vectors (w_sh w))) as [a|] eqn:Ea; simpl.
  2:{ split; auto. now apply (i_none w t HI). }
  destruct (i_vec w t HI id a Ea) as [V1 [V2 [V3 [o [mm [V4 V5]]]]]].
  unfold bind. rewrite (copy_there _ _ _ V4). simpl. split; auto. split; [|split].
  - exists o, mm. split; auto. rewrite nth_error_app2 by auto. now rewrite Nat.sub_diag.
  - intros Hr. apply (reach_inv w t _ HI) in Hr. lia.
  - intros j Ej. destruct (i_vec w t HI j _ Ej) as [_ [_ [_ [y [z [Ey _]]]]]].
    unfold contents in Ey. apply (Nat.lt_irrefl (length (h_heap (w_sh w)))).
    apply nth_error_Some. congruence.
Qed.

(** If they leave the received dictionaries alone, the dictionary [retrieve_vector] gives out has
    the entries the one passed had at that call. *)
Theorem C03_metadata_partial : forall es, possible_all world0 es -> polite_all world0 es ->
  forall id v m s', let w := happen_all es world0 in let t := hears_all world0 es account0 in
  sh_retrieve id (w_sh w) = (Ok (Some (v, m)), s') ->
  exists o x, ac_told t id = Some (o, x) /\ nth_error (h_heap s') v = Some o /\
    match m, x with
    | Some a, Some d => nth_error (h_heap s') a = Some d
    | None, None => True
    | _, _ => False
    end.
Proof.
  intros es Hp Hq id v m s' w t. destruct (run_inv es world0 account0 inv0 Hp) as [HI HM].
  specialize (HM minv0 Hq). fold w t in HI, HM. unfold sh_retrieve, bind at 1, get.
  rewrite (i_open w t HI). destruct (ac_open t) eqn:Eo; simpl; [|discriminate].
  destruct (dget id (h_vectors (w_sh w))) as [a|] eqn:Ea; simpl; [|discriminate].
  destruct (i_vec w t HI id a Ea) as [V1 [V2 [V3 [o [mm [V4 V5]]]]]].
  unfold bind. rewrite (copy_there _ _ _ V4). simpl. intros [= <- <- <-].
  exists o, mm. split; auto. simpl. split.
  - rewrite nth_error_app2 by auto. now rewrite Nat.sub_diag.
  - destruct HM as [M1 M2]. destruct (dget id (h_metadata (w_sh w))) as [b|] eqn:Eb.
    + destruct (M1 id b Eb) as [y [x [E1 E2]]]. rewrite V5 in E1. injection E1 as <- ->.
      unfold contents in E2. rewrite nth_error_app1; auto. apply nth_error_Some. congruence.
    + destruct mm as [x|]; [|exact I]. now apply (M2 id Eb o x).
Qed.

(** ** Refutations *)

(** What a reader sees, to a depth. *)
Inductive seen : Type :=
| SAtom (z : Z)
| SArr (xs : list Z)
| SDict (es : list (pystr * seen))
| SList (vs : list seen)
| SDeep.

Fixpoint see (depth : nat) (h : list pyobj) (v : pyval) : seen :=
  match depth with
  | O => SDeep
  | S d =>
      match v with
      | PAtom z => SAtom z
      | PRef a =>
          match nth_error h a with
          | Some (PArr xs) => SArr xs
          | Some (PDict es) => SDict (map (fun e => (fst e, see d h (snd e))) es)
          | Some (PList vs) => SList (map (see d h) vs)
          | None => SDeep
          end
      end
  end.

Definition see_metadata (w : world) (id : pystr) : option seen :=
  match sh_retrieve id (w_sh w) with
  | (Ok (Some (_, Some a)), s') => Some (see 4 (h_heap s') (PRef a))
  | _ => None
  end.

(** An array, a list of tags, and a dictionary with a number and the tags. *)
Definition demo_made : list happening :=
  [HInit; HNew (PArr [1; 2]%Z); HNew (PList [PAtom 7]%Z);
   HNew (PDict [(py "n", PAtom 5); (py "tags", PRef 1)]%Z)].

Definition demo_stored : list happening := demo_made ++ [HStore (py "a") 0 (Some 2)].

Lemma demo_made_possible r : possible_all (happen_all demo_made world0) r ->
  possible_all world0 (demo_made ++ r).
Proof.
  intros Hr. split; [exact I|]. split; [intros b []|]. split; [intros b []|].
  split; [|exact Hr]. intros b [<-|[]]. apply reach_held. left. reflexivity.
Qed.

(** A caller changes an entry of the dictionary it got from [retrieve_vector]: the next caller
    gets the changed entry. *)
Theorem C03_returned_metadata_refuted : exists es a o id,
  possible_all world0 (es ++ [HWrite a o]) /\
  In a (w_got (happen_all es world0)) /\
  see_metadata (happen_all es world0) id = Some (SDict [(py "n", SAtom 5); (py "tags", SList [SAtom 7])]%Z) /\
  see_metadata (happen_all (es ++ [HWrite a o]) world0) id = Some (SDict [(py "n", SAtom 6)]%Z).
Proof.
  exists (demo_made ++ [HStore (py "a") 0 (Some 2); HRetrieve (py "a")]), 4,
    (PDict [(py "n", PAtom 6)]%Z), (py "a").
  split; [|split; [|split; vm_compute; reflexivity]].
  - rewrite <- app_assoc. apply demo_made_possible. split.
    + split; [apply reach_held; right; right; left; reflexivity|].
      intros a [= <-]. apply reach_held. left. reflexivity.
    + split; [exact I|]. split; [|exact I]. split; [|intros b []].
      apply reach_held. right. left. reflexivity.
  - left. reflexivity.
Qed.

(** Without touching anything received: a caller adds a tag to the list it had put into the
    dictionary it passed. *)
Theorem C03_nested_metadata_refuted : exists es a o id,
  possible_all world0 (es ++ [HWrite a o]) /\ polite_all world0 (es ++ [HWrite a o]) /\
  (forall b, ~ In (HRetrieve b) es) /\
  see_metadata (happen_all es world0) id = Some (SDict [(py "n", SAtom 5); (py "tags", SList [SAtom 7])]%Z) /\
  see_metadata (happen_all (es ++ [HWrite a o]) world0) id =
    Some (SDict [(py "n", SAtom 5); (py "tags", SList [SAtom 7; SAtom 8])]%Z).
Proof.
  exists demo_stored, 1, (PList [PAtom 7; PAtom 8]%Z), (py "a").
  split; [|split; [|split; [|split; vm_compute; reflexivity]]].
  - unfold demo_stored. rewrite <- app_assoc. apply demo_made_possible. split.
    + split; [apply reach_held; right; right; left; reflexivity|].
      intros a [= <-]. apply reach_held. left. reflexivity.
    + split; [|exact I]. split; [|intros b []]. apply reach_held. right. left. reflexivity.
  - repeat (split; [exact I|]). split; [|exact I]. intros [].
  - intros b [E|[E|[E|[E|[E|[]]]]]]; discriminate.
Qed.

(** ** Examples *)

(** The caller changes the array it passed, the dictionary it passed, and the array it received. *)
Definition demo_changes : list happening :=
  demo_stored ++ [HRetrieve (py "a"); HWrite 0 (PArr [9]%Z); HWrite 2 (PDict []); HWrite 5 (PArr [])].

Lemma demo_changes_possible : possible_all world0 demo_changes.
Proof.
  unfold demo_changes, demo_stored. rewrite <- app_assoc. apply demo_made_possible.
  split; [split; [apply reach_held; right; right; left; reflexivity|
                  intros a [= <-]; apply reach_held; left; reflexivity]|].
  split; [exact I|].
  split; [split; [apply reach_held; do 4 right; left; reflexivity|intros b []]|].
  split; [split; [apply reach_held; do 2 right; left; reflexivity|intros b []]|].
  split; [split; [apply reach_held; left; reflexivity|intros b []]|exact I].
Qed.

Example C03_vectors_isolated_partial_ex :
  possible_all world0 demo_changes /\
  ac_told (hears_all world0 demo_changes account0) (py "a") =
    Some (PArr [1; 2]%Z, Some (PDict [(py "n", PAtom 5); (py "tags", PRef 1)]%Z)) /\
  contents (happen_all demo_changes world0) 0 = Some (PArr [9]%Z) /\
  (let (r, s') := sh_retrieve (py "a") (w_sh (happen_all demo_changes world0)) in
   r = Ok (Some (6, Some 4)) /\ nth_error (h_heap s') 6 = Some (PArr [1; 2]%Z)).
Proof. split; [exact demo_changes_possible|]. repeat split. Qed.

Example C03_metadata_partial_ex :
  possible_all world0 demo_changes /\ polite_all world0 demo_changes /\
  contents (happen_all demo_changes world0) 2 = Some (PDict []) /\
  see_metadata (happen_all demo_changes world0) (py "a") =
    Some (SDict [(py "n", SAtom 5); (py "tags", SList [SAtom 7])]%Z).
Proof.
  split; [exact demo_changes_possible|]. split; [|split; reflexivity].
  do 6 (split; [exact I|]). repeat (split; [cbn; intros H; repeat (destruct H as [H|H]; [discriminate|]); exact H|]).
  exact I.
Qed.

Print Assumptions C03_vectors_isolated_partial.
Print Assumptions C03_metadata_partial.
Print Assumptions C03_returned_metadata_refuted.
Print Assumptions C03_nested_metadata_refuted.
