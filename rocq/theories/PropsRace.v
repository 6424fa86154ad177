(** Property C14: two threads store at the same time in the disk backend. *)

From Coq Require Import List Arith ZArith NArith Lia Bool Permutation.
From Coq Require String.
Import (notations) Coq.Strings.String.
From Verif Require Import PyBase BaseLemmas Payload StorageModel StorageSpec StorageRun
  StorageProofs StorageThms StepModel StepProofs Demo.
Import ListNotations.

Section Race.
  Context {V Mt : Type} `{Payload V Mt} `{Unicode}.
  Context (dirorder : list pystr -> list pystr).

  (** ** The control points of a store *)

  (** Start; flag checked; vector file opened; vector written; metadata file opened, or seen to
      exist; metadata done; returned. *)
  Inductive phase : Type := P0 | P1 | P2 | P3 | P4 | P5 | P6.

  Definition at_least (n : nat) (p : phase) : Prop :=
    n <= match p with P0 => 0 | P1 => 1 | P2 => 2 | P3 => 3 | P4 => 4 | P5 => 5 | P6 => 6 end.

  (** The rest of the call at each point. *)
  Definition rest5 : prog (disk V Mt) bool := pwrap EStorage (recount dirorder ;~ Return (Ok true)).
  Definition rest4 (k : pystr) (m : option Mt) : prog (disk V Mt) bool :=
    pwrap EStorage
      ((match m with
        | Some x => if picklable x
                    then atomic (modify (fun s => if dmem (pkl_name k) (d_metadata s)
                                  then set_mfiles (dset (pkl_name k) (FGood x) (d_metadata s)) s
                                  else s))
                    else Return (Raise EType)
        | None => unlink_metadata k
        end) ;~ recount dirorder ;~ Return (Ok true)).
  Definition rest3 (k : pystr) (m : option Mt) : prog (disk V Mt) bool :=
    pwrap EStorage (put_metadata k m ;~ recount dirorder ;~ Return (Ok true)).
  Definition rest2 (k : pystr) (v : V) (m : option Mt) : prog (disk V Mt) bool :=
    pwrap EStorage
      (atomic (modify (fun s => if dmem (npy_name k) (d_vectors s)
                                then set_vfiles (dset (npy_name k) (FGood v) (d_vectors s)) s
                                else s)) ;~
       put_metadata k m ;~ recount dirorder ;~ Return (Ok true)).
  Definition rest1 (k : pystr) (v : V) (m : option Mt) : prog (disk V Mt) bool :=
    pwrap EStorage
      (save_vector k v ;~ put_metadata k m ;~ recount dirorder ;~ Return (Ok true)).

  Definition rest (id : pystr) (v : V) (m : option Mt) (ph : phase) (p : prog (disk V Mt) bool)
      : Prop :=
    match ph with
    | P0 => p = store_steps dirorder id v m
    | P1 => p = rest1 (sanitize_id id) v m
    | P2 => p = rest2 (sanitize_id id) v m
    | P3 => p = rest3 (sanitize_id id) m
    | P4 => p = rest4 (sanitize_id id) m
    | P5 => p = rest5
    | P6 => exists r, p = Return r /\ (r = Ok true \/ m = None /\ r = Raise EStorage)
    end.

  (** One step of a store, at each point: where it goes and what it does. *)
  Inductive goes (k : pystr) (v : V) (m : option Mt) (s : disk V Mt)
      : phase -> phase -> disk V Mt -> Prop :=
  | g0 : goes k v m s P0 P1 s
  | g1 : goes k v m s P1 P2 (set_vfiles (dset (npy_name k) FBad (d_vectors s)) s)
  | g2 : goes k v m s P2 P3 (if dmem (npy_name k) (d_vectors s)
                             then set_vfiles (dset (npy_name k) (FGood v) (d_vectors s)) s
                             else s)
  | g3s x : m = Some x ->
      goes k v m s P3 P4 (set_mfiles (dset (pkl_name k) FBad (d_metadata s)) s)
  | g3y : m = None -> dmem (pkl_name k) (d_metadata s) = true -> goes k v m s P3 P4 s
  | g3n : m = None -> dmem (pkl_name k) (d_metadata s) = false -> goes k v m s P3 P5 s
  | g4s x : m = Some x ->
      goes k v m s P4 P5 (if dmem (pkl_name k) (d_metadata s)
                          then set_mfiles (dset (pkl_name k) (FGood x) (d_metadata s)) s
                          else s)
  | g4y : m = None -> dmem (pkl_name k) (d_metadata s) = true ->
      goes k v m s P4 P5 (set_mfiles (ddel (pkl_name k) (d_metadata s)) s)
  | g4n : m = None -> dmem (pkl_name k) (d_metadata s) = false -> goes k v m s P4 P6 s
  | g5 : goes k v m s P5 P6 (snd (disk_recount dirorder s)).

  Lemma rest_step id v m ph f s :
    id <> [] -> meta_pickle m -> d_init s = true -> rest id v m ph (Step f) ->
    exists ph' s', rest id v m ph' (fst (f s)) /\ snd (f s) = s' /\
                   goes (sanitize_id id) v m s ph ph' s'.
  Proof.
    intros Hn Hm Hi Hr.
    destruct ph; simpl in Hr.
    - destruct id as [|c id]; [congruence|]. unfold store_steps, check_open, atomic in Hr.
      cbn [pbind] in Hr. injection Hr as ->. exists P1, s. unfold bind, get. rewrite Hi.
      cbv beta iota delta [negb]. cbn [fst snd ret pbind]. split; [|split; constructor].
      reflexivity.
    - unfold rest1, save_vector, atomic in Hr. cbn [pbind pwrap] in Hr. injection Hr as ->.
      eexists P2, _. cbn [modify fst snd pbind]. split; [reflexivity|]. split; [reflexivity|].
      constructor.
    - unfold rest2, atomic in Hr. cbn [pbind pwrap] in Hr. injection Hr as ->.
      eexists P3, _. cbn [modify fst snd pbind]. split; [reflexivity|]. split; [reflexivity|].
      constructor.
    - unfold rest3 in Hr. destruct m as [x|]; simpl put_metadata in Hr.
      + unfold save_metadata, atomic in Hr. cbn [pbind pwrap] in Hr. injection Hr as ->.
        eexists P4, _. cbn [modify fst snd pbind]. split; [reflexivity|]. split; [reflexivity|].
        econstructor. reflexivity.
      + unfold drop_metadata, has_metadata, atomic in Hr. cbn [pbind pwrap] in Hr.
        injection Hr as ->. unfold bind, get, ret. cbn [fst snd].
        destruct (dmem (pkl_name (sanitize_id id)) (d_metadata s)) eqn:E; cbn [pbind].
        * eexists P4, _. split; [|split; [reflexivity|now constructor]]. reflexivity.
        * eexists P5, _. split; [|split; [reflexivity|now constructor]]. reflexivity.
    - unfold rest4 in Hr. destruct m as [x|].
      + simpl in Hm. rewrite Hm in Hr. unfold atomic in Hr. cbn [pbind pwrap] in Hr.
        injection Hr as ->. eexists P5, _. cbn [modify fst snd pbind].
        split; [reflexivity|]. split; [reflexivity|]. now constructor.
      + unfold unlink_metadata, atomic in Hr. cbn [pbind pwrap] in Hr.
        injection Hr as ->. unfold bind, get, ret.
        destruct (dmem (pkl_name (sanitize_id id)) (d_metadata s)) eqn:E; cbn [fst snd modify raise].
        * eexists P5, _. split; [reflexivity|]. split; [reflexivity|]. now constructor.
        * eexists P6, _. split; [|split; [reflexivity|now constructor]].
          exists (Raise EStorage). cbn [fst pbind pwrap]. auto.
    - unfold rest5, recount, atomic in Hr. cbn [pbind pwrap] in Hr. injection Hr as ->.
      eexists P6, _. unfold disk_recount, modify. cbn [fst snd pbind pwrap].
      split; [|split; [reflexivity|constructor]].
      exists (Ok true). auto.
    - destruct Hr as [r [Hr _]]. discriminate.
  Qed.

  (** Running two stores with an invariant of the two control points and the state. *)
  Section Run.
    Context (id1 id2 : pystr) (v1 v2 : V) (m1 m2 : option Mt).
    Context (Hn1 : id1 <> []) (Hn2 : id2 <> []) (Hm1 : meta_pickle m1) (Hm2 : meta_pickle m2).
    Context (I : phase -> phase -> disk V Mt -> Prop).
    Context (Iopen : forall a b s, I a b s -> d_init s = true).
    Context (I1 : forall a a' b s s', I a b s -> goes (sanitize_id id1) v1 m1 s a a' s' -> I a' b s').
    Context (I2 : forall a b b' s s', I a b s -> goes (sanitize_id id2) v2 m2 s b b' s' -> I a b' s').

    Lemma run_two sched : forall p q s a b,
      rest id1 v1 m1 a p -> rest id2 v2 m2 b q -> I a b s ->
      exists a' b' p' q' s', interleave sched p q s = (p', q', s') /\
        rest id1 v1 m1 a' p' /\ rest id2 v2 m2 b' q' /\ I a' b' s'.
    Proof.
      induction sched as [|[] sched IH]; intros p q s a b Hp Hq HI; simpl.
      - exists a, b, p, q, s. auto.
      - destruct p as [r|f]; [eauto|].
        destruct (rest_step id1 v1 m1 a f s Hn1 Hm1 (Iopen _ _ _ HI) Hp) as [a' [s' [Hr [Es Hg]]]].
        destruct (f s) as [p' s1]. simpl in *. subst s1. eauto.
      - destruct q as [r|f]; [eauto|].
        destruct (rest_step id2 v2 m2 b f s Hn2 Hm2 (Iopen _ _ _ HI) Hq) as [b' [s' [Hr [Es Hg]]]].
        destruct (f s) as [p' s1]. simpl in *. subst s1. eauto.
    Qed.
  End Run.

  Lemma rest_Return id v m ph r : id <> [] -> meta_pickle m ->
    rest id v m ph (Return r) -> ph = P6.
  Proof.
    intros Hn Hm. destruct ph; simpl; auto; intros Hr; exfalso.
    - destruct id; [congruence|]. unfold store_steps in Hr. discriminate.
    - discriminate.
    - discriminate.
    - unfold rest3 in Hr. destruct m; discriminate.
    - unfold rest4 in Hr. destruct m as [x|]; [|discriminate].
      simpl in Hm. rewrite Hm in Hr. discriminate.
    - discriminate.
  Qed.

  (** ** Two stores under one file name *)

  Section Same.
    Context (k : pystr) (v1 v2 : V) (m1 m2 : option Mt).

    (** The vector file. *)
    Definition vec_inv (a b : phase) (s : disk V Mt) : Prop :=
      (at_least 2 a \/ at_least 2 b -> dmem (npy_name k) (d_vectors s) = true) /\
      (at_least 3 a -> at_least 3 b ->
       dget (npy_name k) (d_vectors s) = Some (FGood v1) \/
       dget (npy_name k) (d_vectors s) = Some (FGood v2)).

    (** The metadata file. *)
    Definition meta_inv (a b : phase) (s : disk V Mt) : Prop :=
      match m1, m2 with
      | Some x1, Some x2 =>
          (at_least 4 a \/ at_least 4 b -> dmem (pkl_name k) (d_metadata s) = true) /\
          (at_least 5 a -> at_least 5 b ->
           dget (pkl_name k) (d_metadata s) = Some (FGood x1) \/
           dget (pkl_name k) (d_metadata s) = Some (FGood x2))
      | None, Some x2 =>
          at_least 5 b ->
          dget (pkl_name k) (d_metadata s) = None \/
          dget (pkl_name k) (d_metadata s) = Some (FGood x2)
      | Some x1, None =>
          at_least 5 a ->
          dget (pkl_name k) (d_metadata s) = None \/
          dget (pkl_name k) (d_metadata s) = Some (FGood x1)
      | None, None =>
          at_least 5 a \/ at_least 5 b -> dget (pkl_name k) (d_metadata s) = None
      end.

    Definition race_inv (a b : phase) (s : disk V Mt) : Prop :=
      d_init s = true /\ vec_inv a b s /\ meta_inv a b s.

    Lemma init_goes v m s a a' s' : goes k v m s a a' s' -> d_init s' = d_init s.
    Proof. intros Hg. destruct Hg; auto; destruct (dmem _ _); auto. Qed.

    (** What a step does to the two files. *)
    Lemma vec_goes v m s a a' s' : goes k v m s a a' s' ->
      (at_least 2 a' -> at_least 2 a \/ a = P1) /\
      (at_least 3 a' -> at_least 3 a \/ a = P2) /\
      ((a = P1 /\ a' = P2 /\ dget (npy_name k) (d_vectors s') = Some FBad) \/
       (a = P2 /\ a' = P3 /\ (dmem (npy_name k) (d_vectors s) = true ->
                              dget (npy_name k) (d_vectors s') = Some (FGood v))) \/
       (a <> P1 /\ a <> P2 /\ d_vectors s' = d_vectors s)).
    Proof.
      intros Hg. destruct Hg; unfold at_least;
        (split; [intros; try lia; auto; left; lia|]);
        (split; [intros; try lia; auto; left; lia|]).
      - right; right. repeat split; congruence.
      - left. repeat split. simpl. apply dget_dset_same.
      - right; left. repeat split. intros ->. simpl. apply dget_dset_same.
      - right; right. repeat split; congruence.
      - right; right. repeat split; congruence.
      - right; right. repeat split; congruence.
      - right; right. repeat split; try congruence. now destruct (dmem _ _).
      - right; right. repeat split; congruence.
      - right; right. repeat split; congruence.
      - right; right. repeat split; congruence.
    Qed.

    Lemma meta_goes v m s a a' s' : goes k v m s a a' s' ->
      match m with
      | Some x =>
          (at_least 4 a' -> at_least 4 a \/ a = P3) /\
          (at_least 5 a' -> at_least 5 a \/ a = P4) /\
          ((a = P3 /\ a' = P4 /\ dget (pkl_name k) (d_metadata s') = Some FBad) \/
           (a = P4 /\ a' = P5 /\
            (dmem (pkl_name k) (d_metadata s) = true ->
             dget (pkl_name k) (d_metadata s') = Some (FGood x)) /\
            (dmem (pkl_name k) (d_metadata s) = false ->
             dget (pkl_name k) (d_metadata s') = None)) \/
           (a <> P3 /\ a <> P4 /\ d_metadata s' = d_metadata s))
      | None =>
          (d_metadata s' = d_metadata s \/ dget (pkl_name k) (d_metadata s') = None) /\
          (at_least 5 a' -> at_least 5 a \/ dget (pkl_name k) (d_metadata s') = None)
      end.
    Proof.
      intros Hg. destruct m as [x|].
      - destruct Hg as [| | |y E|E|E|y E|E|E|]; unfold at_least; try discriminate;
          (split; [intros; try lia; auto; left; lia|]);
          (split; [intros; try lia; auto; left; lia|]).
        + right; right. repeat split; congruence.
        + right; right. repeat split; congruence.
        + right; right. repeat split; try congruence. now destruct (dmem _ _).
        + left. repeat split. simpl. apply dget_dset_same.
        + injection E as <-. right; left. split; [auto|]. split; [auto|]. split.
          * intros ->. simpl. apply dget_dset_same.
          * intros Ef. rewrite Ef. now apply dmem_false.
        + right; right. repeat split; congruence.
      - destruct Hg as [| | |y E|E Em|E Em|y E|E Em|E Em|]; unfold at_least; try discriminate.
        + split; [auto|intros; lia].
        + split; [auto|intros; lia].
        + split; [left; now destruct (dmem _ _)|intros; lia].
        + split; [auto|intros; lia].
        + split; [auto|]. intros _. right. now apply dmem_false.
        + simpl. rewrite dget_ddel_same. auto.
        + split; [auto|]. intros _. right. now apply dmem_false.
        + split; [auto|]. intros _. left. lia.
    Qed.
  End Same.

  Ltac at_contra :=
    match goal with
    | Hx : at_least _ _ |- _ => unfold at_least in Hx; lia
    end.

  Lemma vec_inv_step k v1 v2 m a a' b s s' :
    vec_inv k v1 v2 a b s -> goes k v1 m s a a' s' -> vec_inv k v1 v2 a' b s'.
  Proof.
    intros [Hd Hg] Hs. destruct (vec_goes k v1 m s a a' s' Hs) as [H2 [H3 Hcase]].
    destruct Hcase as [[Ea [Ea' E]]|[[Ea [Ea' E]]|[N1 [N2 E]]]].
    - split.
      + intros _. unfold dmem. now rewrite E.
      + subst a'. intros Hx _. at_contra.
    - assert (dmem (npy_name k) (d_vectors s) = true) as Hm.
      { apply Hd. left. subst a. unfold at_least. lia. }
      specialize (E Hm). split.
      + intros _. unfold dmem. now rewrite E.
      + intros _ _. auto.
    - unfold vec_inv. rewrite E. split.
      + intros [Hx|Hx]; apply Hd; auto. destruct (H2 Hx) as [?|?]; [auto|congruence].
      + intros Hx Hy. apply Hg; auto. destruct (H3 Hx) as [?|?]; [auto|congruence].
  Qed.

  Lemma vec_inv_sym k v1 v2 a b s : vec_inv k v1 v2 a b s -> vec_inv k v2 v1 b a s.
  Proof. unfold vec_inv. tauto. Qed.

  Lemma meta_inv_step k m1 m2 v a a' b s s' :
    meta_inv k m1 m2 a b s -> goes k v m1 s a a' s' -> meta_inv k m1 m2 a' b s'.
  Proof.
    intros Hi Hs. pose proof (meta_goes k v m1 s a a' s' Hs) as Hg.
    unfold meta_inv in *. destruct m1 as [x1|].
    - destruct Hg as [H4 [H5 Hcase]]. destruct m2 as [x2|].
      + destruct Hi as [Hd Hgood].
        destruct Hcase as [[Ea [Ea' E]]|[[Ea [Ea' [E _]]]|[N1 [N2 E]]]].
        * split.
          -- intros _. unfold dmem. now rewrite E.
          -- subst a'. intros Hx _. at_contra.
        * assert (dmem (pkl_name k) (d_metadata s) = true) as Hm.
          { apply Hd. left. subst a. unfold at_least. lia. }
          specialize (E Hm). split.
          -- intros _. unfold dmem. now rewrite E.
          -- auto.
        * rewrite E. split.
          -- intros [Hx|Hx]; apply Hd; auto. destruct (H4 Hx) as [?|?]; [auto|congruence].
          -- intros Hx Hy. apply Hgood; auto. destruct (H5 Hx) as [?|?]; [auto|congruence].
      + intros Hx.
        destruct Hcase as [[Ea [Ea' E]]|[[Ea [Ea' [E1 E2]]]|[N1 [N2 E]]]].
        * subst a'. at_contra.
        * destruct (dmem (pkl_name k) (d_metadata s)); auto.
        * rewrite E. apply Hi. destruct (H5 Hx) as [?|?]; [auto|congruence].
    - destruct Hg as [Hk H5]. destruct m2 as [x2|].
      + intros Hy. destruct Hk as [-> | ->]; auto.
      + destruct Hk as [E|E]; [|auto]. rewrite E in *.
        intros [Hx|Hx]; auto. destruct (H5 Hx); auto.
  Qed.

  Lemma meta_inv_sym k m1 m2 a b s : meta_inv k m1 m2 a b s -> meta_inv k m2 m1 b a s.
  Proof. unfold meta_inv. destruct m1, m2; tauto. Qed.

  Lemma race_final id v1 v2 (m1 m2 : option Mt) sched s r1 r2 s' :
    id <> [] -> meta_pickle m1 -> meta_pickle m2 -> d_init s = true ->
    interleave sched (store_steps dirorder id v1 m1) (store_steps dirorder id v2 m2) s =
      (Return r1, Return r2, s') ->
    d_init s' = true /\
    (exists v, (v = v1 \/ v = v2) /\
       dget (npy_name (sanitize_id id)) (d_vectors s') = Some (FGood v)) /\
    (exists m, (m = m1 \/ m = m2) /\
       dget (pkl_name (sanitize_id id)) (d_metadata s') = option_map FGood m) /\
    (r1 = Ok true \/ m1 = None /\ r1 = Raise EStorage) /\
    (r2 = Ok true \/ m2 = None /\ r2 = Raise EStorage).
  Proof.
    intros Hn Hm1 Hm2 Hi Hrun. set (k := sanitize_id id) in *.
    destruct (run_two id id v1 v2 m1 m2 Hn Hn Hm1 Hm2 (race_inv k v1 v2 m1 m2)) with
      (sched := sched) (p := store_steps dirorder id v1 m1) (q := store_steps dirorder id v2 m2)
      (s := s) (a := P0) (b := P0) as [a' [b' [p' [q' [s1 [E [Hp [Hq [H1 [H2 H3]]]]]]]]]].
    - intros a b t Ht. apply Ht.
    - intros a a' b t t' [J1 [J2 J3]] Hg. split; [|split].
      + now rewrite (init_goes _ _ _ _ _ _ _ Hg).
      + eapply vec_inv_step; eauto.
      + eapply meta_inv_step; eauto.
    - intros a b b' t t' [J1 [J2 J3]] Hg. split; [|split].
      + now rewrite (init_goes _ _ _ _ _ _ _ Hg).
      + apply vec_inv_sym. eapply vec_inv_step; [apply vec_inv_sym; eauto|eauto].
      + apply meta_inv_sym. eapply meta_inv_step; [apply meta_inv_sym; eauto|eauto].
    - reflexivity.
    - reflexivity.
    - split; [exact Hi|]. unfold vec_inv, meta_inv, at_least.
      split; [split; intros; lia|]. destruct m1, m2; try split; intros; lia.
    - rewrite Hrun in E. injection E as <- <- <-.
      pose proof (rest_Return _ _ _ _ _ Hn Hm1 Hp) as ->.
      pose proof (rest_Return _ _ _ _ _ Hn Hm2 Hq) as ->.
      split; [exact H1|]. split; [|split; [|split]].
      + destruct H2 as [_ H2]. destruct H2 as [E|E]; unfold at_least; auto; eauto.
      + unfold meta_inv, at_least in H3. destruct m1 as [x1|], m2 as [x2|].
        * destruct H3 as [_ H3]. destruct H3 as [E|E]; auto.
          -- exists (Some x1). auto.
          -- exists (Some x2). auto.
        * destruct H3 as [E|E]; auto; [exists None|exists (Some x1)]; auto.
        * destruct H3 as [E|E]; auto; [exists None|exists (Some x2)]; auto.
        * exists None. split; auto.
      + destruct Hp as [r [E Hr]]. injection E as ->. exact Hr.
      + destruct Hq as [r [E Hr]]. injection E as ->. exact Hr.
  Qed.

  (** ** Two stores under different file names *)

  (** One store's own files, at each of its points. *)
  Definition own_inv (k : pystr) (v : V) (m : option Mt) (a : phase) (s : disk V Mt) : Prop :=
    (a = P2 -> dget (npy_name k) (d_vectors s) = Some FBad) /\
    (at_least 3 a -> dget (npy_name k) (d_vectors s) = Some (FGood v)) /\
    (a = P4 -> dmem (pkl_name k) (d_metadata s) = true) /\
    (at_least 5 a -> dget (pkl_name k) (d_metadata s) = option_map FGood m).

  Lemma goes_others k v m s a a' s' : goes k v m s a a' s' -> others k s s'.
  Proof.
    intros Hg. destruct Hg; try apply others_refl.
    - apply others_v. intros k' Hk. now rewrite dget_dset_other by now apply npy_other.
    - destruct (dmem _ _); [|apply others_refl].
      apply others_v. intros k' Hk. now rewrite dget_dset_other by now apply npy_other.
    - apply others_m. intros k' Hk. now rewrite dget_dset_other by now apply pkl_other.
    - destruct (dmem _ _); [|apply others_refl].
      apply others_m. intros k' Hk. now rewrite dget_dset_other by now apply pkl_other.
    - apply others_m. intros k' Hk. now rewrite dget_ddel_other by now apply pkl_other.
    - split; auto.
  Qed.

  Lemma own_inv_step k v m a a' s s' :
    own_inv k v m a s -> goes k v m s a a' s' -> own_inv k v m a' s' /\ (a = P4 -> a' <> P6).
  Proof.
    intros [H1 [H2 [H3 H4]]] Hg. unfold own_inv, at_least in *.
    assert (dmem (pkl_name k) (d_metadata s) = false -> dget (pkl_name k) (d_metadata s) = None)
      as Hf by apply dmem_false.
    destruct Hg as [| | |y E|E Em|E Em|y E|E Em|E Em|];
      (split; [repeat split; intros; try lia; try discriminate|intros; try discriminate]); simpl.
    - apply dget_dset_same.
    - unfold dmem. rewrite (H1 eq_refl). simpl. apply dget_dset_same.
    - apply H2. lia.
    - apply dmem_dset_same.
    - apply H2. lia.
    - auto.
    - apply H2. lia.
    - subst m. simpl. auto.
    - destruct (dmem _ _); apply H2; lia.
    - rewrite (H3 eq_refl). subst m. simpl. apply dget_dset_same.
    - apply H2. lia.
    - subst m. apply dget_ddel_same.
    - apply H2. lia.
    - subst m. simpl. auto.
    - intros _. rewrite H3 in Em; congruence.
    - apply H2. lia.
    - apply H4. lia.
  Qed.

  Lemma own_inv_others k k' v m a s s' :
    own_inv k v m a s -> others k' s s' -> k <> k' -> own_inv k v m a s'.
  Proof.
    intros Ho [_ Hs] Hk. destruct (Hs k Hk) as [E1 E2]. unfold own_inv, dmem in *.
    rewrite E1, E2. exact Ho.
  Qed.

  Lemma apart_final id1 id2 v1 v2 (m1 m2 : option Mt) sched s r1 r2 s' :
    id1 <> [] -> id2 <> [] -> sanitize_id id1 <> sanitize_id id2 ->
    meta_pickle m1 -> meta_pickle m2 -> d_init s = true ->
    interleave sched (store_steps dirorder id1 v1 m1) (store_steps dirorder id2 v2 m2) s =
      (Return r1, Return r2, s') ->
    d_init s' = true /\
    own_inv (sanitize_id id1) v1 m1 P6 s' /\ own_inv (sanitize_id id2) v2 m2 P6 s'.
  Proof.
    intros Hn1 Hn2 Hk Hm1 Hm2 Hi Hrun.
    destruct (run_two id1 id2 v1 v2 m1 m2 Hn1 Hn2 Hm1 Hm2
      (fun a b t => d_init t = true /\ own_inv (sanitize_id id1) v1 m1 a t /\
                    own_inv (sanitize_id id2) v2 m2 b t)) with
      (sched := sched) (p := store_steps dirorder id1 v1 m1) (q := store_steps dirorder id2 v2 m2)
      (s := s) (a := P0) (b := P0) as [a' [b' [p' [q' [s1 [E [Hp [Hq H1]]]]]]]].
    - intros a b t Ht. apply Ht.
    - intros a a' b t t' [J1 [J2 J3]] Hg. split; [|split].
      + now rewrite (init_goes _ _ _ _ _ _ _ Hg).
      + eapply own_inv_step; eauto.
      + eapply own_inv_others; eauto using goes_others.
    - intros a b b' t t' [J1 [J2 J3]] Hg. split; [|split].
      + now rewrite (init_goes _ _ _ _ _ _ _ Hg).
      + eapply own_inv_others; eauto using goes_others.
      + eapply own_inv_step; eauto.
    - reflexivity.
    - reflexivity.
    - split; [exact Hi|]. unfold own_inv, at_least.
      split; repeat split; intros; try lia; discriminate.
    - rewrite Hrun in E. injection E as <- <- <-.
      pose proof (rest_Return _ _ _ _ _ Hn1 Hm1 Hp) as ->.
      pose proof (rest_Return _ _ _ _ _ Hn2 Hm2 Hq) as ->. exact H1.
  Qed.
End Race.

(** ** C14 *)

(** Two stores under one id, in any interleaving of their file-system steps: the final vector is
    one of the two, the final metadata is one of the two, the record is readable, and every id
    with another file-safe form reads as before.  Missing: that the pair is one of the two pairs
    (refuted below). *)
Theorem C14_final_record_partial :
  forall (V Mt : Type) `{Payload V Mt} `{Unicode} (dirorder : list pystr -> list pystr)
         (id : pystr) (v1 v2 : V) (m1 m2 : option Mt) (sched : list bool)
         (s s' : disk V Mt) (r1 r2 : result bool),
  id <> [] -> meta_pickle m1 -> meta_pickle m2 -> d_init s = true ->
  interleave sched (store_steps dirorder id v1 m1) (store_steps dirorder id v2 m2) s =
    (Return r1, Return r2, s') ->
  (exists v m, (v = v1 \/ v = v2) /\ (m = m1 \/ m = m2) /\
     forall j t, file_safe isalnum id t -> file_safe isalnum j t ->
       read (disk_class dirorder) s' j = Ok (Some (v, m))) /\
  (forall j, (forall t, file_safe isalnum id t -> ~ file_safe isalnum j t) ->
     read (disk_class dirorder) s' j = read (disk_class dirorder) s j) /\
  (r1 = Ok true \/ m1 = None /\ r1 = Raise EStorage) /\
  (r2 = Ok true \/ m2 = None /\ r2 = Raise EStorage).
Proof.
  intros V Mt HP HU dirorder id v1 v2 m1 m2 sched s s' r1 r2 Hn Hm1 Hm2 Hi Hrun.
  destruct (race_final dirorder id v1 v2 m1 m2 sched s r1 r2 s' Hn Hm1 Hm2 Hi Hrun)
    as [Hi' [[v [Hv Ev]] [[m [Hm Em]] [Hr1 Hr2]]]].
  split; [|split; [|split; assumption]].
  - exists v, m. split; [exact Hv|]. split; [exact Hm|]. intros j t H1 H2.
    apply file_safe_sanitize in H1. apply file_safe_sanitize in H2.
    unfold read. simpl. unfold disk_retrieve, bind, get, wrap. rewrite Hi'. simpl.
    rewrite <- H2, H1, Ev, Em. destruct m; reflexivity.
  - intros j Hj.
    pose proof (frame_interleave _ (others_refl (sanitize_id id)) (others_trans (sanitize_id id))
      sched _ _ s (frame_store dirorder id v1 m1) (frame_store dirorder id v2 m2)) as Ho.
    rewrite Hrun in Ho. simpl in Ho. destruct Ho as [_ Ho].
    assert (sanitize_id j <> sanitize_id id) as Hne.
    { intros E. apply (Hj (sanitize_id id)); [|rewrite <- E]; apply sanitize_file_safe. }
    destruct (Ho _ Hne) as [E1 E2].
    unfold read. simpl. unfold disk_retrieve, bind, get, wrap. rewrite Hi', Hi. simpl.
    rewrite E1, E2. clear. destruct (dget (npy_name _) _) as [[x|]|]; try reflexivity.
    destruct (dget (pkl_name _) _) as [[y|]|]; reflexivity.
Qed.

(** The final record can be the vector of one call with the metadata of the other; both calls
    report success. *)
Theorem C14_refuted :
  exists (sched : list bool) (s : disk (list Z) Z),
    let v1 := [1%Z] in let v2 := [2%Z] in
    exists s',
      s = after (disk_class demo_order) (disk_new [] []) [OInit] /\
      interleave sched (store_steps demo_order (py "a") v1 (Some 7%Z))
                       (store_steps demo_order (py "a") v2 (Some 8%Z)) s =
        (Return (Ok true), Return (Ok true), s') /\
      read (disk_class demo_order) s' (py "a") = Ok (Some (v2, Some 7%Z)).
Proof.
  exists [true; true; true; false; false; false; false; false; false; true; true; true],
    (after (disk_class demo_order) (disk_new [] []) [OInit]). simpl.
  eexists. split; [reflexivity|]. split; vm_compute; reflexivity.
Qed.

(** Two stores without metadata over a record with metadata: one of them fails, although either
    of them alone succeeds. *)
Theorem C14_spurious_error_refuted :
  exists (sched : list bool) (s : disk (list Z) Z) s',
    s = after (disk_class demo_order) (disk_new [] []) [OInit; OStore (py "a") [0%Z] (Some 7%Z)] /\
    interleave sched (store_steps demo_order (py "a") [1%Z] None)
                     (store_steps demo_order (py "a") [2%Z] None) s =
      (Return (Ok true), Return (Raise EStorage), s') /\
    read (disk_class demo_order) s' (py "a") = Ok (Some ([2%Z], None)).
Proof.
  exists [true; true; true; true; false; false; false; false; true; false; true],
    (after (disk_class demo_order) (disk_new [] []) [OInit; OStore (py "a") [0%Z] (Some 7%Z)]).
  eexists. split; [reflexivity|]. split; vm_compute; reflexivity.
Qed.

(** Two stores under ids with different file-safe forms do not disturb each other, whatever the
    interleaving. *)
Theorem C14_different_ids :
  forall (V Mt : Type) `{Payload V Mt} `{Unicode} (dirorder : list pystr -> list pystr)
         (id1 id2 : pystr) (v1 v2 : V) (m1 m2 : option Mt) (sched : list bool)
         (s s' : disk V Mt) (r1 r2 : result bool),
  id1 <> [] -> id2 <> [] -> (forall t, file_safe isalnum id1 t -> ~ file_safe isalnum id2 t) ->
  meta_pickle m1 -> meta_pickle m2 -> d_init s = true ->
  interleave sched (store_steps dirorder id1 v1 m1) (store_steps dirorder id2 v2 m2) s =
    (Return r1, Return r2, s') ->
  read (disk_class dirorder) s' id1 = Ok (Some (v1, m1)) /\
  read (disk_class dirorder) s' id2 = Ok (Some (v2, m2)).
Proof.
  intros V Mt HP HU dirorder id1 id2 v1 v2 m1 m2 sched s s' r1 r2 Hn1 Hn2 Hd Hm1 Hm2 Hi Hrun.
  assert (sanitize_id id1 <> sanitize_id id2) as Hk.
  { intros E. apply (Hd (sanitize_id id1)); [|rewrite E]; apply sanitize_file_safe. }
  destruct (apart_final dirorder id1 id2 v1 v2 m1 m2 sched s r1 r2 s' Hn1 Hn2 Hk Hm1 Hm2 Hi Hrun)
    as [Hi' [[_ [A1 [_ A2]]] [_ [B1 [_ B2]]]]].
  unfold read. simpl. unfold disk_retrieve, bind, get, wrap. rewrite Hi'. simpl.
  rewrite A1, A2, B1, B2 by (unfold at_least; lia).
  split; [destruct m1|destruct m2]; reflexivity.
Qed.

(** The steps of a store, run without interruption, are the store of the sequential model. *)
Theorem C14_steps_are_the_call :
  forall (V Mt : Type) `{Payload V Mt} `{Unicode} (dirorder : list pystr -> list pystr)
         (id : pystr) (v : V) (m : option Mt) (s : disk V Mt),
  finish (store_steps dirorder id v m) s = disk_store dirorder id v m s /\
  finish (update_steps id v m) s = disk_update id v m s /\
  finish (delete_steps dirorder id) s = disk_delete dirorder id s.
Proof. intros; auto using finish_store, finish_update, finish_delete. Qed.

Example C14_case :
  let s := after (disk_class demo_order) (disk_new [] []) [OInit; OStore (py "a") [0%Z] (Some 7%Z)] in
  let sched := [true; false; true; false; true; false; true; false; true; false; true; false;
                true; false] in
  d_init s = true /\
  (exists s', interleave sched (store_steps demo_order (py "a") [1%Z] None)
                (store_steps demo_order (py "a") [2%Z] (Some 3%Z)) s =
              (Return (Ok true), Return (Ok true), s') /\
     read (disk_class demo_order) s' (py "a") = Ok (Some ([2%Z], None))) /\
  (exists s', interleave sched (store_steps demo_order (py "a") [1%Z] None)
                (store_steps demo_order (py "b") [2%Z] (Some 3%Z)) s =
              (Return (Ok true), Return (Ok true), s')).
Proof.
  split; [reflexivity|]. split.
  - eexists. split; vm_compute; reflexivity.
  - eexists. vm_compute. reflexivity.
Qed.

Print Assumptions C14_final_record_partial.
Print Assumptions C14_refuted.
Print Assumptions C14_spurious_error_refuted.
Print Assumptions C14_different_ids.
Print Assumptions C14_steps_are_the_call.
