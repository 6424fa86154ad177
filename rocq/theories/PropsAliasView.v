(** Property C166: the in-memory backend over shared Python objects behaves as the backend over
    values, as long as no caller changes a metadata dictionary it received. *)

From Coq Require Import List Arith ZArith NArith Lia Bool.
From Coq Require String.
Import (notations) Coq.Strings.String.
From Verif Require Import PyBase BaseLemmas PyMore Payload StorageModel StorageSpec StorageRun StorageProofs
  StorageThms AliasModel PropsAlias.
Import ListNotations.

(** ** What a caller sees *)

(** The contents of an object. *)
Definition deref (h : list pyobj) (a : nat) : pyobj :=
  match nth_error h a with Some o => o | None => PArr [] end.

(** A call of the backend, with the present contents of the objects passed. *)
Definition call (w : world) (e : happening) : option (sop pyobj pyobj) :=
  let d := deref (h_heap (w_sh w)) in
  match e with
  | HInit => Some OInit
  | HClose => Some OClose
  | HStore id v m => Some (OStore id (d v) (option_map d m))
  | HUpdate id v m => Some (OUpdate id (d v) (option_map d m))
  | HRetrieve id => Some (ORetrieve id)
  | HDelete id => Some (ODelete id)
  | HNew _ | HWrite _ _ => None
  end.

(** Its answer, with the contents of the objects received, read when they are received. *)
Definition answer (w : world) (e : happening) : sret pyobj pyobj :=
  let s := w_sh w in
  match e with
  | HInit => fst (obs (fun _ => RUnit) (sh_initialize s))
  | HClose => fst (obs (fun _ => RUnit) (sh_close s))
  | HStore id v m => fst (obs RBool (sh_store id v m s))
  | HUpdate id v m => fst (obs RBool (sh_update id v m s))
  | HRetrieve id =>
      let (r, s') := sh_retrieve id s in
      let d := deref (h_heap s') in
      fst (obs (fun x => RRec (option_map (fun '(v, m) => (d v, option_map d m)) x)) (r, s'))
  | HDelete id => fst (obs RBool (sh_delete id s))
  | HNew _ | HWrite _ _ => RUnit
  end.

(** The calls of a program, and their replies. *)
Fixpoint calls (w : world) (es : list happening) : list (sop pyobj pyobj) :=
  match es with
  | [] => []
  | e :: r => match call w e with Some o => [o] | None => [] end ++ calls (happens e w) r
  end.
Fixpoint replies (w : world) (es : list happening) : list (sret pyobj pyobj) :=
  match es with
  | [] => []
  | e :: r => match call w e with Some _ => [answer w e] | None => [] end ++ replies (happens e w) r
  end.

Section View.
  Context `{Payload pyobj pyobj} `{Unicode} (Hcopy : forall o : pyobj, copyable o = true).

  (** The records with their contents. *)
  Definition view (s : shared) : mem pyobj pyobj :=
    let vs := dmap (deref (h_heap s)) (h_vectors s) in
    let ms := dmap (deref (h_heap s)) (h_metadata s) in
    MkMem vs ms (Z.of_nat (length vs)) (mem_bytes (MkMem vs ms 0 0 true)) (AliasModel.h_init s).

  (** Stored addresses exist; no id twice. *)
  Record fine (s : shared) : Prop := {
    f_vnd : NoDup (dkeys (AliasModel.h_vectors s));
    f_mnd : NoDup (dkeys (AliasModel.h_metadata s));
    f_vec : forall id a, In (id, a) (AliasModel.h_vectors s) -> a < length (h_heap s);
    f_meta : forall id a, In (id, a) (AliasModel.h_metadata s) -> a < length (h_heap s)
  }.

  Lemma inv_fine w t : inv w t -> NoDup (dkeys (AliasModel.h_vectors (w_sh w))) ->
    NoDup (dkeys (AliasModel.h_metadata (w_sh w))) -> fine (w_sh w).
  Proof.
    intros HI N1 N2. constructor; auto; intros id a Hin.
    - apply In_dget in Hin; auto. destruct (i_vec w t HI id a Hin) as (_ & _ & _ & o & mm & E & _).
      unfold contents in E. apply nth_error_Some. congruence.
    - apply In_dget in Hin; auto. apply (i_meta w t HI id a Hin).
  Qed.

  Lemma deref_app h h' a : a < length h -> deref (h ++ h') a = deref h a.
  Proof. intros Ha. unfold deref. now rewrite nth_error_app1. Qed.

  Lemma deref_new h o h' : deref (h ++ o :: h') (length h) = o.
  Proof. unfold deref. rewrite nth_error_app2 by lia. now rewrite Nat.sub_diag. Qed.

  Lemma dmap_ext {A B} (f g : A -> B) (d : dict pystr A) :
    (forall id a, In (id, a) d -> f a = g a) -> dmap f d = dmap g d.
  Proof.
    intros E. unfold dmap. apply map_ext_in. intros [id a] Hin. cbn. now rewrite (E id a Hin).
  Qed.

  Lemma dmap_grow (s : shared) h' : fine s ->
    dmap (deref (h_heap s ++ h')) (AliasModel.h_vectors s) = dmap (deref (h_heap s)) (AliasModel.h_vectors s) /\
    dmap (deref (h_heap s ++ h')) (AliasModel.h_metadata s) = dmap (deref (h_heap s)) (AliasModel.h_metadata s).
  Proof.
    intros Fi. split; apply dmap_ext; intros id a Hin; apply deref_app.
    - exact (f_vec s Fi id a Hin).
    - exact (f_meta s Fi id a Hin).
  Qed.

  Lemma view_grow s h' : fine s ->
    view (MkSh (h_heap s ++ h') (AliasModel.h_vectors s) (AliasModel.h_metadata s) (AliasModel.h_init s)) = view s.
  Proof.
    intros Fi. unfold view. cbn [h_heap AliasModel.h_vectors AliasModel.h_metadata AliasModel.h_init].
    destruct (dmap_grow s h' Fi) as [-> ->]. reflexivity.
  Qed.

  (** The two writes of a record. *)
  Lemma write_view s id v m o x : fine s ->
    nth_error (h_heap s) v = Some o ->
    match m with Some a => exists y, nth_error (h_heap s) a = Some y /\ x = Some y | None => x = None end ->
    exists s', sh_write id v m s = (Ok tt, s') /\ AliasModel.h_init s' = AliasModel.h_init s /\
      dmap (deref (h_heap s')) (AliasModel.h_vectors s') = dset id o (dmap (deref (h_heap s)) (AliasModel.h_vectors s)) /\
      dmap (deref (h_heap s')) (AliasModel.h_metadata s') =
        match x with
        | Some y => dset id y (dmap (deref (h_heap s)) (AliasModel.h_metadata s))
        | None => ddel id (dmap (deref (h_heap s)) (AliasModel.h_metadata s))
        end.
  Proof.
    intros Fi Ev Em. unfold sh_write, bind. rewrite (copy_there _ _ _ Ev).
    unfold modify. cbn [h_heap AliasModel.h_vectors AliasModel.h_metadata AliasModel.h_init].
    destruct m as [a|].
    - destruct Em as (y & Ea & ->). unfold copy_obj, bind, get, set_h_vectors, set_h_metadata.
      cbn [h_heap AliasModel.h_vectors AliasModel.h_metadata AliasModel.h_init]. rewrite nth_error_app1 by (apply nth_error_Some; congruence). rewrite Ea.
      unfold alloc, bind, get, modify, ret. cbn [h_heap AliasModel.h_vectors AliasModel.h_metadata AliasModel.h_init].
      eexists. split; [reflexivity|]. cbn [set_h_metadata h_heap AliasModel.h_vectors AliasModel.h_metadata AliasModel.h_init].
      split; [reflexivity|]. rewrite <- app_assoc. cbn [app].
      destruct (dmap_grow s [o; y] Fi) as [E1 E2]. rewrite <- !dset_dmap, E1, E2. split.
      + f_equal. apply deref_new.
      + f_equal. replace (length (h_heap s ++ [o])) with (length ((h_heap s) ++ [o])) by reflexivity.
        change [o; y] with ([o] ++ [y]). rewrite app_assoc. apply deref_new.
    - subst x. unfold set_h_vectors, set_h_metadata. eexists. split; [reflexivity|].
      cbn [set_h_metadata h_heap AliasModel.h_vectors AliasModel.h_metadata AliasModel.h_init].
      split; [reflexivity|]. destruct (dmap_grow s [o] Fi) as [E1 E2].
      rewrite <- dset_dmap, <- ddel_dmap, E1, E2. split; [|reflexivity]. f_equal. apply deref_new.
  Qed.

  Lemma length_dset_in {A} k (v : A) (d : dict pystr A) : dmem k d = true -> length (dset k v d) = length d.
  Proof.
    intros Hk. apply dmem_In in Hk. pose proof (dkeys_dset_in k v d Hk) as E.
    apply (f_equal (@length _)) in E. unfold dkeys in E. now rewrite !map_length in E.
  Qed.

  Lemma sh_store_eq c id v m s : sh_store (c :: id) v m s =
    if AliasModel.h_init s
    then match sh_write (c :: id) v m s with (Ok _, s') => (Ok true, s') | (Raise _, s') => (Raise EStorage, s') end
    else (Raise EStorage, s).
  Proof.
    unfold sh_store, bind, get. destruct (AliasModel.h_init s); [|reflexivity]. cbn [negb]. unfold wrap.
    destruct (sh_write (c :: id) v m s) as [[]]; reflexivity.
  Qed.

  Lemma sh_update_eq id v m s : sh_update id v m s =
    if AliasModel.h_init s
    then if dmem id (AliasModel.h_vectors s)
         then match sh_write id v m s with (Ok _, s') => (Ok true, s') | (Raise _, s') => (Raise EStorage, s') end
         else (Ok false, s)
    else (Raise EStorage, s).
  Proof.
    unfold sh_update, bind, get. destruct (AliasModel.h_init s); [|reflexivity]. cbn [negb].
    destruct (dmem _ _); [|reflexivity]. unfold wrap. destruct (sh_write id v m s) as [[]]; reflexivity.
  Qed.

  Definition put_meta (id : pystr) (x : option pyobj) (d : dict pystr pyobj) : dict pystr pyobj :=
    match x with Some y => dset id y d | None => ddel id d end.

  Lemma mem_store_eq c id o x s : mem_store (c :: id) o x (view s) =
    if AliasModel.h_init s
    then let vs := dset (c :: id) o (dmap (deref (h_heap s)) (AliasModel.h_vectors s)) in
         let ms := put_meta (c :: id) x (dmap (deref (h_heap s)) (AliasModel.h_metadata s)) in
         (Ok true, MkMem vs ms (Z.of_nat (length vs)) (mem_bytes (MkMem vs ms 0 0 true)) true)
    else (Raise EStorage, view s).
  Proof.
    unfold mem_store, bind at 1, get. unfold view. cbn [m_init]. destruct (AliasModel.h_init s) eqn:Ei; [|reflexivity]. cbn [negb].
    unfold wrap, bind, mem_write_vec, mem_write_meta, mem_set_count, mem_set_usage, modify.
    destruct x as [y|]; [rewrite Hcopy|]; reflexivity.
  Qed.

  Lemma mem_update_eq id o x s : mem_update id o x (view s) =
    if AliasModel.h_init s
    then if dmem id (AliasModel.h_vectors s)
         then let vs := dset id o (dmap (deref (h_heap s)) (AliasModel.h_vectors s)) in
              let ms := put_meta id x (dmap (deref (h_heap s)) (AliasModel.h_metadata s)) in
              (Ok true, MkMem vs ms (Z.of_nat (length (dmap (deref (h_heap s)) (AliasModel.h_vectors s))))
                          (mem_bytes (MkMem vs ms 0 0 true)) true)
         else (Ok false, view s)
    else (Raise EStorage, view s).
  Proof.
    unfold mem_update, bind at 1, get. unfold view. cbn [m_init]. destruct (AliasModel.h_init s) eqn:Ei; [|reflexivity]. cbn [negb].
    cbn [m_vectors]. rewrite dmem_dmap. destruct (dmem _ _); [|reflexivity]. cbn [negb].
    unfold wrap, bind, mem_write_vec, mem_write_meta, mem_set_usage, modify.
    destruct x as [y|]; [rewrite Hcopy|]; reflexivity.
  Qed.

  Lemma sh_retrieve_eq id s : sh_retrieve id s =
    if AliasModel.h_init s
    then match dget id (AliasModel.h_vectors s) with
         | None => (Ok None, s)
         | Some b =>
             match nth_error (h_heap s) b with
             | Some o => (Ok (Some (length (h_heap s), dget id (AliasModel.h_metadata s))),
                          MkSh (h_heap s ++ [o]) (AliasModel.h_vectors s) (AliasModel.h_metadata s) true)
             | None => (Raise EAttr, s)
             end
         end
    else (Raise EStorage, s).
  Proof.
    unfold sh_retrieve, bind, get, copy_obj, bind, get. destruct (AliasModel.h_init s) eqn:Ei; [|reflexivity].
    cbn [negb]. destruct (dget id (AliasModel.h_vectors s)) as [b|]; [|reflexivity].
    destruct (nth_error (h_heap s) b); [|reflexivity]. unfold alloc, bind, get, modify, ret. now rewrite Ei.
  Qed.

  Lemma sh_delete_eq id s : sh_delete id s =
    if AliasModel.h_init s
    then if dmem id (AliasModel.h_vectors s)
         then (Ok true, MkSh (h_heap s) (ddel id (AliasModel.h_vectors s)) (ddel id (AliasModel.h_metadata s)) true)
         else (Ok false, s)
    else (Raise EStorage, s).
  Proof.
    unfold sh_delete, bind, get, modify, ret. destruct (AliasModel.h_init s) eqn:Ei; [|reflexivity].
    cbn [negb]. destruct (dmem _ _); [|reflexivity]. unfold set_h_vectors, set_h_metadata. cbn. now rewrite Ei.
  Qed.

  Lemma mem_delete_eq id s : mem_delete id (view s) =
    if AliasModel.h_init s
    then if dmem id (AliasModel.h_vectors s)
         then let vs := ddel id (dmap (deref (h_heap s)) (AliasModel.h_vectors s)) in
              let ms := ddel id (dmap (deref (h_heap s)) (AliasModel.h_metadata s)) in
              (Ok true, MkMem vs ms (Z.of_nat (length vs)) (mem_bytes (MkMem vs ms 0 0 true)) true)
         else (Ok false, view s)
    else (Raise EStorage, view s).
  Proof.
    unfold mem_delete, bind at 1, get. unfold view. cbn [m_init]. destruct (AliasModel.h_init s) eqn:Ei; [|reflexivity].
    cbn [negb m_vectors]. rewrite dmem_dmap. destruct (dmem _ _); [|reflexivity].
    unfold wrap, bind, mem_set_count, mem_set_usage, modify. reflexivity.
  Qed.

  Lemma mem_retrieve_eq id s : mem_retrieve id (view s) =
    if AliasModel.h_init s
    then (Ok (option_map (fun b => (deref (h_heap s) b,
                                    option_map (deref (h_heap s)) (dget id (AliasModel.h_metadata s))))
                (dget id (AliasModel.h_vectors s))), view s)
    else (Raise EStorage, view s).
  Proof.
    unfold mem_retrieve, bind, get. unfold view. cbn [m_init]. destruct (AliasModel.h_init s) eqn:Ei; [|reflexivity].
    cbn [negb m_vectors m_metadata]. rewrite !dget_dmap. destruct (dget id (AliasModel.h_vectors s)); reflexivity.
  Qed.

  (** One call. *)
  Lemma step_view w t e : inv w t -> fine (w_sh w) -> possible w e -> polite w e ->
    match call w e with
    | Some o => sc_step mem_class (view (w_sh w)) o = (answer w e, view (w_sh (happens e w)))
    | None => view (w_sh (happens e w)) = view (w_sh w)
    end.
  Proof.
    intros HI Fi Hp Hq. destruct e as [| |id v m|id v m|id|id|o|a o]; cbn [call].
    - reflexivity.
    - reflexivity.
    - destruct Hp as [Hv Hm]. apply (reach_inv w t v HI) in Hv as [Hv _].
      destruct (nth_error_some _ _ Hv) as [o Eo].
      assert (Em : match m with
                   | Some a => exists y, nth_error (h_heap (w_sh w)) a = Some y /\
                                 option_map (deref (h_heap (w_sh w))) m = Some y
                   | None => option_map (deref (h_heap (w_sh w))) m = None end).
      { destruct m as [a|]; [|reflexivity]. destruct (reach_inv w t a HI (Hm a eq_refl)) as [Ha _].
        destruct (nth_error_some _ _ Ha) as [y Ey]. exists y. split; auto. cbn. unfold deref. now rewrite Ey. }
      cbn [sc_step mem_class sc_store answer happens w_sh].
      assert (Ed : deref (h_heap (w_sh w)) v = o) by (unfold deref; now rewrite Eo). rewrite Ed.
      destruct id as [|c id]; [reflexivity|]. rewrite sh_store_eq, mem_store_eq.
      destruct (AliasModel.h_init (w_sh w)) eqn:Ei; [|reflexivity].
      destruct (write_view (w_sh w) (c :: id) v m o _ Fi Eo Em) as (s' & Ew & E1 & E2 & E3).
      rewrite Ew. cbn [obs fst snd]. unfold view. rewrite E1, Ei, E2, E3. reflexivity.
    - destruct Hp as [Hv Hm]. apply (reach_inv w t v HI) in Hv as [Hv _].
      destruct (nth_error_some _ _ Hv) as [o Eo].
      assert (Em : match m with
                   | Some a => exists y, nth_error (h_heap (w_sh w)) a = Some y /\
                                 option_map (deref (h_heap (w_sh w))) m = Some y
                   | None => option_map (deref (h_heap (w_sh w))) m = None end).
      { destruct m as [a|]; [|reflexivity]. destruct (reach_inv w t a HI (Hm a eq_refl)) as [Ha _].
        destruct (nth_error_some _ _ Ha) as [y Ey]. exists y. split; auto. cbn. unfold deref. now rewrite Ey. }
      cbn [sc_step mem_class sc_update answer happens w_sh].
      assert (Ed : deref (h_heap (w_sh w)) v = o) by (unfold deref; now rewrite Eo). rewrite Ed.
      rewrite sh_update_eq, mem_update_eq.
      destruct (AliasModel.h_init (w_sh w)) eqn:Ei; [|reflexivity].
      destruct (dmem id (AliasModel.h_vectors (w_sh w))) eqn:Ek; [|reflexivity].
      destruct (write_view (w_sh w) id v m o _ Fi Eo Em) as (s' & Ew & E1 & E2 & E3).
      rewrite Ew. cbn [obs fst snd]. unfold view. rewrite E1, Ei, E2, E3.
      rewrite (length_dset_in id o) by now rewrite dmem_dmap. reflexivity.
    - cbn [sc_step mem_class sc_retrieve answer happens]. rewrite sh_retrieve_eq, mem_retrieve_eq.
      destruct (AliasModel.h_init (w_sh w)) eqn:Ei; [|reflexivity].
      destruct (dget id (AliasModel.h_vectors (w_sh w))) as [b|] eqn:Eb; [|reflexivity].
      apply dget_Some_In in Eb. destruct (nth_error_some _ _ (f_vec _ Fi id b Eb)) as [o Eo]. rewrite Eo.
      cbn [obs fst h_heap option_map].
      assert (Ed : deref (h_heap (w_sh w)) b = o) by (unfold deref; now rewrite Eo). rewrite Ed, deref_new.
      pose proof (view_grow _ [o] Fi) as Eg. rewrite Ei in Eg.
      destruct (dget id (AliasModel.h_metadata (w_sh w))) as [mm|] eqn:Emm; cbn [w_sh option_map]; rewrite Eg;
        [|reflexivity].
      apply dget_Some_In in Emm. now rewrite (deref_app _ [o] mm (f_meta _ Fi id mm Emm)).
    - cbn [sc_step mem_class sc_delete answer happens w_sh]. rewrite sh_delete_eq, mem_delete_eq.
      destruct (AliasModel.h_init (w_sh w)) eqn:Ei; [|reflexivity].
      destruct (dmem id (AliasModel.h_vectors (w_sh w))) eqn:Ek; [|reflexivity].
      cbn [obs fst snd]. unfold view. cbn [h_heap AliasModel.h_vectors AliasModel.h_metadata AliasModel.h_init].
      rewrite <- !ddel_dmap. reflexivity.
    - cbn [happens w_sh]. unfold alloc, bind, get, modify, ret. cbn [snd]. now apply view_grow.
    - cbn [happens w_sh]. destruct Hp as [Ha Ho]. destruct (reach_inv w t a HI Ha) as (R1 & R2 & R3).
      unfold view. cbn [h_heap AliasModel.h_vectors AliasModel.h_metadata AliasModel.h_init].
      assert (Hd : forall b, b <> a -> deref (set_nth a o (h_heap (w_sh w))) b = deref (h_heap (w_sh w)) b).
      { intros b Hb. unfold deref. rewrite nth_error_set_nth. destruct (Nat.eqb_spec a b); [congruence|reflexivity]. }
      rewrite (dmap_ext (deref (set_nth a o (h_heap (w_sh w)))) (deref (h_heap (w_sh w))) (AliasModel.h_vectors (w_sh w))).
      2:{ intros id b Hin. apply Hd. intros ->. apply (R2 id). apply In_dget; auto. apply Fi. }
      rewrite (dmap_ext (deref (set_nth a o (h_heap (w_sh w)))) (deref (h_heap (w_sh w))) (AliasModel.h_metadata (w_sh w))).
      2:{ intros id b Hin. apply Hd. intros ->. apply Hq. apply (R3 id). apply In_dget; auto. apply Fi. }
      reflexivity.
  Qed.

  Definition nodups (s : shared) : Prop :=
    NoDup (dkeys (AliasModel.h_vectors s)) /\ NoDup (dkeys (AliasModel.h_metadata s)).

  Lemma step_nodups w e : nodups (w_sh w) -> nodups (w_sh (happens e w)).
  Proof.
    intros [N1 N2].
    assert (Hw : forall id v m s r s', nodups s -> sh_write id v m s = (r, s') -> nodups s').
    { intros id v m s r s' [K1 K2]. unfold sh_write, bind, copy_obj, bind, get.
      destruct (nth_error (h_heap s) v) as [o|]; [|intros [= <- <-]; split; auto].
      unfold alloc, bind, get, modify, ret. destruct m as [a|].
      - cbn. destruct (nth_error _ a) as [x|]; intros [= <- <-]; split; cbn; auto; try apply NoDup_dkeys_dset; auto.
      - intros [= <- <-]. split; cbn; [apply NoDup_dkeys_dset | apply NoDup_dkeys_ddel]; auto. }
    destruct e as [| |id v m|id v m|id|id|o|a o]; cbn [happens w_sh].
    - split; constructor.
    - split; constructor.
    - unfold sh_store. destruct id as [|c id]; [split; auto|]. unfold bind at 1, get.
      destruct (negb _); [split; auto|]. unfold wrap, bind.
      destruct (sh_write (c :: id) v m (w_sh w)) as [[[]|x] s'] eqn:E; cbn; eapply Hw; eauto; split; auto.
    - unfold sh_update, bind at 1, get. destruct (negb _); [split; auto|].
      destruct (dmem _ _); [|split; auto]. unfold wrap, bind.
      destruct (sh_write id v m (w_sh w)) as [[[]|x] s'] eqn:E; cbn; eapply Hw; eauto; split; auto.
    - unfold sh_retrieve, bind at 1, get. destruct (negb _); [split; auto|].
      destruct (dget id (AliasModel.h_vectors (w_sh w))) as [b|]; [|split; auto].
      unfold bind, copy_obj, bind, get. destruct (nth_error (h_heap (w_sh w)) b); [|split; auto].
      unfold alloc, bind, get, modify, ret. cbn. destruct (dget id (AliasModel.h_metadata (w_sh w))); split; auto.
    - unfold sh_delete, bind, get, modify, ret. destruct (negb _); [split; auto|].
      destruct (dmem _ _); split; cbn; auto; apply NoDup_dkeys_ddel; auto.
    - split; auto.
    - split; auto.
  Qed.

  Lemma run_view es : forall w t, inv w t -> nodups (w_sh w) -> possible_all w es -> polite_all w es ->
    sc_run mem_class (view (w_sh w)) (calls w es) = (replies w es, view (w_sh (happen_all es w))).
  Proof.
    induction es as [|e es IH]; intros w t HI HN Hp Hq; [reflexivity|].
    destruct Hp as [Hp Hps]. destruct Hq as [Hq Hqs].
    pose proof (step_view w t e HI (inv_fine w t HI (proj1 HN) (proj2 HN)) Hp Hq) as Hs.
    specialize (IH _ _ (proj1 (step_inv w t e HI Hp)) (step_nodups w e HN) Hps Hqs).
    cbn [calls replies]. change (happen_all (e :: es) w) with (happen_all es (happens e w)).
    destruct (call w e) as [o|]; cbn [app].
    - cbn [sc_run]. rewrite Hs, IH. reflexivity.
    - rewrite <- Hs, IH. reflexivity.
  Qed.

  (** C166: whatever programs do with their own arrays, lists and dictionaries, before and after
      handing them over: as long as they leave the dictionaries received from [retrieve_vector]
      alone, every call answers, with contents read at the call, what one list of records of
      the contents passed answers.  The contents of a dictionary are its entries; a list in it is
      the same list everywhere (C03_nested_metadata_refuted). *)
  Theorem C166_contents_partial es : possible_all world0 es -> polite_all world0 es ->
    conforms false true (Some rec_size) (fun i => i) (MkS false []) (calls world0 es) (replies world0 es).
  Proof.
    intros Hp Hq.
    pose proof (run_view es world0 account0 inv0 (conj (NoDup_nil _) (NoDup_nil _)) Hp Hq) as E.
    change (view (w_sh world0)) with (@mem_new pyobj pyobj) in E.
    replace (replies world0 es) with (fst (sc_run mem_class mem_new (calls world0 es))) by now rewrite E.
    apply mem_conforms. apply Forall_forall. intros o _. destruct o as [|? ? [?|]| | |? ? [?|]| | | |]; cbn; auto.
  Qed.
End View.

(** A payload in which every object has a [copy] method and no size. *)
Definition bare_payload : Payload pyobj pyobj :=
  {| nbytes := fun _ => 0%N; strbytes := fun _ => 0%N; copyable := fun _ => true; picklable := fun _ => true |}.
Local Existing Instance bare_payload.

(** The caller changes the array and the dictionary it passed and the array it received, then reads
    again, updates, and deletes. *)
Definition demo_reading : list happening :=
  demo_changes ++ [HRetrieve (py "a"); HUpdate (py "a") 0 None; HRetrieve (py "a"); HDelete (py "a");
                   HRetrieve (py "a"); HUpdate (py "a") 0 None; HClose; HDelete (py "a")].

Lemma demo_reading_possible : possible_all world0 demo_reading.
Proof.
  unfold demo_reading, demo_changes, demo_stored. rewrite <- !app_assoc. apply demo_made_possible.
  split; [split; [apply reach_held; right; right; left; reflexivity|
                  intros a [= <-]; apply reach_held; left; reflexivity]|].
  split; [exact I|].
  split; [split; [apply reach_held; do 4 right; left; reflexivity|intros b []]|].
  split; [split; [apply reach_held; do 2 right; left; reflexivity|intros b []]|].
  split; [split; [apply reach_held; left; reflexivity|intros b []]|].
  split; [exact I|].
  split; [split; [apply reach_held; do 6 right; left; reflexivity|discriminate]|].
  split; [exact I|]. split; [exact I|]. split; [exact I|].
  split; [split; [apply reach_held; do 7 right; left; reflexivity|discriminate]|].
  split; [exact I|]. split; exact I.
Qed.

Example C166_contents_partial_ex :
  possible_all world0 demo_reading /\ polite_all world0 demo_reading /\
  replies world0 demo_reading =
    [RUnit; RBool true;
     RRec (Some (PArr [1; 2]%Z, Some (PDict [(py "n", PAtom 5); (py "tags", PRef 1)]%Z)));
     RRec (Some (PArr [1; 2]%Z, Some (PDict [(py "n", PAtom 5); (py "tags", PRef 1)]%Z)));
     RBool true; RRec (Some (PArr [9]%Z, None)); RBool true; RRec None; RBool false; RUnit; RExn EStorage].
Proof.
  split; [exact demo_reading_possible|]. split; [|vm_compute; reflexivity].
  do 6 (split; [exact I|]). repeat (split; [cbn; intros H; repeat (destruct H as [H|H]; [discriminate|]); exact H|]).
  repeat (split; [exact I|]). exact I.
Qed.

(** Without the proviso: writing into the dictionary received changes what the next read answers. *)
Theorem C166_refuted : exists es, possible_all world0 es /\
  ~ conforms false true (Some rec_size) (fun i => i) (MkS false []) (calls world0 es) (replies world0 es).
Proof.
  exists (demo_made ++ [HStore (py "a") 0 (Some 2); HRetrieve (py "a"); HWrite 4 (PDict []); HRetrieve (py "a")]).
  split.
  - apply demo_made_possible. split.
    + split; [apply reach_held; right; right; left; reflexivity|].
      intros a [= <-]. apply reach_held. left. reflexivity.
    + split; [exact I|]. split; [|split; exact I]. split; [|intros b []].
      apply reach_held. right. left. reflexivity.
  - vm_compute. intros H. repeat (destruct H as [? H]; try discriminate).
Qed.

Print Assumptions C166_contents_partial.
Print Assumptions C166_refuted.
