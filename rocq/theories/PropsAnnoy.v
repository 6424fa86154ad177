(** Properties of the Annoy index: C37, C38, C39, and its part of C40 and C80. *)

From Coq Require Import String List Arith ZArith NArith Lia Bool.
From Coq Require Import ZifyBool ZifyNat ZifyN.
From Verif Require Import PyBase BaseLemmas PyMore Payload StorageModel StorageRun Num ClientModel
  DbSpec ClientRun LshModel LshSpec LshProofs AnnoyModel Keeps.
Import ListNotations.
Open Scope py_scope.

(** Calls on the index object; they answer as those of the LSH index do. *)
Inductive aop (F Mt : Type) : Type :=
| AInit
| AInsert (o : annoy_orc F) (arr : ndarray F) (meta : option (list (option Mt)))
| ABuild
| ASearch (o : annoy_orc F) (q : ndarray F) (k : Z)
| ADelete (ids : list pystr)
| AUpdate (o : annoy_orc F) (id : pystr) (v : list F) (m : option Mt)
| AClear
| AClose.
Arguments AInit {F Mt}.
Arguments AInsert {F Mt} o arr meta.
Arguments ABuild {F Mt}.
Arguments ASearch {F Mt} o q k.
Arguments ADelete {F Mt} ids.
Arguments AUpdate {F Mt} o id v m.
Arguments AClear {F Mt}.
Arguments AClose {F Mt}.

Section Run.
  Context {F Mt : Type} `{Num F} `{Payload (list F) Mt}.
  Context (amt : annoy_metric) (empty : Mt).

  (** One call of the model. *)
  Definition an_step (op : aop F Mt) (x : annoy F Mt) : lret F Mt * annoy F Mt :=
    let ans {A} (f : A -> lret F Mt) (r : result A * annoy F Mt) :=
      (match fst r with Ok a => f a | Raise e => LExn e end, snd r) in
    match op with
    | AInit => ans (fun _ => LUnit) (an_initialize x)
    | AInsert o arr meta => ans LIds (an_insert empty o arr meta x)
    | ABuild => ans (fun _ => LUnit) (an_build x)
    | ASearch o q k => ans LHits (an_search amt o q k x)
    | ADelete ids => ans LBool (an_delete ids x)
    | AUpdate o id v m => ans LBool (an_update o id v m x)
    | AClear => ans (fun _ => LUnit) (an_clear x)
    | AClose => ans (fun _ => LUnit) (an_close x)
    end.

  Fixpoint an_run (ops : list (aop F Mt)) (x : annoy F Mt) : list (lret F Mt) * annoy F Mt :=
    match ops with
    | [] => ([], x)
    | op :: ops' =>
        let (r, x') := an_step op x in
        let (rs, x'') := an_run ops' x' in (r :: rs, x'')
    end.

  (** State and answers after a history on a new index. *)
  Definition an_after (ops : list (aop F Mt)) : annoy F Mt := snd (an_run ops an_new).
  Definition an_answers (ops : list (aop F Mt)) : list (lret F Mt) := fst (an_run ops an_new).

  (** ** Specification: the metadata last given for an id, read off the calls and answers. *)

  (** The id meant by a string. *)
  Definition number (id : pystr) : Z := match py_int id with Some z => z | None => (-1)%Z end.

  Definition assign (g : Z -> option Mt) (im : pystr * option Mt) : Z -> option Mt :=
    fun z => if Z.eqb z (number (fst im)) then snd im else g z.

  Definition given_next (g : Z -> option Mt) (op : aop F Mt) (r : lret F Mt) : Z -> option Mt :=
    match op, r with
    | AInsert _ (Mat rows) meta, LIds ids =>
        fold_left assign (combine ids (metas_for empty (length rows) meta)) g
    | ADelete ids, LBool true => fold_left assign (map (fun id => (id, None)) ids) g
    | AUpdate _ id _ (Some m), LBool true => assign g (id, Some m)
    | _, _ => g
    end.

  Fixpoint given_from (g : Z -> option Mt) (ops : list (aop F Mt)) (rs : list (lret F Mt))
      : Z -> option Mt :=
    match ops, rs with
    | op :: ops', r :: rs' => given_from (given_next g op r) ops' rs'
    | _, _ => g
    end.

  Definition given (ops : list (aop F Mt)) : Z -> option Mt :=
    given_from (fun _ => None) ops (an_answers ops).

  (** What the tree library promises: it returns items it holds. *)
  Definition annoy_orc_ok (o : annoy_orc F) : Prop :=
    forall items q k z d, In (z, d) (ao_nns o items q k) -> In z (map fst items).

  (** Histories considered: no update, metadata that can be copied, no negative ids in deletes. *)
  Definition afits (op : aop F Mt) : Prop :=
    match op with
    | AInsert _ _ (Some l) => Forall (meta_fine (F := F)) l
    | ADelete ids => Forall not_negative ids
    | AUpdate _ _ _ _ => False
    | _ => True
    end.
End Run.

Section Props.
  Context {F Mt : Type} `{Num F} `{Payload (list F) Mt}.
  Context (amt : annoy_metric) (empty : Mt).
  Context (Hempty : copyable empty = true).
  Notation step := (an_step amt empty).
  Notation after := (an_after amt empty).
  Notation answers := (an_answers amt empty).
  Notation given_of := (given amt empty).
  Implicit Types x : annoy F Mt.

  (** ** Inserting *)

  (** Adding one row: on failure only the lists and the counter have grown. *)
  Lemma add_one_ok o v d x l : copyable d = true ->
    a_lib x = Some l -> al_built l && negb (ao_late o) = false -> (0 <= a_next x)%Z ->
    an_add_one o v (Some d) x =
      (Ok (a_next x),
       MkAnnoy (a_vectors x ++ [Some v]) (a_metadata x ++ [Some d]) (a_dim x) (a_next x + 1)
               (Some (MkLib ((a_next x, v) :: al_items l) (al_built l))) (a_built x) (a_init x)).
  Proof.
    intros Hd Hl Hb Hn. unfold an_add_one, bind, get, modify, lift, copy_meta. rewrite Hd.
    unfold an_add_item, bind, get. cbn. rewrite Hl. replace (a_next x <? 0)%Z with false by lia.
    rewrite Hb. reflexivity.
  Qed.

  Lemma add_one_fails o v d x : copyable d = true -> (0 <= a_next x)%Z ->
    (forall l, a_lib x = Some l -> al_built l && negb (ao_late o) = true) ->
    exists e, an_add_one o v (Some d) x =
      (Raise e, MkAnnoy (a_vectors x ++ [Some v]) (a_metadata x ++ [Some d]) (a_dim x) (a_next x + 1)
                        (a_lib x) (a_built x) (a_init x)).
  Proof.
    intros Hd Hn Hb. destruct x as [vs ms dm nx lb bt it]. simpl in *.
    unfold an_add_one, bind, get, modify, lift, copy_meta. rewrite Hd.
    unfold an_add_item, bind, get. cbn. destruct lb as [l|]; [|eexists; reflexivity].
    replace (nx <? 0)%Z with false by lia. rewrite (Hb l eq_refl). eexists; reflexivity.
  Qed.

  (** Consecutive ids from [z]. *)
  Fixpoint from (z : Z) (n : nat) : list Z :=
    match n with 0 => [] | S n' => z :: from (z + 1) n' end.

  Lemma from_range n : forall z y, In y (from z n) <-> (z <= y < z + Z.of_nat n)%Z.
  Proof.
    induction n as [|n IH]; intros z y; simpl; [lia|]. rewrite IH. lia.
  Qed.

  Lemma from_nth n : forall z i, i < n -> nth_error (from z n) i = Some (z + Z.of_nat i)%Z.
  Proof.
    induction n as [|n IH]; intros z [|i] Hi; simpl; try lia.
    - f_equal. lia.
    - rewrite IH by lia. f_equal. lia.
  Qed.

  Lemma add_all_ok o : forall rows ds x l, length rows = length ds ->
    Forall (fun d => copyable d = true) ds ->
    a_lib x = Some l -> al_built l && negb (ao_late o) = false -> (0 <= a_next x)%Z ->
    exists items,
      mapM (combine rows (map Some ds)) (fun '(v, m) => an_add_one o v m) x =
        (Ok (from (a_next x) (length rows)),
         MkAnnoy (a_vectors x ++ map Some rows) (a_metadata x ++ map Some ds) (a_dim x)
                 (a_next x + Z.of_nat (length rows)) (Some (MkLib items (al_built l)))
                 (a_built x) (a_init x)) /\
      forall z, In z (map fst items) <->
                In z (from (a_next x) (length rows)) \/ In z (map fst (al_items l)).
  Proof.
    induction rows as [|v rows IH]; intros ds x l El Hds Hl Hb Hn.
    - destruct ds; [|discriminate]. exists (al_items l). split; [|simpl; intuition].
      cbn. rewrite !app_nil_r. unfold ret. destruct x, l; simpl in *; subst.
      now rewrite Z.add_0_r.
    - destruct ds as [|d ds]; [discriminate|]. simpl in El. injection El as El.
      pose proof (Forall_inv Hds) as Hd. apply Forall_inv_tail in Hds.
      cbn [combine map mapM]. rewrite (bind_Ok _ _ _ _ _ (add_one_ok o v d x l Hd Hl Hb Hn)).
      set (x1 := MkAnnoy _ _ _ _ _ _ _).
      destruct (IH ds x1 (MkLib ((a_next x, v) :: al_items l) (al_built l)) El Hds eq_refl Hb)
        as (items & E & Hi); [simpl; lia|].
      exists items. rewrite (bind_Ok _ _ _ _ _ E). unfold ret. simpl. rewrite <- !app_assoc. simpl.
      split.
      + rewrite Zpos_P_of_succ_nat.
        now replace (a_next x + Z.succ (Z.of_nat (length rows)))%Z
          with (a_next x + 1 + Z.of_nat (length rows))%Z by lia.
      + intros z. rewrite Hi. simpl. tauto.
  Qed.

  Lemma add_all_fails o rows ds x : length rows = length ds -> rows <> [] ->
    Forall (fun d => copyable d = true) ds -> (0 <= a_next x)%Z ->
    (forall l, a_lib x = Some l -> al_built l && negb (ao_late o) = true) ->
    exists e v d, mapM (combine rows (map Some ds)) (fun '(v, m) => an_add_one o v m) x =
      (Raise e, MkAnnoy (a_vectors x ++ [Some v]) (a_metadata x ++ [Some d]) (a_dim x) (a_next x + 1)
                        (a_lib x) (a_built x) (a_init x)).
  Proof.
    intros El Hr Hds Hn Hb. destruct rows as [|v rows]; [congruence|]. destruct ds as [|d ds]; [discriminate|].
    destruct (add_one_fails o v d x (Forall_inv Hds) Hn Hb) as [e E].
    exists e, v, d. cbn [combine map mapM]. now rewrite (bind_Raise _ _ _ _ _ E).
  Qed.

  (** ** The invariant *)

  Record ainv (g : Z -> option Mt) x : Prop := {
    ai_vectors : Z.of_nat (length (a_vectors x)) = a_next x;
    ai_metadata : Z.of_nat (length (a_metadata x)) = a_next x;
    ai_dim : a_dim x = None -> a_lib x = None /\ a_next x = 0%Z;
    ai_items : forall l z, a_lib x = Some l -> In z (map fst (al_items l)) ->
                 (0 <= z)%Z /\ nth_error (a_metadata x) (Z.to_nat z) = Some (g z)
  }.

  (** Id [z] is gone for good: its metadata is [None], or the index never finds anything again. *)
  Definition tomb (z : Z) x : Prop :=
    (0 <= z < a_next x)%Z /\ nth_error (a_metadata x) (Z.to_nat z) = Some None \/
    a_dim x <> None /\ a_lib x = None.

  Lemma fine_list (l : list (option Mt)) : Forall (meta_fine (F := F)) l ->
    exists ds, l = map Some ds /\ Forall (fun d => copyable d = true) ds.
  Proof.
    induction 1 as [|m l (d & -> & Hd) Hl (ds & -> & Hds)]; [exists []; auto|].
    exists (d :: ds). auto.
  Qed.

  Lemma metas_fine n meta : (forall l, meta = Some l -> Forall (meta_fine (F := F)) l) ->
    exists ds, metas_for empty n meta = map Some ds /\ Forall (fun d => copyable d = true) ds.
  Proof.
    intros Hm. destruct meta as [l|].
    - destruct (fine_list l (Hm l eq_refl)) as (ds & -> & Hds). exists ds. auto.
    - exists (repeat empty n). unfold metas_for. split; [|apply Forall_forall; intros d Hd; now apply repeat_spec in Hd as ->].
      clear. induction n; simpl; congruence.
  Qed.

  (** How an insert ends. *)
  Inductive insert_end (o : annoy_orc F) (arr : ndarray F) meta x : lret F Mt -> annoy F Mt -> Prop :=
  | ie_same e : insert_end o arr meta x (LExn e) x
  | ie_dim e x' :
      a_dim x = None -> (exists d, x' = aset_lib (Some (MkLib [] false)) (aset_dim (Some d) x)) ->
      insert_end o arr meta x (LExn e) x'
  | ie_half e x1 v d : a_dim x1 <> None ->
      x1 = x \/ a_dim x = None /\
                (exists d, x1 = aset_lib (Some (MkLib [] false)) (aset_dim (Some d) x)) ->
      insert_end o arr meta x (LExn e)
        (MkAnnoy (a_vectors x1 ++ [Some v]) (a_metadata x1 ++ [Some d]) (a_dim x1) (a_next x1 + 1)
                 (a_lib x1) (a_built x1) (a_init x1))
  | ie_full x1 l rows ds items :
      x1 = x \/ a_dim x = None /\
                (exists d, x1 = aset_lib (Some (MkLib [] false)) (aset_dim (Some d) x)) ->
      arr = Mat rows -> metas_for empty (length rows) meta = map Some ds ->
      length rows = length ds -> a_lib x1 = Some l ->
      (forall z, In z (map fst items) <->
                 In z (from (a_next x) (length rows)) \/ In z (map fst (al_items l))) ->
      insert_end o arr meta x
        (LIds (map (fun i => str_nat (Z.to_nat i)) (from (a_next x) (length rows))))
        (MkAnnoy (a_vectors x1 ++ map Some rows) (a_metadata x1 ++ map Some ds) (a_dim x1)
                 (a_next x1 + Z.of_nat (length rows)) (Some (MkLib items (al_built l)))
                 (a_built x1) (a_init x1))
  | ie_empty x1 :
      x1 = x \/ a_dim x = None /\
                (exists d, x1 = aset_lib (Some (MkLib [] false)) (aset_dim (Some d) x)) ->
      arr = Mat [] -> insert_end o arr meta x (LIds []) x1.

  Lemma forM_lift_state {A} (l : list A) (f : A -> result unit) x :
    exists r, forM l (fun v => lift (f v)) x = (r, x).
  Proof.
    induction l as [|a l IH]; simpl; [eexists; reflexivity|]. unfold bind, lift at 1.
    destruct (f a); [exact IH|eexists; reflexivity].
  Qed.

  Lemma insert_ends o arr meta x : (0 <= a_next x)%Z ->
    (forall l, meta = Some l -> Forall (meta_fine (F := F)) l) ->
    insert_end o arr meta x (fst (step (AInsert o arr meta) x)) (snd (step (AInsert o arr meta) x)).
  Proof.
    intros Hn Hm. cbn [an_step fst snd]. unfold an_insert.
    set (n := match meta with None => py_len arr | Some _ => Ok 0 end).
    destruct n as [n0|e] eqn:En; [|rewrite (bind_Raise _ _ _ _ _ (eq_refl : lift (Raise e) x = (Raise e, x))); constructor].
    rewrite (bind_Ok _ _ _ _ _ (eq_refl : lift (Ok n0) x = (Ok n0, x))). cbv zeta.
    set (ms := match meta with Some l => l | None => repeat (Some empty) n0 end).
    assert (Eb : forall r x', an_add o arr ms x = (r, x') ->
       (ids <- an_add o arr ms;; ret (map (fun i => str_nat (Z.to_nat i)) ids)) x =
       (match r with Ok ids => Ok (map (fun i => str_nat (Z.to_nat i)) ids) | Raise e => Raise e end, x')).
    { intros [ids|e] x' E; unfold bind; rewrite E; reflexivity. }
    destruct (an_add o arr ms x) as [r x'] eqn:E. rewrite (Eb r x' eq_refl). clear Eb. cbn [fst snd].
    unfold an_add in E. unfold bind at 1, get at 1 in E.
    destruct (negb (a_init x)); [injection E as <- <-; constructor|].
    destruct arr as [v|rows|].
    1:{ destruct (negb _); injection E as <- <-; constructor. }
    2:{ injection E as <- <-; constructor. }
    destruct (Nat.eqb_spec (length rows) (length ms)) as [El|]; cbn [negb] in E; [|injection E as <- <-; constructor].
    assert (Ems : ms = metas_for empty (length rows) meta).
    { unfold ms, metas_for. destruct meta; auto. simpl in n. unfold n in En. cbn in En. congruence. }
    set (body := fun x1 : annoy F Mt => _) in E.
    assert (Hbody : forall x1, x1 = x \/ a_dim x = None /\
       (exists d, x1 = aset_lib (Some (MkLib [] false)) (aset_dim (Some d) x)) ->
       bind get body x1 = (r, x') ->
       insert_end o (Mat rows) meta x
         match match r with Ok ids => Ok (map (fun i => str_nat (Z.to_nat i)) ids) | Raise e => Raise e end with
         | Ok a => LIds a | Raise e => LExn e end x').
    { clear E. intros x1 Hx1 E. rewrite (bind_Ok get _ _ x1 x1) in E by reflexivity. unfold body in E.
      assert (Hend : forall e, insert_end o (Mat rows) meta x (LExn e) x1).
      { intros e. destruct Hx1 as [->|[Hd Hx1]]; [constructor|now constructor]. }
      assert (En1 : a_next x1 = a_next x) by (destruct Hx1 as [->|[_ [? ->]]]; reflexivity).
      destruct (a_dim x1) as [dim|] eqn:Ed1; [|injection E as <- <-; auto].
      destruct (negb (width rows =? dim)); [injection E as <- <-; auto|].
      destruct (forM_lift_state rows (fun v => validate_dim dim (Vec v)) x1) as [r0 E0].
      unfold bind in E. rewrite E0 in E. destruct r0 as [[]|e]; [|injection E as <- <-; auto].
      destruct (metas_fine (length rows) meta Hm) as (ds & Eds & Hds).
      rewrite Ems, Eds in E, El. rewrite map_length in El.
      destruct rows as [|v0 rows0] eqn:Er.
      { cbn in E. injection E as <- <-. now apply ie_empty. }
      rewrite <- Er in *.
      destruct (a_lib x1) as [l|] eqn:Hl.
      - destruct (al_built l && negb (ao_late o)) eqn:Eb.
        + destruct (add_all_fails o rows ds x1) as (e & v & d & Ea); auto; try lia; try (subst; congruence).
          rewrite Ea in E. injection E as <- <-. apply ie_half; auto; congruence.
        + destruct (add_all_ok o rows ds x1 l) as (items & Ea & Hi); auto; try lia.
          rewrite Ea in E. injection E as <- <-. rewrite En1 at 1. rewrite En1 in Hi.
          now apply ie_full.
      - destruct (add_all_fails o rows ds x1) as (e & v & d & Ea); auto; try lia; try (subst; congruence).
        rewrite Ea in E. injection E as <- <-. apply ie_half; auto; congruence. }
    destruct (a_dim x) as [dim|] eqn:Ed.
    - rewrite (bind_Ok _ _ _ _ _ (eq_refl : ret tt x = (Ok tt, x))) in E. apply (Hbody x); auto.
    - rewrite (bind_Ok _ _ _ _ _ (eq_refl :
        (modify (aset_dim (Some (width rows))) ;;; modify (aset_lib (Some (MkLib [] false)))) x =
        (Ok tt, aset_lib (Some (MkLib [] false)) (aset_dim (Some (width rows)) x)))) in E.
      apply (Hbody (aset_lib (Some (MkLib [] false)) (aset_dim (Some (width rows)) x))); auto.
      right. split; auto. eauto.
  Qed.

  Lemma number_str z : (0 <= z)%Z -> number (str_nat (Z.to_nat z)) = z.
  Proof. intros Hz. unfold number. rewrite py_int_str. lia. Qed.

  Lemma given_insert : forall (ds : list Mt) a (g : Z -> option Mt) z, (0 <= a)%Z ->
    fold_left assign (combine (map (fun i => str_nat (Z.to_nat i)) (from a (length ds))) (map Some ds)) g z =
    if (a <=? z)%Z && (z <? a + Z.of_nat (length ds))%Z then nth_error ds (Z.to_nat (z - a)) else g z.
  Proof.
    induction ds as [|d ds IH]; intros a g z Ha.
    - simpl. now replace ((a <=? z) && (z <? a + 0))%Z with false by lia.
    - cbn [length from map combine fold_left]. rewrite IH by lia. unfold assign at 1. cbn [fst snd].
      rewrite number_str by auto.
      destruct (Z.eqb_spec z a) as [->|Hz].
      + replace ((a + 1 <=? a) && _)%Z with false by lia.
        replace ((a <=? a) && _)%Z with true by lia. now rewrite Z.sub_diag.
      + destruct ((a + 1 <=? z)%Z && (z <? a + 1 + Z.of_nat (length ds))%Z) eqn:E.
        * replace ((a <=? z) && _)%Z with true by lia.
          replace (Z.to_nat (z - a)) with (S (Z.to_nat (z - (a + 1)))) by lia. reflexivity.
        * now replace ((a <=? z) && _)%Z with false by lia.
  Qed.

  Lemma given_delete : forall ids (g : Z -> option Mt) z, (0 <= z)%Z ->
    fold_left assign (map (fun id => (id, None)) ids) g z =
    if existsb (fun id => match py_int id with Some y => Z.eqb z y | None => false end) ids then None
    else g z.
  Proof.
    induction ids as [|id ids IH]; intros g z Hz; simpl; auto. rewrite IH by auto.
    destruct (existsb _ ids); [now rewrite orb_true_r|]. rewrite orb_false_r. unfold assign. cbn [fst snd].
    unfold number. destruct (py_int id); [reflexivity|]. now replace (z =? -1)%Z with false by lia.
  Qed.

  (** Removing numbers. *)
  Definition same_but x vs ms : annoy F Mt :=
    MkAnnoy vs ms (a_dim x) (a_next x) (a_lib x) (a_built x) (a_init x).

  Lemma remove_all : forall zs x, Forall (fun z => (0 <= z)%Z) zs ->
    length (a_vectors x) = length (a_metadata x) ->
    exists vs ms, forM zs an_remove_one x = (Ok tt, same_but x vs ms) /\
      length vs = length (a_vectors x) /\ length ms = length (a_metadata x) /\
      forall i, nth_error ms i =
        if existsb (Z.eqb (Z.of_nat i)) zs && (i <? length ms)%nat then Some None
        else nth_error (a_metadata x) i.
  Proof.
    induction zs as [|z zs IH]; intros x Hz El.
    - exists (a_vectors x), (a_metadata x). split; [now destruct x|]. auto.
    - pose proof (Forall_inv Hz) as Hz0. apply Forall_inv_tail in Hz. simpl in Hz0.
      assert (E1 : exists vs ms, an_remove_one z x = (Ok tt, same_but x vs ms) /\
        length vs = length (a_vectors x) /\ length ms = length (a_metadata x) /\
        forall i, nth_error ms i = if (Z.of_nat i =? z)%Z && (i <? length ms)%nat then Some None
                                   else nth_error (a_metadata x) i).
      { unfold an_remove_one. rewrite (bind_Ok get _ _ x x) by reflexivity.
        destruct (Z.ltb_spec z (Z.of_nat (length (a_vectors x)))) as [Hlt|Hge].
        - assert (Ez : z = Z.of_nat (Z.to_nat z)) by lia. set (j := Z.to_nat z) in *. rewrite Ez.
          rewrite py_set_index_nat by lia.
          exists (set_nth j None (a_vectors x)), (set_nth j None (a_metadata x)).
          unfold bind, lift, modify. cbn [a_metadata aset_vectors].
          rewrite py_set_index_nat by lia. split; [now destruct x|].
          rewrite !set_nth_length. split; [|split]; auto. intros i. rewrite nth_error_set_nth.
          destruct (Nat.eqb_spec j i) as [<-|Hne].
          + replace ((Z.of_nat j =? Z.of_nat j)%Z) with true by lia. cbn [andb].
            replace (j <? length (a_metadata x)) with true by lia.
            destruct (nth_error (a_metadata x) j) eqn:E; auto. apply nth_error_None in E. lia.
          + now replace ((Z.of_nat i =? Z.of_nat j)%Z) with false by lia.
        - exists (a_vectors x), (a_metadata x). split; [now destruct x|]. split; [|split]; auto.
          intros i. destruct (Z.eqb_spec (Z.of_nat i) z); auto.
          now replace (i <? length (a_metadata x)) with false by lia. }
      destruct E1 as (vs & ms & E1 & L1 & L2 & Hn). cbn [forM].
      rewrite (bind_Ok _ _ _ _ _ E1).
      destruct (IH (same_but x vs ms) Hz) as (vs' & ms' & E2 & L3 & L4 & Hn'); [simpl; lia|].
      exists vs', ms'. rewrite E2. split; [reflexivity|]. simpl in L3, L4, Hn'. split; [lia|split; [lia|]].
      intros i. rewrite Hn', Hn, L4. cbn [existsb].
      destruct (i <? length ms) eqn:Ei; destruct (Z.of_nat i =? z)%Z, (existsb _ zs); reflexivity.
  Qed.

  Lemma to_ints ids zs : rmap to_int ids = Ok zs -> Forall not_negative ids ->
    Forall (fun z => (0 <= z)%Z) zs /\
    forall z, existsb (Z.eqb z) zs =
      existsb (fun id => match py_int id with Some y => Z.eqb z y | None => false end) ids.
  Proof.
    revert zs. induction ids as [|id ids IH]; intros zs E Hn; simpl in E.
    - injection E as <-. split; auto.
    - unfold to_int at 1 in E. destruct (py_int id) as [z|] eqn:Ez; simpl in E; [|discriminate].
      destruct (rmap to_int ids) as [zs'|] eqn:E'; simpl in E; [|discriminate]. injection E as <-.
      destruct (IH zs' eq_refl (Forall_inv_tail Hn)) as [H1 H2]. split.
      + constructor; auto. exact (Forall_inv Hn z Ez).
      + intros y. simpl. now rewrite Ez, H2.
  Qed.

  (** How a delete ends. *)
  Lemma delete_ends ids x : Forall not_negative ids ->
    length (a_vectors x) = length (a_metadata x) ->
    (exists e, step (ADelete ids) x = (LExn e, x)) \/
    exists vs ms, step (ADelete ids) x = (LBool true, same_but x vs ms) /\
      length vs = length (a_vectors x) /\ length ms = length (a_metadata x) /\
      forall i, nth_error ms i =
        if existsb (fun id => match py_int id with Some y => Z.eqb (Z.of_nat i) y | None => false end) ids &&
           (i <? length ms)%nat then Some None
        else nth_error (a_metadata x) i.
  Proof.
    intros Hn El. cbn [an_step]. unfold an_delete, wrap, bind at 1, lift.
    destruct (rmap to_int ids) as [zs|e] eqn:E; [|left; eexists; reflexivity].
    destruct (to_ints ids zs E Hn) as [Hz Hex].
    unfold an_remove, bind, get. destruct (negb (a_init x)); [left; eexists; reflexivity|].
    destruct (remove_all zs x Hz El) as (vs & ms & Er & L1 & L2 & Hm). rewrite Er. right.
    exists vs, ms. split; [reflexivity|]. split; [|split]; auto. intros i. now rewrite Hm, Hex.
  Qed.

  Lemma nth_app_l {A} (l l' : list A) i a : nth_error l i = Some a -> nth_error (l ++ l') i = Some a.
  Proof. intros E. rewrite nth_error_app1; auto. apply nth_error_Some. congruence. Qed.

  Lemma ainv_step g x op : ainv g x -> afits op ->
    ainv (given_next empty g op (fst (step op x))) (snd (step op x)).
  Proof.
    intros HI Hf. pose proof HI as [Iv Im Id Ii]. destruct op as [|o arr meta| |o q k|ids|o id v m| |].
    - constructor; auto.
    - assert (Hn : (0 <= a_next x)%Z) by lia.
      assert (Hm : forall l, meta = Some l -> Forall (meta_fine (F := F)) l).
      { intros l ->. exact Hf. }
      assert (Hprep : forall x1, x1 = x \/ a_dim x = None /\
        (exists d, x1 = aset_lib (Some (MkLib [] false)) (aset_dim (Some d) x)) -> ainv g x1).
      { intros x1 [->|[Hd [d ->]]]; auto. constructor; simpl; auto; try discriminate.
        intros l z [= <-] []. }
      destruct (insert_ends o arr meta x Hn Hm) as [e|e x' Hd Hx'|e x1 v d Hx0 Hx1|x1 l rows ds items Hx1 Ea Ed El Hl Hi|x1 Hx1 Ea].
      + replace (given_next _ _ _ _) with g by (destruct arr; reflexivity). auto.
      + replace (given_next _ _ _ _) with g by (destruct arr; reflexivity). apply Hprep. auto.
      + replace (given_next _ _ _ _) with g by (destruct arr; reflexivity).
        destruct (Hprep x1 Hx1) as [Jv Jm Jd Ji]. constructor; simpl; auto.
        * rewrite app_length. simpl. lia.
        * rewrite app_length. simpl. lia.
        * congruence.
        * intros l z Hl Hz. destruct (Ji l z Hl Hz). split; auto. now apply nth_app_l.
      + destruct (Hprep x1 Hx1) as [Jv Jm Jd Ji].
        assert (En : a_next x1 = a_next x) by (destruct Hx1 as [->|[_ [? ->]]]; reflexivity).
        subst arr. cbn [given_next]. rewrite Ed. rewrite El in *. constructor; simpl.
        * rewrite app_length, map_length. lia.
        * rewrite app_length, map_length. lia.
        * intros Hd. destruct (Jd Hd). congruence.
        * intros l0 z [= <-] Hz. cbn [al_items] in Hz. rewrite given_insert by auto.
          apply Hi in Hz as [Hz|Hz].
          -- apply from_range in Hz. split; [lia|].
             replace ((a_next x <=? z) && _)%Z with true by lia.
             rewrite nth_error_app2 by lia. rewrite nth_error_map.
             replace (Z.to_nat z - length (a_metadata x1)) with (Z.to_nat (z - a_next x)) by lia.
             destruct (nth_error ds _) eqn:E; auto. apply nth_error_None in E. lia.
          -- destruct (Ji l z Hl Hz) as [Hz0 Hnth]. split; auto.
             assert (Z.to_nat z < length (a_metadata x1)) by (apply nth_error_Some; congruence).
             replace ((a_next x <=? z) && _)%Z with false by lia. now apply nth_app_l.
      + subst arr. cbn [given_next]. simpl. apply Hprep. auto.
    - cbn [an_step given_next snd fst].
      assert (ainv g (snd (an_build x))); auto.
      unfold an_build, bind at 1, get. destruct (negb (a_init x)); [exact HI|].
      destruct (_ && _); [exact HI|]. unfold bind. destruct (a_lib x) as [l|] eqn:El.
      + destruct (al_built l); [exact HI|]. constructor; simpl; auto.
        * intros Hd. destruct (Id Hd). congruence.
        * intros l0 z [= <-] Hz. apply (Ii l z); auto.
      + constructor; simpl; auto; [|congruence]. intros Hd. split; auto. now destruct (Id Hd).
    - cbn [an_step given_next snd fst].
      replace (snd (an_search amt o q k x)) with x; [exact HI|].
      unfold an_search, bind, get, lift. destruct (negb (a_init x)); auto. destruct (negb (a_built x)); auto.
      destruct (a_dim x); auto. destruct (validate_dim n q); auto. destruct (a_lib x); auto.
      destruct (rmap _ _); auto.
    - destruct (delete_ends ids x Hf) as [[e E]|(vs & ms & E & L1 & L2 & Hm)]; [lia| |]; rewrite E; cbn [fst snd given_next].
      + exact HI.
      + constructor; simpl; auto; try lia. intros l z Hl Hz. destruct (Ii l z Hl Hz) as [Hz0 Hnth].
        split; auto. rewrite given_delete by auto. rewrite Hm.
        assert (Z.to_nat z < length (a_metadata x)) by (apply nth_error_Some; congruence).
        replace (Z.to_nat z <? length ms) with true by lia. rewrite andb_true_r.
        replace (Z.of_nat (Z.to_nat z)) with z by lia. destruct (existsb _ ids); auto.
    - destruct Hf.
    - constructor; simpl; auto. congruence.
    - constructor; simpl; auto. congruence.
  Qed.

  Lemma tomb_step g x op z : ainv g x -> afits op -> tomb z x -> tomb z (snd (step op x)).
  Proof.
    intros HI Hf Ht. pose proof HI as [Iv Im Id Ii]. destruct op as [|o arr meta| |o q k|ids|o id v m| |].
    - exact Ht.
    - assert (Hn : (0 <= a_next x)%Z) by lia.
      assert (Hm : forall l, meta = Some l -> Forall (meta_fine (F := F)) l).
      { intros l ->. exact Hf. }
      assert (Hprep : forall x1, x1 = x \/ a_dim x = None /\
        (exists d, x1 = aset_lib (Some (MkLib [] false)) (aset_dim (Some d) x)) -> tomb z x1).
      { intros x1 [->|[Hd [d ->]]]; auto. destruct Ht as [Ht|[Ht _]]; [now left|congruence]. }
      destruct (insert_ends o arr meta x Hn Hm) as [e|e x' Hd Hx'|e x1 v d Hx0 Hx1|x1 l rows ds items Hx1 Ea Ed El Hl Hi|x1 Hx1 Ea]; auto.
      + destruct (Hprep x1 Hx1) as [[Hz Hnth]|Hdead]; [left|now right]. simpl. split; [lia|].
        now apply nth_app_l.
      + destruct (Hprep x1 Hx1) as [[Hz Hnth]|[_ Hdead]]; [left|congruence]. simpl. split; [lia|].
        now apply nth_app_l.
    - cbn [an_step snd]. unfold an_build, bind at 1, get. destruct (negb (a_init x)); [exact Ht|].
      destruct (_ && _); [exact Ht|]. unfold bind. destruct (a_lib x) as [l|] eqn:El.
      + destruct (al_built l); [exact Ht|]. destruct Ht as [Ht|[_ Ht]]; [now left|congruence].
      + destruct Ht as [Ht|[Hd Ht]]; [now left|right; simpl; auto].
    - cbn [an_step snd].
      replace (snd (an_search amt o q k x)) with x; [exact Ht|].
      unfold an_search, bind, get, lift. destruct (negb (a_init x)); auto. destruct (negb (a_built x)); auto.
      destruct (a_dim x); auto. destruct (validate_dim n q); auto. destruct (a_lib x); auto.
      destruct (rmap _ _); auto.
    - destruct (delete_ends ids x Hf) as [[e E]|(vs & ms & E & L1 & L2 & Hm)]; [lia| |]; rewrite E; cbn [snd].
      + exact Ht.
      + destruct Ht as [[Hz Ht]|Ht]; [left; simpl|now right]. split; auto. rewrite Hm, Ht.
        now destruct (_ && _).
    - destruct Hf.
    - right. cbn. destruct Ht as [[Hz Ht]|[Ht _]]; split; auto. intros Hd. destruct (Id Hd). lia.
    - right. cbn. destruct Ht as [[Hz Ht]|[Ht _]]; split; auto. intros Hd. destruct (Id Hd). lia.
  Qed.

  Lemma ainv_new : ainv (fun _ => None) an_new.
  Proof. constructor; simpl; auto. discriminate. Qed.

  Lemma ainv_run : forall ops g x, ainv g x -> Forall afits ops ->
    ainv (given_from empty g ops (fst (an_run amt empty ops x))) (snd (an_run amt empty ops x)).
  Proof.
    induction ops as [|op ops IH]; intros g x HI Hf; [exact HI|].
    cbn [an_run]. pose proof (ainv_step g x op HI (Forall_inv Hf)) as H1.
    destruct (step op x) as [r x1]. cbn [fst snd] in H1.
    specialize (IH _ _ H1 (Forall_inv_tail Hf)). destruct (an_run amt empty ops x1) as [rs x2]. exact IH.
  Qed.

  Lemma ainv_after ops : Forall afits ops -> ainv (given_of ops) (after ops).
  Proof. intros Hf. apply ainv_run; auto. apply ainv_new. Qed.

  Lemma run_app : forall l1 l2 x,
    an_run amt empty (l1 ++ l2) x =
    (fst (an_run amt empty l1 x) ++ fst (an_run amt empty l2 (snd (an_run amt empty l1 x))),
     snd (an_run amt empty l2 (snd (an_run amt empty l1 x)))).
  Proof.
    induction l1 as [|op l1 IH]; intros l2 x; simpl; [now destruct (an_run amt empty l2 x)|].
    destruct (step op x) as [r x1]. rewrite IH. destruct (an_run amt empty l1 x1) as [rs x2]. simpl.
    now destruct (an_run amt empty l2 x2).
  Qed.

  (** Where the results of a search come from. *)
  Lemma search_hits o q k x hits : fst (step (ASearch o q k) x) = LHits hits ->
    hits = [] /\ a_dim x = None \/
    exists l v, q = Vec v /\ a_lib x = Some l /\
      forall h, In h hits -> exists d, In (lh_id h, d) (ao_nns o (al_items l) v k) /\
        (lh_id h < Z.of_nat (length (a_vectors x)))%Z /\
        lh_score h = an_similarity amt d /\ py_index (a_metadata x) (lh_id h) = Ok (lh_meta h).
  Proof.
    cbn [an_step fst]. unfold an_search. rewrite (bind_Ok get _ _ x x) by reflexivity.
    destruct (negb (a_init x)); [discriminate|]. destruct (negb (a_built x)); [discriminate|].
    destruct (a_dim x) as [dim|]; [|cbn; intros [= <-]; auto]. unfold bind at 1, lift at 1.
    destruct (validate_dim dim q) as [u|] eqn:Eq; [|discriminate].
    destruct q as [v|rows|]; try discriminate.
    destruct (a_lib x) as [l|]; [|discriminate]. unfold bind, lift.
    destruct (rmap _ _) as [rs|] eqn:Er; [|discriminate]. cbn. intros [= <-]. right.
    exists l, v. split; auto. split; auto. intros h Hh.
    destruct (rmap_somes _ _ _ _ Er Hh) as ([z d] & Hz & Ez). unfold an_result in Ez.
    destruct (Z.ltb_spec z (Z.of_nat (length (a_vectors x)))); [|discriminate].
    destruct (py_index (a_metadata x) z) as [m|] eqn:Em; [|discriminate]. cbn in Ez. injection Ez as <-.
    exists d. cbn. auto.
  Qed.

  (** ** C38 *)

  (** C38: every result of a search carries the metadata last given for its id (none, if the id
      was deleted since), and the similarity computed from the library's distance.
      Partial: histories without update, with copyable metadata and without negative ids; with
      update it is false (below). *)
  Theorem C38_metadata_partial ops o q k hits :
    Forall afits ops -> annoy_orc_ok o ->
    fst (step (ASearch o q k) (after ops)) = LHits hits ->
    forall h, In h hits ->
      lh_meta h = given_of ops (lh_id h) /\
      exists v l d, q = Vec v /\ a_lib (after ops) = Some l /\
        In (lh_id h, d) (ao_nns o (al_items l) v k) /\ lh_score h = an_similarity amt d.
  Proof.
    intros Hf Ho Hs h Hh. pose proof (ainv_after ops Hf) as [Iv Im Id Ii].
    destruct (search_hits _ _ _ _ _ Hs) as [[-> _]|(l & v & -> & Hl & Hhits)]; [destruct Hh|].
    destruct (Hhits h Hh) as (d & Hd & Hlt & Hsc & Hm).
    destruct (Ii l (lh_id h) Hl (Ho _ _ _ _ _ Hd)) as [Hz Hnth]. split; [|eauto 8].
    replace (lh_id h) with (Z.of_nat (Z.to_nat (lh_id h))) in Hm by lia.
    rewrite py_index_nat, Hnth in Hm. congruence.
  Qed.

  (** ** C37 *)

  (** The ids an insert answered. *)
  Definition was_given (ops : list (aop F Mt)) (id : pystr) : Prop :=
    exists ids, In (LIds ids) (answers ops) /\ In id ids.

  Lemma in_from_str n z id : (0 <= z)%Z -> In id (map (fun i => str_nat (Z.to_nat i)) (from z n)) ->
    exists y, py_int id = Some y /\ (z <= y < z + Z.of_nat n)%Z.
  Proof.
    intros Hz Hin. apply in_map_iff in Hin as (y & <- & Hy). apply from_range in Hy.
    exists y. rewrite py_int_str. split; [f_equal; lia|lia].
  Qed.

  (** An id that was answered is below the counter, until the index is cleared. *)
  Definition counted (z : Z) x : Prop := (0 <= z < a_next x)%Z \/ a_dim x <> None /\ a_lib x = None.

  Lemma counted_step g x op z : ainv g x -> afits op -> counted z x -> counted z (snd (step op x)).
  Proof.
    intros HI Hf Ht. pose proof HI as [Iv Im Id Ii]. destruct op as [|o arr meta| |o q k|ids|o id v m| |].
    - exact Ht.
    - assert (Hn : (0 <= a_next x)%Z) by lia.
      assert (Hm : forall l, meta = Some l -> Forall (meta_fine (F := F)) l).
      { intros l ->. exact Hf. }
      assert (Hprep : forall x1, x1 = x \/ a_dim x = None /\
        (exists d, x1 = aset_lib (Some (MkLib [] false)) (aset_dim (Some d) x)) -> counted z x1).
      { intros x1 [->|[Hd [d ->]]]; auto. destruct Ht as [Ht|[Ht _]]; [now left|congruence]. }
      destruct (insert_ends o arr meta x Hn Hm) as [e|e x' Hd Hx'|e x1 v d Hx0 Hx1|x1 l rows ds items Hx1 Ea Ed El Hl Hi|x1 Hx1 Ea]; auto.
      + destruct (Hprep x1 Hx1) as [Hz|Hdead]; [left|now right]. simpl. lia.
      + destruct (Hprep x1 Hx1) as [Hz|[_ Hdead]]; [left|congruence]. simpl. lia.
    - cbn [an_step snd]. unfold an_build, bind at 1, get. destruct (negb (a_init x)); [exact Ht|].
      destruct (_ && _); [exact Ht|]. unfold bind. destruct (a_lib x) as [l|] eqn:El.
      + destruct (al_built l); [exact Ht|]. destruct Ht as [Ht|[_ Ht]]; [now left|congruence].
      + destruct Ht as [Ht|[Hd Ht]]; [now left|right; simpl; auto].
    - cbn [an_step snd].
      replace (snd (an_search amt o q k x)) with x; [exact Ht|].
      unfold an_search, bind, get, lift. destruct (negb (a_init x)); auto. destruct (negb (a_built x)); auto.
      destruct (a_dim x); auto. destruct (validate_dim n q); auto. destruct (a_lib x); auto.
      destruct (rmap _ _); auto.
    - destruct (delete_ends ids x Hf) as [[e E]|(vs & ms & E & L1 & L2 & Hm)]; [lia| |]; rewrite E; cbn [snd]; exact Ht.
    - destruct Hf.
    - right. cbn. destruct Ht as [Hz|[Ht _]]; split; auto. intros Hd. destruct (Id Hd). lia.
    - right. cbn. destruct Ht as [Hz|[Ht _]]; split; auto. intros Hd. destruct (Id Hd). lia.
  Qed.

  Lemma counted_run : forall ops g x z, ainv g x -> Forall afits ops ->
    counted z x \/ (exists ids id, In (LIds ids) (fst (an_run amt empty ops x)) /\ In id ids /\ py_int id = Some z) ->
    counted z (snd (an_run amt empty ops x)).
  Proof.
    induction ops as [|op ops IH]; intros g x z HI Hf Hc.
    - simpl in *. destruct Hc as [Hc|(ids & id & [] & _)]; auto.
    - cbn [an_run] in *. pose proof (ainv_step g x op HI (Forall_inv Hf)) as H1.
      pose proof (counted_step g x op z HI (Forall_inv Hf)) as H2.
      assert (H3 : forall ids id, fst (step op x) = LIds ids -> In id ids -> py_int id = Some z ->
                                  counted z (snd (step op x))).
      { intros ids id E Hid Ez. destruct op as [|o arr meta| |o q k|is|o i v m| |];
          try (exfalso; cbn [an_step fst] in E;
               match type of E with match ?r with _ => _ end = _ => destruct r; discriminate end).
        pose proof HI as [Iv Im Id Ii].
        assert (Hn : (0 <= a_next x)%Z) by lia.
        assert (Hm : forall l, meta = Some l -> Forall (meta_fine (F := F)) l).
        { intros l ->. exact (Forall_inv Hf). }
        destruct (insert_ends o arr meta x Hn Hm) as [e|e x' Hd Hx'|e x1 v d Hx0 Hx1|x1 l rows ds items Hx1 Ea Ed El Hl Hi|x1 Hx1 Ea];
          try discriminate; injection E as <-.
        - apply in_from_str in Hid as (y & Ey & Hy); auto. rewrite Ey in Ez. injection Ez as ->.
          assert (En : a_next x1 = a_next x) by (destruct Hx1 as [->|[_ [? ->]]]; reflexivity).
          left. simpl. lia.
        - destruct Hid. }
      destruct (step op x) as [r x1]. cbn [fst snd] in *.
      specialize (IH _ x1 z H1 (Forall_inv_tail Hf)). destruct (an_run amt empty ops x1) as [rs x2].
      cbn [fst snd] in *. apply IH. destruct Hc as [Hc|(ids & id & [Hi|Hi] & Hid & Ez)]; eauto 6.
  Qed.

  Lemma tomb_run : forall ops g x z, ainv g x -> Forall afits ops -> tomb z x ->
    tomb z (snd (an_run amt empty ops x)).
  Proof.
    induction ops as [|op ops IH]; intros g x z HI Hf Ht; [exact Ht|].
    cbn [an_run]. pose proof (ainv_step g x op HI (Forall_inv Hf)) as H1.
    pose proof (tomb_step g x op z HI (Forall_inv Hf) Ht) as H2.
    destruct (step op x) as [r x1]. cbn [fst snd] in *.
    specialize (IH _ _ z H1 (Forall_inv_tail Hf) H2). now destruct (an_run amt empty ops x1).
  Qed.

  (** C37, what holds: once an id that an insert answered is deleted, no later search shows it
      with its metadata: every result for that id carries none.
      Partial: the id itself is still returned (below); histories as for C38. *)
  Theorem C37_deleted_partial ops ids id z later o q k hits :
    Forall afits (ops ++ ADelete ids :: later) -> annoy_orc_ok o ->
    was_given ops id -> In id ids -> py_int id = Some z ->
    fst (step (ADelete ids) (after ops)) = LBool true ->
    fst (step (ASearch o q k) (after (ops ++ ADelete ids :: later))) = LHits hits ->
    forall h, In h hits -> lh_id h = z -> lh_meta h = None.
  Proof.
    intros Hf Ho Hg Hid Ez Hdel Hs h Hh Ehz.
    apply Forall_app in Hf as [Hf1 Hf2]. pose proof (Forall_inv Hf2) as Hfd. apply Forall_inv_tail in Hf2.
    pose proof (ainv_after ops Hf1) as HI.
    assert (Hc : counted z (after ops)).
    { unfold an_after. eapply counted_run; eauto using ainv_new. destruct Hg as (is & Hi1 & Hi2).
      right. exists is, id. auto. }
    pose proof HI as [Iv Im Id Ii].
    assert (Ht : tomb z (snd (step (ADelete ids) (after ops)))).
    { destruct (delete_ends ids (after ops) Hfd) as [[e E]|(vs & ms & E & L1 & L2 & Hm)]; [lia| |].
      - rewrite E in Hdel. discriminate.
      - rewrite E. cbn [snd]. destruct Hc as [Hc|Hc]; [left|right; exact Hc]. simpl. split; [lia|].
        rewrite Hm. replace (Z.to_nat z <? length ms) with true by lia. rewrite andb_true_r.
        replace (existsb _ ids) with true; auto. symmetry. apply existsb_exists. exists id.
        split; auto. rewrite Ez. lia. }
    assert (Ha : after (ops ++ ADelete ids :: later) =
                 snd (an_run amt empty later (snd (step (ADelete ids) (after ops))))).
    { unfold an_after. rewrite run_app. cbn [snd an_run].
      destruct (step (ADelete ids) (snd (an_run amt empty ops an_new))) as [r x1]. cbn [snd].
      now destruct (an_run amt empty later x1). }
    assert (Ht2 : tomb z (after (ops ++ ADelete ids :: later))).
    { rewrite Ha. eapply tomb_run; eauto. apply ainv_step; eauto. }
    destruct (search_hits _ _ _ _ _ Hs) as [[-> _]|(l & v & -> & Hl & Hhits)]; [destruct Hh|].
    destruct (Hhits h Hh) as (d & Hd & Hlt & Hsc & Hm). rewrite Ehz in Hm.
    destruct Ht2 as [[Hz Hn]|[_ Hn]]; [|congruence].
    replace z with (Z.of_nat (Z.to_nat z)) in Hm by lia. rewrite py_index_nat, Hn in Hm. congruence.
  Qed.
End Props.

(** ** C39 for Annoy *)

Section Client.
  Context {F Mt S : Type} `{Num F} `{Payload (list F) Mt}.
  Context (amt : annoy_metric) (empty : Mt) (C : storage_class S (list F) Mt).
  Notation IC := (annoy_class (S := S) amt empty).

  Definition unbuilt (x : annoy F Mt) : Prop := a_built x = false.

  Ltac kp := repeat first
    [ apply keep_wrap | apply keep_ret | apply keep_raise | apply keep_get | apply keep_lift
    | apply keep_bind; [|intros]
    | apply keep_modify; intros; assumption
    | apply keep_forM; intros | apply keep_mapM; intros ].

  Lemma keep_add_one o v m : keep unbuilt (an_add_one o v m : M (annoy F Mt) Z).
  Proof.
    unfold an_add_one, an_add_item. kp. destruct (a_lib a4); kp. destruct (_ <? _)%Z; kp.
    destruct (_ && _); kp.
  Qed.

  Lemma keep_add o arr ms : keep unbuilt (an_add o arr ms : M (annoy F Mt) (list Z)).
  Proof.
    unfold an_add. kp. destruct (negb (a_init a)); kp. destruct arr as [v|rows|]; kp.
    - destruct (negb _); kp.
    - destruct (negb _); kp. destruct (a_dim a); kp. destruct (a_dim a1); kp. destruct (negb _); kp.
      destruct a3. apply keep_add_one.
  Qed.

  Lemma keep_remove zs : keep unbuilt (an_remove zs : M (annoy F Mt) unit).
  Proof.
    unfold an_remove. kp. destruct (negb (a_init a)); kp. unfold an_remove_one. kp.
    destruct (_ <? _)%Z; kp.
  Qed.

  Lemma keep_update o id v m : keep unbuilt (an_update o id v m : M (annoy F Mt) bool).
  Proof.
    unfold an_update. apply keep_wrap. do 2 (apply keep_bind; [kp|intros]).
    destruct (_ <=? _)%Z; [kp|]. apply keep_bind; [kp|intros].
    apply keep_bind; [apply keep_remove|intros]. apply keep_bind; [kp|intros].
    apply keep_bind; [kp|intros]. apply keep_bind; [apply keep_add|intros]. kp.
  Qed.

  Definition cunbuilt (c : client (annoy F Mt) S) : Prop := unbuilt (c_index c).

  Lemma keep_on {A} (m : M (annoy F Mt) A) : keep unbuilt m -> keep cunbuilt (on_index (on_ann m)).
  Proof.
    intros Hm. apply keep_zoom with (Q := fun p => unbuilt (fst p)); auto.
    apply keep_zoom with (Q := unbuilt); auto.
  Qed.

  Lemma keep_st {A} (m : M S A) : keep cunbuilt (on_storage m).
  Proof. intros c Hc. unfold on_storage, zoom. destruct (m (c_storage c)). exact Hc. Qed.

  Lemma keep_guarded {A} (m : M (client (annoy F Mt) S) A) : keep cunbuilt m -> keep cunbuilt (guarded m).
  Proof. intros Hm. unfold guarded. kp. destruct (negb _); kp. exact Hm. Qed.

  Lemma unbuilt_search o q k : keep unbuilt (an_search amt o q k : M (annoy F Mt) _).
  Proof.
    unfold an_search. kp. destruct (negb (a_init a)); kp. destruct (negb (a_built a)); kp.
    destruct (a_dim a); kp. destruct (a_lib a); kp.
  Qed.

  Lemma unbuilt_step c op : cunbuilt c -> cunbuilt (snd (cl_step C IC c op)).
  Proof.
    intros Hc. unfold cl_step.
    assert (Hobs : forall {A} (f : A -> cret F Mt) m, keep cunbuilt m -> cunbuilt (snd (cobs f (m c)))).
    { intros A f m Hm. specialize (Hm c Hc). unfold cobs. destruct (m c) as [[a|e] s]; exact Hm. }
    destruct op; try (apply Hobs).
    - unfold cl_initialize. apply keep_wrap. apply keep_bind; [apply keep_st|intros].
      apply keep_bind; [apply keep_on; unfold an_initialize; kp|intros]. kp.
    - apply keep_guarded, keep_on. unfold an_insert. apply keep_bind; [kp|intros].
      apply keep_bind; [apply keep_add|intros]. kp.
    - apply keep_guarded, keep_on. apply keep_bind; [apply unbuilt_search|intros]. kp.
    - apply keep_guarded, keep_on. unfold an_delete. apply keep_wrap. apply keep_bind; [kp|intros].
      apply keep_bind; [apply keep_remove|intros]. kp.
    - apply keep_guarded, keep_on. apply keep_update.
    - apply keep_guarded. apply keep_bind; [apply keep_st|intros]. kp.
    - unfold cl_close. apply keep_bind; [kp|intros]. apply keep_bind; [|intros; apply keep_bind; [apply keep_st|intros; kp]].
      apply keep_on. unfold an_close, an_clear. kp. apply keep_modify. reflexivity.
    - reflexivity.
  Qed.

  Lemma unbuilt_run ops : forall c, cunbuilt c -> cunbuilt (snd (cl_run C IC c ops)).
  Proof.
    induction ops as [|op ops IH]; intros c Hc; [exact Hc|]. cbn [cl_run].
    pose proof (unbuilt_step c op Hc) as H1. destruct (cl_step C IC c op) as [r c1].
    specialize (IH c1 H1). now destruct (cl_run C IC c1 ops).
  Qed.

  (** C39 fails for Annoy always: whatever was done through the client before, on any storage,
      every search raises, because only the index's own [build] makes it searchable and the
      client has no call for it. *)
  Theorem C39_annoy_never_searchable s0 ops o q k :
    exists e, fst (cl_step C IC (cl_after C IC s0 ops) (CSearch o q k)) = AExn e.
  Proof.
    pose proof (unbuilt_run ops (cl_new IC s0) eq_refl) as Hu. fold (cl_after C IC s0 ops) in Hu.
    set (c := cl_after C IC s0 ops) in *. cbn [cl_step]. unfold cl_search, guarded.
    unfold bind, get. destruct (negb (c_init c)); [eexists; reflexivity|].
    unfold on_index, zoom. cbn. unfold on_ann, zoom. cbn [fst].
    unfold an_search, bind, get. destruct (negb (a_init (c_index c))); [eexists; reflexivity|].
    unfold cunbuilt, unbuilt in Hu. rewrite Hu. eexists; reflexivity.
  Qed.
End Client.

(** ** Examples and refutations *)

From Verif Require Import Demo DemoIndex.

(** A library that reports every item it holds, oldest first, at distance 0. *)
Definition demo_annoy_orc : annoy_orc Z :=
  MkAorc (fun items _ k => firstn (Z.to_nat k) (rev (map (fun it => (fst it, 0%Z)) items))) false.

Lemma demo_annoy_orc_ok : annoy_orc_ok demo_annoy_orc.
Proof.
  intros items q k z d Hin. simpl in Hin. apply In_firstn in Hin. apply in_rev in Hin.
  apply in_map_iff in Hin as (it & [= <- _] & Hi). now apply in_map.
Qed.

Definition demo_annoy_insert : aop Z Z :=
  AInsert demo_annoy_orc (Mat [[1; 2]; [3; 4]]%Z) (Some [Some 7; Some 8]%Z).

Definition demo_annoy_ops : list (aop Z Z) :=
  [AInit; demo_annoy_insert; ADelete [py "1"]; AInsert demo_annoy_orc (Mat [[5; 6]]%Z) None; ABuild].

Lemma demo_annoy_fit : Forall afits demo_annoy_ops.
Proof.
  assert (Hm : forall z : Z, (0 <= z)%Z -> meta_fine (F := Z) (Some z)).
  { intros z Hz. exists z. split; auto. simpl. lia. }
  repeat constructor; cbn; try (apply Hm; lia).
  intros z Hz. vm_compute in Hz. injection Hz as <-. lia.
Qed.

(** The hypotheses of C38 and C37 are met and the answers are these; the deleted id 1 is there. *)
Example C38_hypotheses_met :
  Forall afits demo_annoy_ops /\ annoy_orc_ok demo_annoy_orc /\
  was_given AEuclidean 0%Z (firstn 2 demo_annoy_ops) (py "1") /\ py_int (py "1") = Some 1%Z /\
  fst (an_step AEuclidean 0%Z (ASearch demo_annoy_orc (Vec [1; 1]%Z) 5)
         (an_after AEuclidean 0%Z demo_annoy_ops)) =
    LHits [MkLhit 0 1 (Some 7); MkLhit 1 1 None; MkLhit 2 1 (Some 0)]%Z /\
  map (given AEuclidean 0%Z demo_annoy_ops) [0; 1; 2; 3]%Z = [Some 7; None; Some 0; None]%Z.
Proof.
  split; [apply demo_annoy_fit|]. split; [apply demo_annoy_orc_ok|].
  split; [exists [py "0"; py "1"]; vm_compute; auto|]. vm_compute. auto.
Qed.

(** C37 is false: a deleted id is returned. *)
Theorem C37_deleted_returned_refuted :
  exists (ops : list (aop Z Z)) id q,
    Forall afits (ops ++ [ADelete [id]; ABuild]) /\
    was_given AEuclidean 0%Z ops id /\
    fst (an_step AEuclidean 0%Z (ADelete [id]) (an_after AEuclidean 0%Z ops)) = LBool true /\
    exists h, fst (an_step AEuclidean 0%Z (ASearch demo_annoy_orc (Vec q) 1)
                     (an_after AEuclidean 0%Z (ops ++ [ADelete [id]; ABuild]))) = LHits [h] /\
              py_int id = Some (lh_id h).
Proof.
  exists [AInit; demo_annoy_insert], (py "0"), [1; 2]%Z. split; [|split; [|split]].
  - pose proof demo_annoy_fit as Hf. unfold demo_annoy_ops in Hf. simpl app.
    constructor; [exact I|]. constructor; [exact (Forall_inv (Forall_inv_tail Hf))|].
    repeat constructor. intros z Hz. vm_compute in Hz. injection Hz as <-. lia.
  - exists [py "0"; py "1"]. vm_compute. auto.
  - reflexivity.
  - exists (MkLhit 0 1 None)%Z. vm_compute. auto.
Qed.

(** C38 is false with updates: an update appends a new slot instead of filling the one it
    emptied, so the id it was given for shows no metadata, and the next insert's id shows the
    updated metadata. *)
Theorem C38_update_refuted :
  exists (ops : list (aop Z Z)) hits,
    fst (an_step AEuclidean 0%Z (ASearch demo_annoy_orc (Vec [1; 2]%Z) 9)
           (an_after AEuclidean 0%Z ops)) = LHits hits /\
    (exists h, In h hits /\ lh_meta h = None /\ given AEuclidean 0%Z ops (lh_id h) = Some 9%Z) /\
    (exists h, In h hits /\ lh_meta h = Some 9%Z /\ given AEuclidean 0%Z ops (lh_id h) = Some 5%Z).
Proof.
  exists [AInit; demo_annoy_insert; AUpdate demo_annoy_orc (py "0") [7; 7]%Z (Some 9%Z);
          AInsert demo_annoy_orc (Mat [[5; 6]]%Z) (Some [Some 5%Z]); ABuild].
  eexists. split; [vm_compute; reflexivity|]. split.
  - exists (MkLhit 0 1 None)%Z. vm_compute. auto.
  - exists (MkLhit 2 1 (Some 9))%Z. vm_compute. auto 9.
Qed.

Definition demo_annoy_client : list (cop Z Z (annoy_orc Z)) :=
  [CInit demo_annoy_orc []; CInsert demo_annoy_orc (demo_ids 97) (Mat [[1; 2]; [3; 4]]%Z) None].

(** C39 is false: initialise and insert succeed, the query has the right dimension, search
    raises. *)
Theorem C39_annoy_search_refuted :
  exists (ops : list (cop Z Z (annoy_orc Z))) ids,
    let IC := annoy_class (S := mem (list Z) Z) AEuclidean 0%Z in
    cl_answers mem_class IC mem_new ops = [AUnit; AIds ids] /\ ids <> [] /\
    fst (cl_step mem_class IC (cl_after mem_class IC mem_new ops)
           (CSearch demo_annoy_orc (Vec [1; 2]%Z) 1)) = AExn EIndex.
Proof.
  exists demo_annoy_client, [py "0"; py "1"]. vm_compute. split; auto. split; auto. discriminate.
Qed.

(** C40 is false for Annoy: it never writes to the storage. *)
Theorem C40_annoy_counts_refuted :
  exists ops : list (cop Z Z (annoy_orc Z)),
    let IC := annoy_class (S := mem (list Z) Z) AEuclidean 0%Z in
    fst (cl_step mem_class IC (cl_after mem_class IC mem_new ops) CStats) =
      ACounts (Some 2%Z) (Some 0%Z).
Proof. exists demo_annoy_client. vm_compute. reflexivity. Qed.

(** C80 is false for Annoy: initialising again keeps the vectors; and after close the dimension
    is kept without the library object, so every insert raises. *)
Theorem C80_annoy_reinitialise_refuted :
  exists (ops : list (cop Z Z (annoy_orc Z))) insert,
    let IC := annoy_class (S := mem (list Z) Z) AEuclidean 0%Z in
    let again := cl_after mem_class IC mem_new (ops ++ [CInit demo_annoy_orc []]) in
    let closed := cl_after mem_class IC mem_new (ops ++ [CClose []; CInit demo_annoy_orc []]) in
    let new := cl_after mem_class IC mem_new [CInit demo_annoy_orc []] in
    fst (cl_step mem_class IC new insert) = AIds [py "0"] /\
    fst (cl_step mem_class IC again insert) = AIds [py "2"] /\
    fst (cl_step mem_class IC again CStats) = ACounts (Some 2%Z) (Some 0%Z) /\
    fst (cl_step mem_class IC closed insert) = AExn EAttr.
Proof.
  exists demo_annoy_client, (CInsert demo_annoy_orc (demo_ids 99) (Mat [[5; 5]]%Z) None).
  vm_compute. auto 6.
Qed.

Print Assumptions C37_deleted_partial.
Print Assumptions C37_deleted_returned_refuted.
Print Assumptions C38_metadata_partial.
Print Assumptions C38_update_refuted.
Print Assumptions C39_annoy_never_searchable.
Print Assumptions C39_annoy_search_refuted.
Print Assumptions C40_annoy_counts_refuted.
Print Assumptions C80_annoy_reinitialise_refuted.
