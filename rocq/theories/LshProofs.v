(** Proofs about the LSH index. *)

From Coq Require Import List Arith ZArith NArith Lia Bool Permutation Sorted.
From Coq Require Import ZifyBool ZifyNat ZifyN.
From Verif Require Import PyBase BaseLemmas PyMore Payload Num LshModel LshSpec.
Import ListNotations.
Open Scope py_scope.

(** ** Buckets *)

Section Buckets.
  Implicit Types tb : dict (list bool) (list Z).

  Lemma entries_dset_new c l tb : ~ In c (dkeys tb) ->
    entries (dset c l tb) = entries tb ++ map (pair c) l.
  Proof.
    intros Hn. rewrite dset_notin by auto. unfold entries. rewrite flat_map_app. simpl.
    now rewrite app_nil_r.
  Qed.

  Lemma entries_split c l tb : dget c tb = Some l ->
    exists t1 t2, tb = t1 ++ (c, l) :: t2 /\ forall l', dset c l' tb = t1 ++ (c, l') :: t2.
  Proof.
    induction tb as [|[c' l'] tb IH]; simpl; [discriminate|].
    destruct (eqb_spec c c') as [->|Hne]; intros E.
    - injection E as ->. exists [], tb. auto.
    - destruct (IH E) as (t1 & t2 & -> & Hs). exists ((c', l') :: t1), t2. split; auto.
      intros l0. simpl. now rewrite Hs.
  Qed.

  Lemma entries_app t1 t2 : entries (t1 ++ t2) = entries t1 ++ entries t2.
  Proof. unfold entries. apply flat_map_app. Qed.

  Lemma entries_add c id tb : Permutation (entries (bucket_add c id tb)) ((c, id) :: entries tb).
  Proof.
    unfold bucket_add. destruct (dget c tb) as [l|] eqn:E.
    - destruct (entries_split c l tb E) as (t1 & t2 & -> & ->).
      rewrite !entries_app. simpl. rewrite map_app. simpl. rewrite <- !app_assoc. simpl.
      rewrite !app_assoc. symmetry. apply Permutation_middle.
    - apply dget_None in E. rewrite entries_dset_new by auto. simpl.
      symmetry. apply Permutation_cons_append.
  Qed.

  Lemma remove_first_perm id (l : list Z) : In id l -> Permutation l (id :: remove_first id l).
  Proof.
    induction l as [|a l IH]; simpl; [tauto|].
    intros Hi. destruct (eqb_spec id a) as [->|Hne]; [reflexivity|].
    destruct Hi as [->|Hi]; [congruence|]. rewrite perm_swap. constructor. auto.
  Qed.

  Lemma In_entries c id tb : NoDup (dkeys tb) ->
    (In (c, id) (entries tb) <-> exists l, dget c tb = Some l /\ In id l).
  Proof.
    intros Hnd. unfold entries. rewrite in_flat_map. split.
    - intros ([c' l] & Hin & Hm). apply in_map_iff in Hm as (id' & E & Hi).
      injection E as -> ->. exists l. split; auto. now apply In_dget.
    - intros (l & E & Hi). exists (c, l). split; [now apply dget_Some_In|].
      apply in_map_iff. eauto.
  Qed.

  Lemma entries_remove c id tb : NoDup (dkeys tb) -> In (c, id) (entries tb) ->
    Permutation (entries tb) ((c, id) :: entries (bucket_remove c id tb)).
  Proof.
    intros Hnd Hin. apply In_entries in Hin as (l & E & Hi); auto.
    unfold bucket_remove. rewrite E. destruct (entries_split c l tb E) as (t1 & t2 & -> & ->).
    rewrite !entries_app. simpl. rewrite (Permutation_map (pair c) (remove_first_perm id l Hi)) at 1.
    simpl. symmetry. apply Permutation_middle.
  Qed.

  Lemma keys_add c id tb : NoDup (dkeys tb) -> NoDup (dkeys (bucket_add c id tb)).
  Proof. intros Hnd. unfold bucket_add. now apply NoDup_dkeys_dset. Qed.

  Lemma keys_remove c id tb : NoDup (dkeys tb) -> NoDup (dkeys (bucket_remove c id tb)).
  Proof.
    intros Hnd. unfold bucket_remove. destruct (dget c tb); auto.
  Qed.
End Buckets.

Lemma somes_app {A} (l1 l2 : list (option A)) : somes (l1 ++ l2) = somes l1 ++ somes l2.
Proof. unfold somes. apply flat_map_app. Qed.

Lemma In_somes {A} (a : A) l : In a (somes l) <-> In (Some a) l.
Proof.
  unfold somes. rewrite in_flat_map. split.
  - intros ([b|] & Hin & Hb); simpl in Hb; [|tauto]. destruct Hb as [->|[]]. auto.
  - intros Hin. exists (Some a). simpl. auto.
Qed.

Lemma NoDup_app_remove_r' {A} (l l' : list A) : NoDup (l ++ l') -> NoDup l.
Proof.
  induction l as [|a l IH]; simpl; [constructor|]. intros Hnd. inversion Hnd as [|? ? Ha Hl]; subst.
  constructor; auto. intros Hin. apply Ha. apply in_or_app. auto.
Qed.

Lemma set_nth_twice {A} (a b : A) l : forall i, set_nth i a (set_nth i b l) = set_nth i a l.
Proof. induction l as [|x l IH]; intros [|i]; simpl; auto. now rewrite IH. Qed.

Section Lsh.
  Context {F Mt : Type} `{Num F} `{!NumOrder F} `{Payload (list F) Mt}.
  Context (T hs P : nat) (lmt : lsh_metric) (threshold : F) (empty : Mt).
  Context (Hempty : copyable empty = true).
  Context (HT : 1 <= T) (Hhs : 1 <= hs) (HP : hs <= P) (Hlm : lmt <> LOther).
  Notation lshi := (lsh F Mt).

  (** ** Hash codes *)

  Lemma seq_shifted n a b : seq (a + b) n = map (fun j => a + j) (seq b n).
  Proof.
    revert b. induction n as [|n IH]; intros b; simpl; auto. f_equal. now rewrite plus_n_Sm, IH.
  Qed.

  Lemma window_spec t : lsh_window hs P t = map (fun j => (t * hs + j) mod P) (seq 0 hs).
  Proof.
    clear Hempty HT Hlm.
    unfold lsh_window. set (s := (t * hs) mod P).
    assert (s < P) as Hs by (apply Nat.mod_upper_bound; lia).
    assert (Hm : forall j, (t * hs + j) mod P = (s + j) mod P).
    { intros j. unfold s. rewrite Nat.add_mod_idemp_l by lia. reflexivity. }
    destruct (Nat.ltb_spec P (s + hs)) as [Hlt|Hge].
    - replace (seq 0 hs) with (seq 0 ((P - s) + (s + hs - P))) by (f_equal; lia).
      rewrite seq_app, map_app. f_equal.
      + replace (seq s (P - s)) with (seq (s + 0) (P - s)) by (f_equal; lia). rewrite seq_shifted.
        apply map_ext_in. intros j Hj. apply in_seq in Hj. rewrite Hm. symmetry. apply Nat.mod_small. lia.
      + replace (seq (0 + (P - s)) (s + hs - P)) with (seq (P - s + 0) (s + hs - P)) by (f_equal; lia).
        rewrite seq_shifted, map_map. rewrite <- (map_id (seq 0 (s + hs - P))) at 1.
        apply map_ext_in. intros j Hj. apply in_seq in Hj. rewrite Hm.
        replace (s + (P - s + j)) with (j + 1 * P) by lia. rewrite Nat.mod_add by lia.
        symmetry. apply Nat.mod_small. lia.
    - replace (s + hs - s) with hs by lia.
      replace (seq s hs) with (seq (s + 0) hs) by (f_equal; lia). rewrite seq_shifted.
      apply map_ext_in. intros j Hj. apply in_seq in Hj. rewrite Hm. symmetry. apply Nat.mod_small. lia.
  Qed.

  (** A projection matrix and offsets of the right shape. *)
  Definition proj_ok (d : nat) (pr : list (list F) * list F) : Prop :=
    length (fst pr) = P /\ Forall (fun r => length r = d) (fst pr) /\ length (snd pr) = P.

  Notation code_of := (code_of hs P).
  Definition codes_of pr v : list (list bool) := map (code_of pr v) (seq 0 T).

  Lemma zip_with_map (f : F -> F -> F) (g h : nat -> F) l :
    zip_with f (map g l) (map h l) = map (fun j => f (g j) (h j)) l.
  Proof. induction l; simpl; auto. now f_equal. Qed.

  Lemma firstn_nth_seq (l : list F) n d : n <= length l -> firstn n l = map (fun j => nth j l d) (seq 0 n).
  Proof.
    clear Hempty HT Hhs HP Hlm.
    revert l. induction n as [|n IH]; intros [|a l] Hn; simpl in *; auto; try lia.
    f_equal. rewrite <- seq_shift, map_map. apply IH. lia.
  Qed.

  Lemma table_code_spec d pr v t : proj_ok d pr -> length v = d ->
    lsh_table_code hs P (fst pr) (snd pr) v t = Ok (code_of pr v t).
  Proof.
    clear Hempty HT Hlm.
    intros (Hl & HF & Ho) Hv. unfold lsh_table_code. rewrite window_spec.
    rewrite (rmap_Ok _ (fun i => nth i (fst pr) [])).
    2:{ intros i Hi. apply in_map_iff in Hi as (j & <- & Hj).
        assert ((t * hs + j) mod P < P) as Hlt by (apply Nat.mod_upper_bound; lia).
        destruct (nth_error (fst pr) ((t * hs + j) mod P)) eqn:E.
        - now rewrite (nth_error_nth _ _ _ E).
        - apply nth_error_None in E. lia. }
    simpl. rewrite (rmap_Ok _ (fun r => dot r v)).
    2:{ intros r Hr. apply in_map_iff in Hr as (i & <- & Hi). apply in_map_iff in Hi as (j & <- & Hj).
        assert ((t * hs + j) mod P < P) as Hlt by (apply Nat.mod_upper_bound; lia).
        rewrite Forall_forall in HF. rewrite HF by (apply nth_In; lia). now rewrite Hv, Nat.eqb_refl. }
    simpl. rewrite !map_length, seq_length.
    unfold np_add. rewrite !map_length, seq_length, firstn_length. rewrite Ho, Nat.min_l by lia.
    rewrite Nat.eqb_refl. simpl. f_equal. rewrite (firstn_nth_seq _ _ nzero) by lia.
    rewrite !map_map, zip_with_map, map_map. reflexivity.
  Qed.

  Lemma codes_spec d pr v : proj_ok d pr -> length v = d -> lsh_codes T hs P pr v = Ok (codes_of pr v).
  Proof.
    clear Hempty HT Hlm.
    intros Hp Hv. unfold lsh_codes. apply rmap_Ok. intros t _. now apply (table_code_spec d).
  Qed.

  Lemma codes_length pr v : length (codes_of pr v) = T.
  Proof. unfold codes_of. now rewrite map_length, seq_length. Qed.

  Lemma codes_nth pr v t : t < T -> nth_error (codes_of pr v) t = Some (code_of pr v t).
  Proof.
    intros Ht. unfold codes_of. rewrite nth_error_map.
    rewrite (nth_error_nth' (seq 0 T) 0) by (now rewrite seq_length). now rewrite seq_nth.
  Qed.

  (** ** Table updates *)

  Definition zip_tables (f : list bool -> dict (list bool) (list Z) -> dict (list bool) (list Z))
      (codes : list (list bool)) tabs := map (fun '(c, tb) => f c tb) (combine codes tabs).

  Lemma set_tables_id (x : lshi) : lset_tables (l_tables x) x = x.
  Proof. now destruct x. Qed.

  Lemma set_tables_set a b (x : lshi) : lset_tables a (lset_tables b x) = lset_tables a x.
  Proof. reflexivity. Qed.

  Lemma on_table_spec g pre tb tabs (x : lshi) : l_tables x = pre ++ tb :: tabs ->
    on_table (length pre) g x = (Ok tt, lset_tables (pre ++ g tb :: tabs) x).
  Proof.
    intros Ex. unfold on_table, bind, get. rewrite Ex, nth_error_app2, Nat.sub_diag by lia. simpl.
    unfold modify. now rewrite Ex, set_nth_app.
  Qed.

  Lemma each_table f codes : forall pre tabs (x : lshi),
    l_tables x = pre ++ tabs -> length codes = length tabs ->
    forM (combine (seq (length pre) (length codes)) codes) (fun '(t, c) => on_table t (f c)) x =
    (Ok tt, lset_tables (pre ++ zip_tables f codes tabs) x).
  Proof.
    induction codes as [|c codes IH]; intros pre [|tb tabs] x Ex El; try discriminate; simpl in *.
    - change (zip_tables f [] []) with (@nil (dict (list bool) (list Z))).
      rewrite <- Ex, set_tables_id. reflexivity.
    - rewrite (bind_Ok _ _ _ _ _ (on_table_spec (f c) pre tb tabs x Ex)).
      specialize (IH (pre ++ [f c tb]) tabs (lset_tables (pre ++ f c tb :: tabs) x)).
      rewrite app_length in IH. simpl in IH. rewrite Nat.add_1_r in IH. rewrite IH.
      + rewrite set_tables_set. rewrite <- app_assoc. reflexivity.
      + rewrite <- app_assoc. reflexivity.
      + lia.
  Qed.

  Lemma put_spec codes id (x : lshi) : length codes = length (l_tables x) ->
    lsh_put codes id x = (Ok tt, lset_tables (zip_tables (fun c => bucket_add c id) codes (l_tables x)) x).
  Proof.
    intros El. unfold lsh_put, enumerate.
    exact (each_table (fun c => bucket_add c id) codes [] (l_tables x) x eq_refl El).
  Qed.

  Lemma unput_spec codes id (x : lshi) : length codes = length (l_tables x) ->
    lsh_unput codes id x = (Ok tt, lset_tables (zip_tables (fun c => bucket_remove c id) codes (l_tables x)) x).
  Proof.
    intros El. unfold lsh_unput, enumerate.
    exact (each_table (fun c => bucket_remove c id) codes [] (l_tables x) x eq_refl El).
  Qed.

  Lemma zip_tables_nth f codes tabs t tb : length codes = length tabs ->
    nth_error (zip_tables f codes tabs) t = Some tb ->
    exists c tb0, nth_error codes t = Some c /\ nth_error tabs t = Some tb0 /\ tb = f c tb0.
  Proof.
    unfold zip_tables. intros El. rewrite nth_error_map. revert tabs t El.
    induction codes as [|c codes IH]; intros [|tb0 tabs] [|t] El; simpl in *; try discriminate.
    - intros E. injection E as <-. eauto.
    - intros E. apply IH in E; auto.
  Qed.

  Lemma zip_tables_length f codes tabs : length codes = length tabs ->
    length (zip_tables f codes tabs) = length tabs.
  Proof. intros El. unfold zip_tables. rewrite map_length, combine_length. lia. Qed.

  (** ** Tables that index given vectors *)

  Definition tables_ok pr (vs : list (option (list F))) tabs : Prop :=
    length tabs = T /\
    forall t tb, nth_error tabs t = Some tb ->
      NoDup (dkeys tb) /\ Permutation (entries tb) (live_entries hs P pr t 0 vs).

  Lemma live_app pr t vs1 : forall vs2 i,
    live_entries hs P pr t i (vs1 ++ vs2) =
    live_entries hs P pr t i vs1 ++ live_entries hs P pr t (i + length vs1) vs2.
  Proof.
    induction vs1 as [|[v|] vs1 IH]; intros vs2 i; simpl.
    - now rewrite Nat.add_0_r.
    - rewrite IH. now rewrite <- plus_n_Sm.
    - rewrite IH. now rewrite <- plus_n_Sm.
  Qed.

  Lemma In_live pr t vs : forall i c id,
    In (c, id) (live_entries hs P pr t i vs) <->
    exists j v, nth_error vs j = Some (Some v) /\ id = Z.of_nat (i + j) /\ c = code_of pr v t.
  Proof.
    clear Hempty HT Hhs HP Hlm.
    induction vs as [|o vs IH]; intros i c id; simpl.
    - split; [tauto|]. intros (j & v & E & _). destruct j; discriminate.
    - assert (Hr : In (c, id) (live_entries hs P pr t (S i) vs) <->
                   exists j v, nth_error (o :: vs) (S j) = Some (Some v) /\ id = Z.of_nat (i + S j) /\
                               c = code_of pr v t).
      { rewrite IH. split; intros (j & v & E & E1 & E2); exists j, v; simpl in *;
          (split; [|split]); auto; rewrite E1; f_equal; lia. }
      destruct o as [w|]; simpl; rewrite Hr; split.
      + intros [E|(j & v & Ej)].
        * injection E as <- <-. exists 0, w. simpl. rewrite Nat.add_0_r. auto.
        * exists (S j), v. auto.
      + intros ([|j] & v & E & E1 & E2); simpl in E.
        * injection E as ->. left. subst. now rewrite Nat.add_0_r.
        * right. exists j, v. auto.
      + intros (j & v & Ej). exists (S j), v. auto.
      + intros ([|j] & v & E & E1 & E2); simpl in E; [discriminate|]. exists j, v. auto.
  Qed.

  Lemma tables_add pr vs tabs v : tables_ok pr vs tabs ->
    tables_ok pr (vs ++ [Some v])
      (zip_tables (fun c => bucket_add c (Z.of_nat (length vs))) (codes_of pr v) tabs).
  Proof.
    intros [El Ht]. assert (length (codes_of pr v) = length tabs) as Ec by (rewrite codes_length; auto).
    split; [now rewrite zip_tables_length|].
    intros t tb E. apply zip_tables_nth in E as (c & tb0 & Ec0 & E0 & ->); auto.
    destruct (Ht t tb0 E0) as [Hnd Hp]. split; [now apply keys_add|].
    assert (t < T) as Htt by (rewrite <- El; apply nth_error_Some; congruence).
    rewrite codes_nth in Ec0 by auto. injection Ec0 as <-.
    eapply perm_trans; [apply entries_add|]. rewrite live_app. simpl.
    eapply perm_trans; [|apply Permutation_cons_append]. now constructor.
  Qed.

  Lemma tables_remove pr vs1 vs2 tabs v : tables_ok pr (vs1 ++ Some v :: vs2) tabs ->
    tables_ok pr (vs1 ++ None :: vs2)
      (zip_tables (fun c => bucket_remove c (Z.of_nat (length vs1))) (codes_of pr v) tabs).
  Proof.
    intros [El Ht]. assert (length (codes_of pr v) = length tabs) as Ec by (rewrite codes_length; auto).
    split; [now rewrite zip_tables_length|].
    intros t tb E. apply zip_tables_nth in E as (c & tb0 & Ec0 & E0 & ->); auto.
    destruct (Ht t tb0 E0) as [Hnd Hp]. split; [now apply keys_remove|].
    assert (t < T) as Htt by (rewrite <- El; apply nth_error_Some; congruence).
    rewrite codes_nth in Ec0 by auto. injection Ec0 as <-.
    rewrite live_app in *. simpl in *.
    eapply Permutation_cons_inv with (a := (code_of pr v t, Z.of_nat (length vs1))).
    eapply perm_trans; [symmetry; apply entries_remove; auto|].
    - eapply Permutation_in; [symmetry; exact Hp|]. apply in_or_app. right. now left.
    - eapply perm_trans; [exact Hp|]. symmetry. apply Permutation_middle.
  Qed.

  Lemma tables_readd pr vs1 vs2 tabs v : tables_ok pr (vs1 ++ None :: vs2) tabs ->
    tables_ok pr (vs1 ++ Some v :: vs2)
      (zip_tables (fun c => bucket_add c (Z.of_nat (length vs1))) (codes_of pr v) tabs).
  Proof.
    intros [El Ht]. assert (length (codes_of pr v) = length tabs) as Ec by (rewrite codes_length; auto).
    split; [now rewrite zip_tables_length|].
    intros t tb E. apply zip_tables_nth in E as (c & tb0 & Ec0 & E0 & ->); auto.
    destruct (Ht t tb0 E0) as [Hnd Hp]. split; [now apply keys_add|].
    assert (t < T) as Htt by (rewrite <- El; apply nth_error_Some; congruence).
    rewrite codes_nth in Ec0 by auto. injection Ec0 as <-.
    rewrite live_app in *. simpl in *. eapply perm_trans; [apply entries_add|].
    eapply perm_trans; [|apply Permutation_middle]. now constructor.
  Qed.

  Lemma tables_empty pr : tables_ok pr [] (lsh_tables0 T).
  Proof.
    unfold lsh_tables0. split; [apply repeat_length|]. intros t tb E.
    apply nth_error_In, repeat_spec in E. subst. simpl. split; constructor.
  Qed.

  (** ** The invariant *)

  Definition the_proj (x : lshi) := match l_proj x with Some pr => pr | None => ([], []) end.

  Record linv (s : slots (F := F) (Mt := Mt)) (x : lshi) : Prop := {
    li_init : l_init x = sl_open s;
    li_dim : l_dim x = sl_dim s;
    li_vectors : l_vectors x = map (option_map fst) (sl_slots s);
    li_meta : l_metadata x = map (option_map snd) (sl_slots s);
    li_next : l_next x = Z.of_nat (length (sl_slots s));
    li_none : sl_dim s = None -> sl_slots s = [] /\ l_proj x = None;
    li_some : forall d, sl_dim s = Some d ->
      (exists pr, l_proj x = Some pr /\ proj_ok d pr) /\
      (forall v m, In (Some (v, m)) (sl_slots s) -> length v = d);
    li_closed : sl_open s = false -> sl_slots s = [];
    li_tables : sl_open s = true -> tables_ok (the_proj x) (l_vectors x) (l_tables x)
  }.

  Lemma hash_spec s x v d : linv s x -> sl_dim s = Some d -> length v = d ->
    lsh_hash_vector T hs P v x = (Ok (codes_of (the_proj x) v), x).
  Proof.
    intros HI Hd Hv. destruct (li_some s x HI d Hd) as ((pr & Epr & Hpr) & _).
    unfold lsh_hash_vector, bind, get, the_proj. rewrite Epr. unfold lift.
    now rewrite (codes_spec d).
  Qed.

  (** ** insert *)

  Lemma add_one_ok s x v m d : linv s x -> sl_open s = true -> sl_dim s = Some d -> length v = d ->
    meta_fine m ->
    exists x', lsh_add_one T hs P v m x = (Ok (Z.of_nat (length (sl_slots s))), x') /\
      linv (MkSl true (Some d) (sl_slots s ++ [Some (v, the_meta empty m)])) x'.
  Proof.
    intros HI Ho Hd Hv (dm & -> & Hc). pose proof HI as [I1 I2 I3 I4 I5 I6 I7 I8 I9].
    destruct (I7 d Hd) as ((pr & Epr & Hpr) & HF). specialize (I9 Ho).
    assert (El : length (codes_of (the_proj x) v) = length (l_tables x)).
    { rewrite codes_length. symmetry. apply I9. }
    unfold lsh_add_one, bind, get, modify, lift, copy_meta. simpl. rewrite Hc. simpl.
    unfold lsh_hash_vector, bind, get, lift. simpl. rewrite Epr, (codes_spec d) by auto.
    replace (codes_of pr v) with (codes_of (the_proj x) v) by (unfold the_proj; now rewrite Epr).
    rewrite put_spec by exact El. unfold ret. simpl.
    eexists. split; [now rewrite I5|]. constructor; simpl; auto.
    - congruence.
    - congruence.
    - rewrite I3, map_app. reflexivity.
    - rewrite I4, map_app. reflexivity.
    - rewrite app_length. simpl. lia.
    - discriminate.
    - intros d' E. injection E as <-. split; [eauto|]. intros v' m' Hin.
      apply in_app_or in Hin as [Hin|[E|[]]]; [eauto|]. congruence.
    - discriminate.
    - intros _. replace (length (sl_slots s)) with (length (l_vectors x)).
      2:{ rewrite I3. apply map_length. }
      exact (tables_add _ _ _ v I9).
  Qed.

  Lemma add_all_ok d pairs : forall s x,
    linv s x -> sl_open s = true -> sl_dim s = Some d ->
    Forall (fun p => length (fst p) = d /\ meta_fine (snd p)) pairs ->
    exists x', mapM pairs (fun '(v, m) => lsh_add_one T hs P v m) x =
        (Ok (map (fun i => Z.of_nat (length (sl_slots s) + i)) (seq 0 (length pairs))), x') /\
      linv (MkSl true (Some d) (sl_slots s ++ map (fun '(v, m) => Some (v, the_meta empty m)) pairs)) x'.
  Proof.
    induction pairs as [|[v m] pairs IH]; intros s x HI Ho Hd HF.
    - exists x. split; auto. rewrite app_nil_r. destruct s. simpl in *. now subst.
    - pose proof (Forall_inv HF) as [Hv Hm]. pose proof (Forall_inv_tail HF) as HF'. simpl in Hv, Hm.
      destruct (add_one_ok s x v m _ HI Ho Hd Hv Hm) as (x1 & E1 & I1).
      destruct (IH _ x1 I1 eq_refl eq_refl HF') as (x' & E & I').
      exists x'. split.
      + cbn [mapM]. rewrite (bind_Ok _ _ _ _ _ E1), (bind_Ok _ _ _ _ _ E). unfold ret. do 2 f_equal.
        cbn [length seq map sl_slots]. rewrite Nat.add_0_r. f_equal.
        rewrite <- seq_shift, map_map. apply map_ext. intros i. rewrite app_length. simpl. f_equal. lia.
      + cbn [sl_slots] in I'. rewrite <- app_assoc in I'. exact I'.
  Qed.

  Lemma validate_ok d v (x : lshi) : length v = d ->
    lift (validate_dim d (Vec v)) x =
    (if negb (Nat.eqb (length v) 0) && forallb nfinite v then Ok tt else Raise EValidation, x).
  Proof.
    intros <-. unfold lift, validate_dim. rewrite Nat.ltb_irrefl.
    destruct (length v =? 0); simpl; auto. now destruct (forallb nfinite v).
  Qed.

  Lemma validate_rows d rows : forall x : lshi,
    Forall (fun r => length r = d) rows ->
    forM rows (fun v => lift (validate_dim d (Vec v))) x =
    (if forallb (fun r => negb (Nat.eqb (length r) 0) && forallb nfinite r) rows then Ok tt
     else Raise EValidation, x).
  Proof.
    induction rows as [|r rows IH]; intros x HF; [reflexivity|].
    pose proof (Forall_inv HF) as Hr. pose proof (Forall_inv_tail HF) as HF'. simpl in Hr.
    cbn [forM forallb]. pose proof (validate_ok d r x Hr) as E.
    destruct (negb (length r =? 0) && forallb nfinite r).
    - rewrite (bind_Ok _ _ _ _ _ E). now apply IH.
    - now rewrite (bind_Raise _ _ _ _ _ E).
  Qed.

  Lemma linv_set_dim s x o d : linv s x -> sl_open s = true -> sl_dim s = None ->
    lsh_orc_ok P o ->
    linv (MkSl true (Some d) (sl_slots s))
         (lset_proj (Some (o_proj o d, o_offsets o)) (lset_dim (Some d) x)).
  Proof.
    intros [I1 I2 I3 I4 I5 I6 I7 I8 I9] Ho Hd (O1 & O2 & O3). destruct (I6 Hd) as [Es Epr].
    constructor; simpl; auto.
    - congruence.
    - discriminate.
    - intros d' E. injection E as <-. split.
      + eexists. split; [reflexivity|]. destruct (O1 d). split; [|split]; auto.
      + rewrite Es. intros v m [].
    - intros _. specialize (I9 Ho). rewrite I3, Es in *. simpl in *. exact I9.
  Qed.

  Lemma add_ok s x o rows meta : linv s x -> lfits P s (LInsert o (Mat rows) meta) ->
    let ms := metas_for empty (length rows) meta in
    exists r x', lsh_add T hs P o (Mat rows) ms x = (r, x') /\
      linv (sl_next empty s (LInsert o (Mat rows) meta)) x' /\
      (if sl_open s && Nat.eqb (length rows) (length ms) && rows_ok (dim_for s rows) rows
       then r = Ok (map (fun i => Z.of_nat (length (sl_slots s) + i)) (seq 0 (length rows)))
       else exists e, r = Raise e).
  Proof.
    intros HI (Hor & Hrect & Hmeta) ms. pose proof HI as [I1 I2 I3 I4 I5 I6 I7 I8 I9].
    specialize (Hrect rows eq_refl).
    assert (Hms : forall m, In m ms -> meta_fine m).
    { unfold ms. destruct meta as [l|]; simpl.
      - intros m Hm. eapply Hmeta; eauto.
      - intros m Hm. apply repeat_spec in Hm. subst. now exists empty. }
    cbn [sl_next]. fold ms. unfold lsh_add. rewrite (bind_Ok get _ _ x x) by reflexivity. rewrite I1.
    destruct (sl_open s) eqn:Ho; cbn [negb andb].
    2:{ eexists _, x. split; [reflexivity|]. eauto. }
    destruct (Nat.eqb_spec (length rows) (length ms)) as [El|El]; cbn [negb andb].
    2:{ eexists _, x. split; [reflexivity|]. eauto. }
    set (d := dim_for s rows).
    assert (Hdim : exists x1, (match l_dim x with
                | None => modify (lset_dim (Some (width rows))) ;;; lsh_generate o (width rows)
                | Some _ => ret tt end) x = (Ok tt, x1) /\ linv (MkSl true (Some d) (sl_slots s)) x1).
    { rewrite I2. unfold d, dim_for. destruct (sl_dim s) as [d0|] eqn:Ed.
      - exists x. split; auto. destruct s. simpl in *. now subst.
      - unfold bind, modify, lsh_generate. eexists. split; [reflexivity|].
        now apply linv_set_dim. }
    destruct Hdim as (x1 & E1 & J1). rewrite (bind_Ok _ _ _ _ _ E1).
    rewrite (bind_Ok get _ _ x1 x1) by reflexivity. rewrite (li_dim _ _ J1). cbn [sl_dim].
    unfold rows_ok. destruct (Nat.eqb_spec (width rows) d) as [Ew|Ew]; cbn [negb andb].
    2:{ eexists _, x1. split; [reflexivity|]. eauto. }
    assert (HFd : Forall (fun r => length r = d) rows) by (now rewrite Ew in Hrect).
    pose proof (validate_rows d rows x1 HFd) as Ev.
    destruct (forallb _ rows) eqn:Eok.
    - rewrite (bind_Ok _ _ _ _ _ Ev).
      destruct (add_all_ok d (combine rows ms) (MkSl true (Some d) (sl_slots s)) x1 J1 eq_refl eq_refl)
        as (x' & E & J').
      { rewrite Forall_forall. intros [v m] Hin. simpl. split.
        - apply in_combine_l in Hin. rewrite Forall_forall in HFd. auto.
        - apply in_combine_r in Hin. auto. }
      eexists _, x'. split; [exact E|]. split; [exact J'|].
      rewrite combine_length, <- El, Nat.min_id. reflexivity.
    - eexists _, x1. split; [now rewrite (bind_Raise _ _ _ _ _ Ev)|]. split; [exact J1|eauto].
  Qed.

  Notation step := (lsh_step T hs P lmt threshold empty).
  Notation ans := (lans_ok lmt threshold empty).
  Notation next := (sl_next empty).

  Lemma insert_ok s x o arr meta : linv s x -> lfits P s (LInsert o arr meta) ->
    ans s (LInsert o arr meta) (fst (step (LInsert o arr meta) x)) /\
    linv (next s (LInsert o arr meta)) (snd (step (LInsert o arr meta) x)).
  Proof.
    intros HI Hfit. cbn [lsh_step fst snd]. unfold lsh_insert.
    destruct arr as [v|rows|].
    - cbn [lans_ok sl_next].
      assert (Hn : exists n, lift (match meta with None => py_len (Vec v) | Some _ => Ok 0 end) x = (Ok n, x)).
      { destruct meta; simpl; eexists; reflexivity. }
      destruct Hn as [n En]. rewrite (bind_Ok _ _ _ _ _ En). cbv zeta.
      unfold lsh_add, bind, get. destruct (negb (l_init x)); [simpl; eauto|].
      destruct (negb _); simpl; eauto.
    - set (n := match meta with None => length rows | Some _ => 0 end).
      assert (En : lift (match meta with None => py_len (Mat rows) | Some _ => Ok 0 end) x = (Ok n, x)).
      { destruct meta; reflexivity. }
      rewrite (bind_Ok _ _ _ _ _ En). cbv zeta.
      replace (match meta with Some l => l | None => repeat (Some empty) n end)
        with (metas_for empty (length rows) meta) by (unfold n; destruct meta; reflexivity).
      destruct (add_ok s x o rows meta HI Hfit) as (r & x' & E & J & Hr).
      cbn [lans_ok]. destruct (_ && _ && _).
      + rewrite Hr in E. rewrite (bind_Ok _ _ _ _ _ E). cbn [ret fst snd]. split; [|exact J].
        f_equal. rewrite map_map. apply map_ext. intros i. now rewrite Nat2Z.id.
      + destruct Hr as [e ->]. rewrite (bind_Raise _ _ _ _ _ E). cbn [fst snd]. eauto.
    - cbn [lans_ok sl_next]. unfold bind, lift. destruct meta; simpl.
      + unfold lsh_add, bind, get. destruct (negb (l_init x)); simpl; eauto.
      + eauto.
  Qed.

  (** ** search *)

  Lemma similarity_Ok q v : length q = length v -> exists z, lsh_similarity lmt q v = Ok z.
  Proof.
    intros E. unfold lsh_similarity, np_sub. destruct lmt; try congruence; rewrite E, Nat.eqb_refl; simpl; eauto.
    destruct (neqb _ _); eauto.
  Qed.

  (** Ids the search looks at. *)
  Lemma candidates_live s x codes z : linv s x -> sl_open s = true ->
    In z (lsh_candidates (l_tables x) codes) ->
    exists i v m, z = Z.of_nat i /\ nth_error (sl_slots s) i = Some (Some (v, m)).
  Proof.
    intros HI Ho Hz. pose proof (li_tables _ _ HI Ho) as [El Ht].
    assert (Hx : exists t tb c, nth_error (l_tables x) t = Some tb /\ In (c, z) (entries tb)).
    { unfold lsh_candidates in Hz.
      assert (H1 : In z (to_set (lsh_exact (l_tables x) codes)) \/
                   In z (to_set (lsh_relaxed (l_tables x) codes))).
      { destruct (to_set (lsh_exact (l_tables x) codes)); auto. }
      unfold to_set in H1. rewrite !nodup_In in H1. destruct H1 as [H1|H1].
      - unfold lsh_exact in H1. apply in_flat_map in H1 as ([tb c] & Hc & Hi).
        apply in_combine_l in Hc. apply In_nth_error in Hc as [t Et].
        exists t, tb, c. split; auto. destruct (dget c tb) as [l|] eqn:E; [|destruct Hi].
        apply In_entries; [apply (Ht _ _ Et)|]. eauto.
      - unfold lsh_relaxed in H1. apply in_flat_map in H1 as ([tb c] & Hc & Hi).
        apply in_combine_l in Hc. apply In_nth_error in Hc as [t Et].
        apply in_flat_map in Hi as ([c' l] & Hl & Hi). destruct (Nat.leb _ 2); [|destruct Hi].
        exists t, tb, c'. split; auto. unfold entries. apply in_flat_map. exists (c', l). split; auto.
        now apply in_map. }
    destruct Hx as (t & tb & c & Et & Hin). destruct (Ht _ _ Et) as [_ Hp].
    apply (Permutation_in _ Hp) in Hin. apply In_live in Hin as (j & v & Ej & -> & _).
    rewrite (li_vectors _ _ HI) in Ej. rewrite nth_error_map in Ej.
    destruct (nth_error (sl_slots s) j) as [[[v' m]|]|] eqn:E; try discriminate.
    exists j, v', m. auto.
  Qed.

  (** The result entry of a live slot. *)
  Definition hit_of (q : list F) (i : nat) (v : list F) (m : Mt) : option (lsh_hit F Mt) :=
    match lsh_similarity lmt q v with
    | Ok z => if nleb threshold z then Some (MkLhit (Z.of_nat i) z (Some m)) else None
    | Raise _ => None
    end.

  Lemma consider_live s x q i v m d : linv s x -> sl_dim s = Some d -> length q = d ->
    nth_error (sl_slots s) i = Some (Some (v, m)) ->
    lsh_consider lmt threshold x q (Z.of_nat i) = Ok (hit_of q i v m).
  Proof.
    intros HI Hd Hq E. unfold lsh_consider, hit_of.
    assert (Hi : i < length (sl_slots s)) by (apply nth_error_Some; congruence).
    rewrite (li_vectors _ _ HI), map_length.
    replace (Z.of_nat i <? Z.of_nat (length (sl_slots s)))%Z with true by lia.
    rewrite py_index_nat, nth_error_map, E. simpl.
    assert (Hv : length q = length v).
    { rewrite Hq. symmetry. apply (li_some _ _ HI d Hd) with (m := m). now apply nth_error_In in E. }
    destruct (similarity_Ok q v Hv) as [z ->]. simpl. destruct (nleb threshold z); auto.
    now rewrite (li_meta _ _ HI), py_index_nat, nth_error_map, E.
  Qed.

  Lemma hit_of_id q i v m h : hit_of q i v m = Some h -> lh_id h = Z.of_nat i.
  Proof.
    unfold hit_of. destruct (lsh_similarity lmt q v); [|discriminate].
    destruct (nleb _ _); [|discriminate]. now intros [= <-].
  Qed.

  (** The entries found for a list of ids without repetition. *)
  Lemma entries_found s x q d : linv s x -> sl_dim s = Some d -> length q = d ->
    forall ids, (forall z, In z ids -> exists i v m, z = Z.of_nat i /\
                   nth_error (sl_slots s) i = Some (Some (v, m))) -> NoDup ids ->
    exists os, rmap (lsh_consider lmt threshold x q) ids = Ok os /\
      (forall h, In h (somes os) <-> exists i v m, In (Z.of_nat i) ids /\
          nth_error (sl_slots s) i = Some (Some (v, m)) /\ hit_of q i v m = Some h) /\
      NoDup (map lh_id (somes os)).
  Proof.
    intros HI Hd Hq. induction ids as [|z ids IH]; intros Hids Hnd.
    - exists []. simpl. split; auto. split; [|constructor]. intros h. split; [tauto|].
      intros (i & v & m & [] & _).
    - apply NoDup_cons_iff in Hnd as [Hz Hnd'].
      destruct IH as (os & E & Hos & Hn); [intros; apply Hids; now right|auto|].
      destruct (Hids z (or_introl eq_refl)) as (i & v & m & -> & Ei).
      exists (hit_of q i v m :: os). split.
      { simpl. rewrite (consider_live s x q i v m d) by auto. simpl. now rewrite E. }
      assert (Hcons : forall h, In h (somes (hit_of q i v m :: os)) <->
                                hit_of q i v m = Some h \/ In h (somes os)).
      { intros h. rewrite !In_somes. simpl. tauto. }
      split.
      + intros h. rewrite Hcons, Hos. split.
        * intros [Eh|(i' & v' & m' & Hin & E1 & E2)].
          -- exists i, v, m. simpl. auto.
          -- exists i', v', m'. simpl. auto.
        * intros (i' & v' & m' & [Ez|Hin] & E1 & E2).
          -- apply Nat2Z.inj in Ez. subst i'. rewrite Ei in E1. injection E1 as <- <-. auto.
          -- right. exists i', v', m'. auto.
      + destruct (hit_of q i v m) as [h|] eqn:Eh; simpl; auto. constructor; auto.
        intros Hin. apply in_map_iff in Hin as (h' & Eid & Hh'). apply Hos in Hh' as (i' & v' & m' & Hin & E1 & E2).
        rewrite (hit_of_id _ _ _ _ _ Eh), (hit_of_id _ _ _ _ _ E2) in Eid.
        apply Nat2Z.inj in Eid. subst i'. auto.
  Qed.

  (** The answer of a search on an open index with a fitting query. *)
  Lemma search_answer s x o q k d : linv s x -> sl_open s = true -> sl_dim s = Some d ->
    length q = d -> d <> 0 -> forallb nfinite q = true -> lsh_orc_ok P o ->
    exists found, lsh_search T hs P lmt threshold o (Vec q) k x = (Ok (slice_to k found), x) /\
      (forall h, In h found <-> exists i v m,
          In (Z.of_nat i) (lsh_candidates (l_tables x) (codes_of (the_proj x) q)) /\
          nth_error (sl_slots s) i = Some (Some (v, m)) /\ hit_of q i v m = Some h) /\
      NoDup (map lh_id found) /\
      StronglySorted (fun a b => nleb (lh_score b) (lh_score a) = true) found.
  Proof.
    intros HI Ho Hd Hq Hd0 Hfin Hor. pose proof (li_init _ _ HI) as I1. rewrite Ho in I1.
    unfold lsh_search. rewrite (bind_Ok get _ _ x x) by reflexivity. rewrite I1. cbn [negb].
    rewrite (li_dim _ _ HI), Hd.
    assert (Ev : lift (validate_dim d (Vec q)) x = (Ok tt, x)).
    { rewrite validate_ok by auto. rewrite Hfin. destruct (Nat.eqb_spec (length q) 0); simpl; congruence. }
    rewrite (bind_Ok _ _ _ _ _ Ev). cbv zeta.
    rewrite (bind_Ok _ _ _ _ _ (hash_spec s x q d HI Hd Hq)).
    set (cs := lsh_candidates _ _).
    destruct Hor as (_ & _ & Hord).
    assert (Hnd : NoDup cs).
    { unfold cs, lsh_candidates, to_set. destruct (nodup Z.eq_dec (lsh_exact _ _)) eqn:E;
        [apply NoDup_nodup|]. rewrite <- E. apply NoDup_nodup. }
    destruct (entries_found s x q d HI Hd Hq (o_order o cs)) as (os & E & Hos & Hn).
    { intros z Hz. apply (Permutation_in _ (Hord cs)) in Hz. eapply candidates_live; eauto. }
    { eapply Permutation_NoDup; [symmetry; apply Hord|auto]. }
    assert (El : lift (rmap (lsh_consider lmt threshold x q) (o_order o cs)) x = (Ok os, x)).
    { unfold lift. now rewrite E. }
    rewrite (bind_Ok _ _ _ _ _ El). unfold ret. eexists. split; [reflexivity|].
    set (le := fun a b : lsh_hit F Mt => nleb (lh_score b) (lh_score a)).
    split; [|split].
    - intros h. rewrite In_sort, Hos. split; intros (i & v & m & Hin & Hr); exists i, v, m; (split; [|auto]).
      + eapply Permutation_in; [apply Hord|auto].
      + eapply Permutation_in; [symmetry; apply Hord|auto].
    - eapply Permutation_NoDup; [|exact Hn]. apply Permutation_map. symmetry. apply sort_perm.
    - apply (sort_sorted le (fun _ => True)).
      + unfold le. split.
        * intros a b _ _. apply nleb_total.
        * intros a b c _ _ _ Hab Hbc. eapply nleb_trans; eauto.
      + apply Forall_forall. auto.
  Qed.

  Lemma slice_to_prefix {A} k (l : list A) : exists l2, l = slice_to k l ++ l2.
  Proof.
    unfold slice_to. eexists. symmetry. apply firstn_skipn.
  Qed.

  Lemma slice_to_sub {A} k (l : list A) a : In a (slice_to k l) -> In a l.
  Proof. intros Hin. destruct (slice_to_prefix k l) as [l2 ->]. apply in_or_app. auto. Qed.

  Lemma search_ok s x o q k : linv s x -> lfits P s (LSearch o q k) ->
    ans s (LSearch o q k) (fst (step (LSearch o q k) x)) /\
    linv (next s (LSearch o q k)) (snd (step (LSearch o q k) x)).
  Proof.
    intros HI Hor. cbn [lsh_step fst snd sl_next lans_ok]. pose proof (li_init _ _ HI) as I1.
    destruct (sl_open s) eqn:Ho.
    2:{ unfold lsh_search, bind, get. rewrite I1. simpl. auto. }
    destruct (sl_dim s) as [d|] eqn:Hd.
    2:{ unfold lsh_search, bind, get. rewrite I1, (li_dim _ _ HI), Hd. simpl. auto. }
    assert (Hbad : lift (validate_dim d q) x = (Raise EValidation, x) ->
                   lsh_search T hs P lmt threshold o q k x = (Raise EValidation, x)).
    { intros E. unfold lsh_search. rewrite (bind_Ok get _ _ x x) by reflexivity.
      rewrite I1, (li_dim _ _ HI), Hd. cbn [negb]. apply (bind_Raise _ _ _ _ _ E). }
    destruct q as [q|rows|]; try (rewrite Hbad by reflexivity; simpl; auto).
    destruct (Nat.eqb_spec (length q) d) as [Hq|Hq]; cbn [andb].
    2:{ rewrite Hbad; [simpl; auto|]. unfold lift, validate_dim.
        destruct (length q =? 0); auto. destruct (Nat.ltb_spec (length q) d); auto.
        destruct (Nat.ltb_spec d (length q)); auto. lia. }
    destruct (Nat.eqb_spec d 0) as [Hd0|Hd0]; cbn [negb andb].
    { rewrite Hbad; [simpl; auto|]. rewrite validate_ok by auto.
      destruct (Nat.eqb_spec (length q) 0); simpl; auto. congruence. }
    destruct (forallb nfinite q) eqn:Hfin.
    2:{ rewrite Hbad; [simpl; auto|]. rewrite validate_ok by auto. rewrite Hfin, andb_false_r. auto. }
    destruct (search_answer s x o q k d HI Ho Hd Hq Hd0 Hfin Hor) as (found & E & Hin & Hnd & Hs).
    rewrite E. cbn [fst snd]. split; [|exact HI]. eexists. split; [reflexivity|].
    destruct (slice_to_prefix k found) as [l2 El].
    constructor.
    - intros h Hh. apply slice_to_sub in Hh. apply Hin in Hh as (i & v & m & _ & Ei & Eh).
      exists i, v, m. pose proof (hit_of_id _ _ _ _ _ Eh) as Eid. unfold hit_of in Eh.
      destruct (lsh_similarity lmt q v) eqn:Es; [|discriminate].
      destruct (nleb threshold a) eqn:Et; [|discriminate]. injection Eh as <-. simpl in *. auto 6.
    - rewrite El, map_app in Hnd. now apply NoDup_app_remove_r' in Hnd.
    - rewrite El in Hs. now apply StronglySorted_app_inv in Hs.
    - intros Hk. rewrite slice_to_nonneg by auto. rewrite firstn_length. lia.
  Qed.

  (** ** delete and update *)

  Lemma linv_drop d l1 v m l2 x : linv (MkSl true (Some d) (l1 ++ Some (v, m) :: l2)) x ->
    linv (MkSl true (Some d) (l1 ++ None :: l2))
      (lset_metadata (set_nth (length l1) None (l_metadata x))
        (lset_vectors (set_nth (length l1) None (l_vectors x))
          (lset_tables (zip_tables (fun c => bucket_remove c (Z.of_nat (length l1)))
                                   (codes_of (the_proj x) v) (l_tables x)) x))).
  Proof.
    intros [I1 I2 I3 I4 I5 I6 I7 I8 I9]. cbn [sl_open sl_dim sl_slots] in *.
    rewrite map_app in I3, I4. simpl in I3, I4.
    assert (E1 : set_nth (length l1) None (l_vectors x) =
                 map (option_map fst) (l1 ++ None :: l2)).
    { rewrite I3, map_app. rewrite <- (map_length (option_map fst) l1) at 1. apply set_nth_app. }
    assert (E2 : set_nth (length l1) None (l_metadata x) =
                 map (option_map snd) (l1 ++ None :: l2)).
    { rewrite I4, map_app. rewrite <- (map_length (option_map snd) l1) at 1. apply set_nth_app. }
    constructor; simpl; auto.
    - rewrite I5, !app_length. reflexivity.
    - discriminate.
    - intros d' E. destruct (I7 d' E) as [Hp HF]. split; auto. intros v' m' Hin. apply (HF v' m').
      apply in_app_iff in Hin as [Hin|[Hin|Hin]]; [|discriminate|]; apply in_or_app; simpl; auto.
    - discriminate.
    - intros _. specialize (I9 eq_refl). rewrite I3 in I9. rewrite E1, map_app. simpl.
      rewrite <- (map_length (option_map fst) l1). exact (tables_remove _ _ _ _ v I9).
  Qed.

  Lemma linv_fill d l1 v m l2 x : linv (MkSl true (Some d) (l1 ++ None :: l2)) x -> length v = d ->
    linv (MkSl true (Some d) (l1 ++ Some (v, m) :: l2))
      (lset_tables (zip_tables (fun c => bucket_add c (Z.of_nat (length l1)))
                               (codes_of (the_proj x) v) (l_tables x))
        (lset_metadata (set_nth (length l1) (Some m) (l_metadata x))
          (lset_vectors (set_nth (length l1) (Some v) (l_vectors x)) x))).
  Proof.
    intros [I1 I2 I3 I4 I5 I6 I7 I8 I9] Hv. cbn [sl_open sl_dim sl_slots] in *.
    rewrite map_app in I3, I4. simpl in I3, I4.
    assert (E1 : set_nth (length l1) (Some v) (l_vectors x) =
                 map (option_map fst) (l1 ++ Some (v, m) :: l2)).
    { rewrite I3, map_app. rewrite <- (map_length (option_map fst) l1) at 1. apply set_nth_app. }
    assert (E2 : set_nth (length l1) (Some m) (l_metadata x) =
                 map (option_map snd) (l1 ++ Some (v, m) :: l2)).
    { rewrite I4, map_app. rewrite <- (map_length (option_map snd) l1) at 1. apply set_nth_app. }
    constructor; simpl; auto.
    - rewrite I5, !app_length. reflexivity.
    - discriminate.
    - intros d' E. destruct (I7 d' E) as [Hp HF]. split; auto. intros v' m' Hin.
      apply in_app_iff in Hin as [Hin|[Hin|Hin]].
      + apply (HF v' m'). apply in_or_app; auto.
      + congruence.
      + apply (HF v' m'). apply in_or_app; simpl; auto.
    - discriminate.
    - intros _. specialize (I9 eq_refl). rewrite I3 in I9. rewrite E1, map_app. simpl.
      rewrite <- (map_length (option_map fst) l1). exact (tables_readd _ _ _ _ v I9).
  Qed.

  (** A live slot fixes the dimension. *)
  Lemma live_dim s x i o : linv s x -> nth_error (sl_slots s) i = Some o -> exists d, sl_dim s = Some d.
  Proof.
    intros HI E. destruct (sl_dim s) as [d|] eqn:Ed; eauto.
    apply (li_none _ _ HI) in Ed as [El _]. rewrite El in E. destruct i; discriminate.
  Qed.

  Lemma vector_at s x i : linv s x ->
    nth_error (l_vectors x) i = option_map (option_map fst) (nth_error (sl_slots s) i).
  Proof. intros HI. rewrite (li_vectors _ _ HI). apply nth_error_map. Qed.

  Definition drop_at (l : list (option (list F * Mt))) (i : nat) :=
    match nth_error l i with Some (Some _) => set_nth i None l | _ => l end.

  Lemma remove_one_ok s x i : linv s x -> sl_open s = true ->
    exists x', lsh_remove_one T hs P (Z.of_nat i) x = (Ok tt, x') /\
      linv (MkSl true (sl_dim s) (drop_at (sl_slots s) i)) x'.
  Proof.
    intros HI Ho. assert (Hs : s = MkSl true (sl_dim s) (sl_slots s)).
    { destruct s. simpl in *. now subst. }
    unfold lsh_remove_one. rewrite (bind_Ok get _ _ x x) by reflexivity.
    assert (Elen : length (l_vectors x) = length (sl_slots s)).
    { rewrite (li_vectors _ _ HI). apply map_length. }
    rewrite Elen. unfold drop_at.
    destruct (Z.ltb_spec (Z.of_nat i) (Z.of_nat (length (sl_slots s)))) as [Hi|Hi].
    2:{ exists x. split; auto. rewrite (proj2 (nth_error_None _ _)) by lia. now rewrite <- Hs. }
    assert (El : lift (py_index (l_vectors x) (Z.of_nat i)) x =
                 (match nth_error (l_vectors x) i with Some v => Ok v | None => Raise EIndexRange end, x)).
    { unfold lift. now rewrite py_index_nat. }
    rewrite (vector_at s) in El by auto.
    destruct (nth_error (sl_slots s) i) as [[[v m]|]|] eqn:E; simpl in El.
    3:{ apply nth_error_None in E. lia. }
    2:{ rewrite (bind_Ok _ _ _ _ _ El). exists x. split; auto. now rewrite <- Hs. }
    rewrite (bind_Ok _ _ _ _ _ El).
    destruct (live_dim _ _ _ _ HI E) as [d Hd].
    assert (Hv : length v = d).
    { apply (li_some _ _ HI d Hd) with (m := m). now apply nth_error_In in E. }
    rewrite (bind_Ok _ _ _ _ _ (hash_spec s x v d HI Hd Hv)).
    assert (Ec : length (codes_of (the_proj x) v) = length (l_tables x)).
    { rewrite codes_length. symmetry. apply (li_tables _ _ HI Ho). }
    rewrite (bind_Ok _ _ _ _ _ (unput_spec _ (Z.of_nat i) x Ec)).
    apply nth_error_split in E as (l1 & l2 & E & <-). rewrite Hd in Hs. rewrite E in Hs.
    rewrite Hs in HI. pose proof (linv_drop d l1 v m l2 x HI) as J.
    unfold set_vector, set_meta, bind, get, lift, modify. simpl.
    assert (Hm : length (l_metadata x) = length (sl_slots s)).
    { rewrite (li_meta _ _ HI), map_length, Hs. reflexivity. }
    rewrite py_set_index_nat by lia. simpl. rewrite py_set_index_nat by lia.
    eexists. split; [reflexivity|]. rewrite Hd, E, set_nth_app. exact J.
  Qed.

  Lemma remove_all_ok ids : forall s x, linv s x -> sl_open s = true -> Forall not_negative ids ->
    exists x', forM (int_ids ids) (lsh_remove_one T hs P) x = (Ok tt, x') /\
      linv (MkSl true (sl_dim s) (fold_left del_at ids (sl_slots s))) x'.
  Proof.
    induction ids as [|id ids IH]; intros s x HI Ho HF.
    - exists x. split; auto. simpl. destruct s. simpl in *. now subst.
    - pose proof (Forall_inv HF) as Hn. pose proof (Forall_inv_tail HF) as HF'.
      unfold int_ids in *. cbn [map somes flat_map fold_left].
      unfold del_at at 2, live_at, put_at, slot_of. specialize (Hn : forall z, _).
      destruct (py_int id) as [z|] eqn:Ez.
      2:{ cbn [app]. apply IH; auto. }
      specialize (Hn z eq_refl). replace (0 <=? z)%Z with true by lia. cbn [app forM].
      destruct (remove_one_ok s x (Z.to_nat z) HI Ho) as (x1 & E1 & J1).
      rewrite Z2Nat.id in E1 by lia. rewrite (bind_Ok _ _ _ _ _ E1).
      destruct (IH _ x1 J1 eq_refl HF') as (x' & E & J). exists x'. split; auto.
      unfold drop_at in J. cbn [sl_dim sl_slots] in J.
      destruct (nth_error (sl_slots s) (Z.to_nat z)) as [[vm|]|]; exact J.
  Qed.

  Lemma delete_ok s x ids : linv s x -> lfits P s (LDelete ids) ->
    ans s (LDelete ids) (fst (step (LDelete ids) x)) /\
    linv (next s (LDelete ids)) (snd (step (LDelete ids) x)).
  Proof.
    intros HI HF. cbn [lsh_step fst snd sl_next lans_ok]. pose proof (li_init _ _ HI) as I1.
    unfold lsh_delete, lsh_remove, catch. unfold bind at 1 3, get.
    destruct (sl_open s) eqn:Ho.
    - destruct (remove_all_ok ids s x HI Ho HF) as (x' & E & J).
      unfold bind. rewrite I1. cbn [negb]. rewrite E. simpl. auto.
    - unfold bind. rewrite I1. simpl. auto.
  Qed.

  Lemma update_ok s x id v m : linv s x -> lfits P s (LUpdate id v m) ->
    ans s (LUpdate id v m) (fst (step (LUpdate id v m) x)) /\
    linv (next s (LUpdate id v m)) (snd (step (LUpdate id v m) x)).
  Proof.
    intros HI (Hn & Hdv & Hm). cbn [lsh_step fst snd sl_next lans_ok].
    pose proof (li_init _ _ HI) as I1. unfold lsh_update.
    rewrite (bind_Ok get _ _ x x) by reflexivity. rewrite I1.
    destruct (sl_open s) eqn:Ho; cbn [negb]; [|simpl; auto].
    assert (Hs : s = MkSl true (sl_dim s) (sl_slots s)).
    { destruct s. simpl in *. now subst. }
    unfold put_at. unfold live_at, slot_of in *. unfold catch.
    destruct (py_int id) as [z|] eqn:Ez; [|simpl; auto].
    specialize (Hn z Ez). replace (0 <=? z)%Z with true in * by lia.
    set (i := Z.to_nat z) in *. replace z with (Z.of_nat i) by (unfold i; lia).
    rewrite (bind_Ok (lift (Ok (Z.of_nat i))) _ _ (Z.of_nat i) x) by reflexivity.
    assert (Elen : length (l_vectors x) = length (sl_slots s)).
    { rewrite (li_vectors _ _ HI). apply map_length. }
    rewrite Elen.
    destruct (Z.leb_spec (Z.of_nat (length (sl_slots s))) (Z.of_nat i)) as [Hi|Hi].
    { rewrite (proj2 (nth_error_None _ _)) by lia. simpl. auto. }
    assert (El : lift (py_index (l_vectors x) (Z.of_nat i)) x =
                 (match nth_error (l_vectors x) i with Some v => Ok v | None => Raise EIndexRange end, x)).
    { unfold lift. now rewrite py_index_nat. }
    rewrite (vector_at s) in El by auto.
    destruct (nth_error (sl_slots s) i) as [[[v0 m0]|]|] eqn:E; simpl in El.
    3:{ apply nth_error_None in E. lia. }
    2:{ rewrite (bind_Ok _ _ _ _ _ El). simpl. auto. }
    rewrite (bind_Ok _ _ _ _ _ El).
    destruct (live_dim _ _ _ _ HI E) as [d Hd].
    assert (Hv0 : length v0 = d).
    { apply (li_some _ _ HI d Hd) with (m := m0). now apply nth_error_In in E. }
    assert (Hv : length v = d).
    { rewrite Hd in Hdv. assert (Some d = Some (length v)) by (apply Hdv; discriminate). congruence. }
    destruct (li_some _ _ HI d Hd) as ((pr & Epr & Hpr) & _).
    rewrite (bind_Ok _ _ _ _ _ (hash_spec s x v0 d HI Hd Hv0)).
    assert (Ec : forall w, length (codes_of (the_proj x) w) = length (l_tables x)).
    { intros w. rewrite codes_length. symmetry. apply (li_tables _ _ HI Ho). }
    rewrite (bind_Ok _ _ _ _ _ (unput_spec _ (Z.of_nat i) x (Ec v0))).
    set (x1 := lset_tables _ x).
    assert (Ex1 : length (l_vectors x1) = length (sl_slots s)) by exact Elen.
    assert (E2 : set_vector (Z.of_nat i) (Some v) x1 =
                 (Ok tt, lset_vectors (set_nth i (Some v) (l_vectors x1)) x1)).
    { unfold set_vector, bind, get, lift, modify. rewrite py_set_index_nat by lia. reflexivity. }
    rewrite (bind_Ok _ _ _ _ _ E2). set (x2 := lset_vectors _ x1).
    assert (Hlm0 : length (l_metadata x) = length (sl_slots s)).
    { rewrite (li_meta _ _ HI). apply map_length. }
    set (mm := match m with Some d0 => d0 | None => m0 end).
    assert (E3 : (match m with
                  | Some _ => d <- lift (copy_meta m) ;; set_meta (Z.of_nat i) (Some d)
                  | None => ret tt
                  end) x2 = (Ok tt, lset_metadata (set_nth i (Some mm) (l_metadata x)) x2)).
    { destruct Hm as [->|(dm & -> & Hc)].
      - unfold ret. do 2 f_equal. unfold mm. rewrite set_nth_same; [reflexivity|].
        rewrite (li_meta _ _ HI), nth_error_map, E. reflexivity.
      - unfold bind, lift, copy_meta. rewrite Hc. unfold set_meta, bind, get, lift, modify.
        unfold x2, x1. simpl. rewrite py_set_index_nat by lia. reflexivity. }
    rewrite (bind_Ok _ _ _ _ _ E3). set (x3 := lset_metadata _ x2).
    assert (E4 : lsh_hash_vector T hs P v x3 = (Ok (codes_of (the_proj x) v), x3)).
    { unfold lsh_hash_vector, bind, get. unfold x3, x2, x1. simpl. rewrite Epr. unfold lift, the_proj.
      rewrite Epr. now rewrite (codes_spec d). }
    rewrite (bind_Ok _ _ _ _ _ E4).
    assert (Ec3 : length (codes_of (the_proj x) v) = length (l_tables x3)).
    { rewrite (Ec v). unfold x3, x2, x1. simpl. symmetry. apply zip_tables_length. apply Ec. }
    rewrite (bind_Ok _ _ _ _ _ (put_spec _ (Z.of_nat i) x3 Ec3)). unfold ret. cbn [fst snd].
    split; [reflexivity|].
    apply nth_error_split in E as (l1 & l2 & E & Ei). rewrite Hd, E in Hs. rewrite Hs in HI.
    pose proof (linv_fill d l1 v mm l2 _ (linv_drop d l1 v0 m0 l2 x HI) Hv) as J.
    rewrite Hd, E, <- Ei, set_nth_app. rewrite Ei in J |- *.
    unfold x3, x2, x1. cbn in J |- *.
    replace (set_nth i (Some v) (set_nth i None (l_vectors x))) with (set_nth i (Some v) (l_vectors x)) in J
      by (symmetry; apply set_nth_twice).
    rewrite set_nth_twice in J. exact J.
  Qed.

  Lemma init_ok s x : linv s x -> lfits P s LInit ->
    ans s LInit (fst (step LInit x)) /\ linv (next s LInit) (snd (step LInit x)).
  Proof.
    intros HI Ho. simpl in Ho. cbn [lsh_step lans_ok sl_next fst snd]. split; [reflexivity|].
    pose proof HI as [I1 I2 I3 I4 I5 I6 I7 I8 I9]. specialize (I8 Ho). 
    unfold lsh_initialize, bind, modify. cbn [fst snd].
    constructor; simpl; auto; try discriminate.
    intros _. rewrite I3, I8. apply tables_empty.
  Qed.

  Lemma clear_ok s x : linv s x ->
    ans s LClear (fst (step LClear x)) /\ linv (next s LClear) (snd (step LClear x)).
  Proof.
    intros HI. cbn [lsh_step lans_ok sl_next fst snd]. split; [reflexivity|].
    pose proof HI as [I1 I2 I3 I4 I5 I6 I7 I8 I9].
    unfold lsh_clear, bind, modify. cbn [fst snd].
    constructor; simpl; auto.
    - intros Hd. split; auto. now apply I6.
    - intros d Hd. split; [now apply I7|]. intros v m [].
    - intros _. apply tables_empty.
  Qed.

  Lemma close_ok s x : linv s x ->
    ans s LClose (fst (step LClose x)) /\ linv (next s LClose) (snd (step LClose x)).
  Proof.
    intros HI. cbn [lsh_step lans_ok sl_next fst snd]. split; [reflexivity|].
    pose proof HI as [I1 I2 I3 I4 I5 I6 I7 I8 I9].
    unfold lsh_close, lsh_clear, bind, modify. cbn [fst snd].
    constructor; simpl; auto; try discriminate.
    - intros Hd. split; auto. now apply I6.
    - intros d Hd. split; [now apply I7|]. intros v m [].
  Qed.

  Theorem step_ok s x op : linv s x -> lfits P s op ->
    ans s op (fst (step op x)) /\ linv (next s op) (snd (step op x)).
  Proof.
    intros HI Hf. destruct op.
    - now apply init_ok.
    - now apply insert_ok.
    - now apply search_ok.
    - now apply delete_ok.
    - now apply update_ok.
    - now apply clear_ok.
    - now apply close_ok.
  Qed.

  Theorem run_ok ops : forall s x, linv s x -> lhistory P empty s ops ->
    lconforms lmt threshold empty s ops (fst (lsh_run T hs P lmt threshold empty ops x)) /\
    linv (fold_left next ops s) (snd (lsh_run T hs P lmt threshold empty ops x)).
  Proof.
    induction ops as [|op ops IH]; intros s x HI Hh; simpl; auto.
    destruct Hh as [Hf Hh]. destruct (step_ok s x op HI Hf) as [Ha HI'].
    destruct (step op x) as [r x1] eqn:E. simpl in Ha, HI'.
    destruct (IH _ x1 HI' Hh) as [Hc HI2].
    destruct (lsh_run _ _ _ _ _ _ ops x1) as [rs x2] eqn:Er. simpl in *. auto.
  Qed.

  Lemma linv_new : linv no_slots lsh_new.
  Proof. constructor; simpl; auto; discriminate. Qed.

  Theorem after_ok ops : lhistory P empty no_slots ops ->
    linv (sl_after empty ops) (lsh_after T hs P lmt threshold empty ops).
  Proof. intros Hh. apply run_ok; auto. apply linv_new. Qed.
End Lsh.

Lemma rmap_somes {A B} (f : A -> result (option B)) l : forall os b,
  rmap f l = Ok os -> In b (somes os) -> exists a, In a l /\ f a = Ok (Some b).
Proof.
  induction l as [|a l IH]; simpl; intros os b E Hb.
  - injection E as <-. destruct Hb.
  - destruct (f a) as [o|] eqn:Ef; simpl in E; [|discriminate].
    destruct (rmap f l) as [os'|] eqn:Er; simpl in E; [|discriminate]. injection E as <-.
    rewrite In_somes in Hb. destruct Hb as [->|Hb]; [eauto|].
    rewrite <- In_somes in Hb. destruct (IH os' b eq_refl Hb) as (a' & Ha' & Ef'). eauto.
Qed.
