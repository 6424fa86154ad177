(** C127: vectors and metadata saved to a file are read back. *)

From Coq Require Import String List Arith ZArith NArith QArith Bool Lia ZifyBool ZifyNat ZifyN.
From Verif Require Import PyBase BaseLemmas PyMore PyValue ValidateModel FsModel PersistModel ChunkModel
  ParserChoiceModel VecFileModel.
Import ListNotations.
Open Scope py_scope.
Open Scope nat_scope.

(** ** Specification *)

(** The format and the suffix belong together. *)
Definition belongs (format suffix : pystr) : Prop :=
  (format = py "npz" /\ suffix = py ".npz") \/ (format = py "pickle" /\ suffix = py ".pkl") \/
  (format = py "json" /\ suffix = py ".json").

(** Values JSON can express: no tuples, and dictionaries of different strings. *)
Inductive plain : pyval -> Prop :=
| pl_none : plain PNone
| pl_bool b : plain (PBool b)
| pl_int z : plain (PInt z)
| pl_float f : plain (PFloat f)
| pl_str s : plain (PStr s)
| pl_list l : (forall x, In x l -> plain x) -> plain (PList l)
| pl_dict d : (forall k, In k (map fst d) -> exists s, k = PStr s) -> NoDup (map fst d) ->
    (forall v, In v (map snd d) -> plain v) -> plain (PDict d).

(** Arrays of 64-bit numbers that have a number: these JSON lists describe completely. *)
Definition described {F} (a : varr F) : Prop :=
  match a with
  | V1 t l => t = wide t /\ (l = [] -> t = TFloat 64)
  | V2 t w rows => t = wide t /\ rows <> [] /\ (w = 0 -> t = TFloat 64)
  end.

(** How JSON spells a key that is no string; of the numbers only the digits. *)
Inductive spelled : pyval -> pystr -> Prop :=
| sp_str s : spelled (PStr s) s
| sp_true : spelled (PBool true) (py "true")
| sp_false : spelled (PBool false) (py "false")
| sp_none : spelled PNone (py "null")
| sp_digit n : (n < 10)%N -> spelled (PInt (Z.of_N n)) [(48 + n)%N].

(** ** Paths *)

Lemma split_same s : split_slash s = split 47 s.
Proof.
  induction s as [|c s IH]; [reflexivity|]. cbn [split_slash split]. rewrite <- IH.
  destruct (split_slash s) as [|w ws] eqn:E.
  - destruct (N.eqb c 47); [|reflexivity]. exfalso. revert E. clear.
    destruct s as [|a s]; cbn [split_slash]; [discriminate|].
    destruct (split_slash s); [discriminate|]. destruct (N.eqb a 47); discriminate.
  - destruct (N.eqb c 47); reflexivity.
Qed.

Lemma path_name_last p : path_name p = last (names p) [].
Proof.
  unfold path_name, names. rewrite split_same. f_equal. apply filter_ext. intros w.
  now rewrite negb_orb.
Qed.

Lemma full_names cwd p : full cwd p = names p \/ full cwd p = cwd ++ names p.
Proof.
  unfold full. destruct p as [|[|c] r]; auto.
  repeat (destruct c as [c|c|]; auto).
Qed.

(** A path with a suffix ends in a name with that suffix. *)
Lemma suffix_parts cwd p sfx : path_suffix p = sfx -> sfx <> [] ->
  exists front stem, full cwd p = front ++ [stem ++ sfx] /\ stem <> [].
Proof.
  intros E Hne. unfold path_suffix in E. cbv zeta in E.
  destruct ((0 <? py_rfind (path_name p) (py ".") 0 (zlen (path_name p)))%Z &&
            (py_rfind (path_name p) (py ".") 0 (zlen (path_name p)) <? zlen (path_name p) - 1)%Z) eqn:C;
    [|congruence].
  apply andb_prop in C as (C1 & C2). set (i := py_rfind _ _ _ _) in *.
  assert (Hn : exists front, full cwd p = front ++ [path_name p]).
  { assert (exists front, names p = front ++ [path_name p]) as (f & Ef).
    { rewrite path_name_last. destruct (names p) as [|w ws] eqn:En.
      - exfalso. rewrite path_name_last, En in E. cbn [last] in E. rewrite skipn_nil in E. congruence.
      - exists (removelast (w :: ws)). apply app_removelast_last. discriminate. }
    destruct (full_names cwd p) as [-> | ->]; [exists f; exact Ef|].
    exists (cwd ++ f). rewrite Ef. apply app_assoc. }
  destruct Hn as (front & Hf). exists front, (firstn (Z.to_nat i) (path_name p)). split.
  - rewrite Hf. do 2 f_equal. rewrite <- E. now rewrite firstn_skipn.
  - intros H. apply (f_equal (@length _)) in H. rewrite firstn_length in H. cbn in H.
    unfold zlen in C2. lia.
Qed.

Lemma place_snoc front n : n <> py ".." -> place (front ++ [n]) = place front ++ [n].
Proof.
  intros H. unfold place. rewrite fold_left_app. cbn [fold_left]. unfold FsModel.step at 1.
  now rewrite eqb_neq.
Qed.

Lemma npz_path_snoc front n : npz_path (front ++ [n]) =
  if has_suffix (py ".npz") n then front ++ [n] else front ++ [n ++ py ".npz"].
Proof.
  unfold npz_path. destruct (front ++ [n]) as [|w ws] eqn:E; [now destruct front|]. rewrite <- E.
  now rewrite last_last, removelast_last.
Qed.

Lemma has_suffix_app sfx stem : has_suffix sfx (stem ++ sfx) = true.
Proof.
  unfold has_suffix. rewrite app_length, skipn_app.
  replace (length stem + length sfx - length sfx) with (length stem) by lia.
  rewrite skipn_all, Nat.sub_diag. cbn. apply eqb_refl.
Qed.

(** The archive of a path that ends in another of the suffixes is another file. *)
Lemma other_archive front stem sfx : sfx = py ".pkl" \/ sfx = py ".json" -> stem <> [] ->
  place (npz_path (front ++ [stem ++ sfx])) <> place (front ++ [stem ++ sfx]).
Proof.
  intros Hs Hne. assert (Hh : has_suffix (py ".npz") (stem ++ sfx) = false).
  { unfold has_suffix. rewrite app_length, skipn_app. destruct Hs as [-> | ->]; cbn [length py].
    - replace (length stem + length (py ".pkl") - length (py ".npz")) with (length stem) by (cbn; lia).
      rewrite skipn_all, Nat.sub_diag. reflexivity.
    - replace (length stem + length (py ".json") - length (py ".npz")) with (S (length stem)) by (cbn; lia).
      rewrite skipn_all2 by lia. replace (S (length stem) - length stem) with 1 by lia. reflexivity. }
  rewrite npz_path_snoc, Hh.
  assert (L : forall w, stem ++ sfx ++ w <> py "..").
  { intros w H. apply (f_equal (@length _)) in H. rewrite !app_length in H.
    destruct Hs as [-> | ->]; cbn in H; lia. }
  rewrite !place_snoc.
  - intros H. apply app_inj_tail in H as (_ & H). apply (f_equal (@length _)) in H.
    rewrite !app_length in H. cbn in H. lia.
  - specialize (L []). rewrite app_nil_r in L. exact L.
  - rewrite <- app_assoc. apply L.
Qed.

(** ** JSON *)

Section Induction.
  Context (P : pyval -> Prop).
  Context (HN : P PNone) (HB : forall b, P (PBool b)) (HI : forall z, P (PInt z)) (HF : forall f, P (PFloat f))
    (HS : forall s, P (PStr s)) (HL : forall l, (forall x, In x l -> P x) -> P (PList l))
    (HT : forall l, (forall x, In x l -> P x) -> P (PTuple l))
    (HD : forall d, (forall x, In x (map snd d) -> P x) -> P (PDict d))
    (HA : forall a, P (PArray a)) (HO : forall n, P (PObj n)).

  Fixpoint pyval_deep (v : pyval) : P v :=
    match v with
    | PNone => HN | PBool b => HB b | PInt z => HI z | PFloat f => HF f | PStr s => HS s
    | PList l => HL l ((fix go (l : list pyval) : forall x, In x l -> P x :=
        match l with
        | [] => fun x H => match H with end
        | y :: l' => fun x H => match H with
                                | or_introl E => eq_ind y P (pyval_deep y) x E
                                | or_intror H' => go l' x H'
                                end
        end) l)
    | PTuple l => HT l ((fix go (l : list pyval) : forall x, In x l -> P x :=
        match l with
        | [] => fun x H => match H with end
        | y :: l' => fun x H => match H with
                                | or_introl E => eq_ind y P (pyval_deep y) x E
                                | or_intror H' => go l' x H'
                                end
        end) l)
    | PDict d => HD d ((fix go (d : list (pyval * pyval)) : forall x, In x (map snd d) -> P x :=
        match d with
        | [] => fun x H => match H with end
        | (k, y) :: d' => fun x H => match H with
                                | or_introl E => eq_ind y P (pyval_deep y) x E
                                | or_intror H' => go d' x H'
                                end
        end) d)
    | PArray a => HA a | PObj n => HO n
    end.
End Induction.

Definition stringy (d : list (pyval * pyval)) : Prop := forall k, In k (map fst d) -> exists s, k = PStr s.

Lemma key_set_keys k v d : (exists s, k = PStr s) -> stringy d ->
  map fst (key_set k v d) = if existsb (key_eqb k) (map fst d) then map fst d else map fst d ++ [k].
Proof.
  intros Hk. induction d as [|(k', v') d IH]; intros Hd; [reflexivity|]. cbn [key_set map fst existsb].
  destruct (key_eqb k k'); [reflexivity|]. cbn [map fst orb]. rewrite IH; [|intros x Hx; apply Hd; right; auto].
  now destruct (existsb (key_eqb k) (map fst d)).
Qed.

Lemma key_eqb_str s t : key_eqb (PStr s) (PStr t) = eqb s t.
Proof. reflexivity. Qed.

Lemma existsb_key s d : stringy d -> existsb (key_eqb (PStr s)) (map fst d) = true <-> In (PStr s) (map fst d).
Proof.
  intros Hd. rewrite existsb_exists. split.
  - intros (x & Hx & E). destruct (Hd x Hx) as (t & ->). rewrite key_eqb_str in E.
    destruct (eqb_spec s t); [subst; auto|discriminate].
  - intros H. exists (PStr s). split; auto. rewrite key_eqb_str. apply eqb_refl.
Qed.

Lemma key_set_fresh s v d : stringy d -> ~ In (PStr s) (map fst d) -> key_set (PStr s) v d = d ++ [(PStr s, v)].
Proof.
  induction d as [|(k', v') d IH]; intros Hd Hn; [reflexivity|]. cbn [key_set].
  destruct (Hd k' (or_introl eq_refl)) as (t & ->). rewrite key_eqb_str.
  destruct (eqb_spec s t); [subst; exfalso; apply Hn; now left|]. cbn [app]. f_equal. apply IH.
  - intros x Hx. apply Hd. now right.
  - intros Hx. apply Hn. now right.
Qed.

Lemma build_from_keys d : forall acc, stringy d -> stringy acc -> NoDup (map fst acc) ->
  let r := fold_left (fun acc kv => key_set (fst kv) (snd kv) acc) d acc in stringy r /\ NoDup (map fst r).
Proof.
  induction d as [|(k, v) d IH]; intros acc Hd Ha Hn; [split; auto|]. cbn [fold_left fst snd].
  destruct (Hd k (or_introl eq_refl)) as (s & ->).
  assert (Hk := key_set_keys (PStr s) v acc (ex_intro _ s eq_refl) Ha).
  apply IH.
  - intros x Hx. apply Hd. now right.
  - intros x Hx. rewrite Hk in Hx. destruct (existsb (key_eqb (PStr s)) (map fst acc)); [auto|].
    apply in_app_iff in Hx as [Hx|[<-|[]]]; eauto.
  - rewrite Hk. destruct (existsb (key_eqb (PStr s)) (map fst acc)) eqn:Ex; [auto|].
    apply (Permutation.Permutation_NoDup (Permutation.Permutation_cons_append _ _)). constructor; auto. intros Hin. apply (existsb_key s acc Ha) in Hin. congruence.
Qed.

Lemma build_id d : forall acc, stringy (acc ++ d) -> NoDup (map fst (acc ++ d)) ->
  fold_left (fun acc kv => key_set (fst kv) (snd kv) acc) d acc = acc ++ d.
Proof.
  induction d as [|(k, v) d IH]; intros acc Hd Hn; [now rewrite app_nil_r|]. cbn [fold_left fst snd].
  destruct (Hd k) as (s & ->); [rewrite map_app; apply in_or_app; right; now left|].
  rewrite key_set_fresh.
  - rewrite IH, <- app_assoc; auto; now rewrite <- app_assoc.
  - intros x Hx. apply Hd. rewrite map_app. apply in_or_app. now left.
  - rewrite map_app in Hn. apply NoDup_remove_2 in Hn. intros Hin. apply Hn. apply in_or_app. now left.
Qed.

Section Back.
  Context (repr : pyfloat -> pystr).
  Notation back := (json_back repr).

  Lemma back_plain v : plain v -> back v = v.
  Proof.
    induction 1 as [| | | | |l H IH|d Hk Hn Hv IH]; cbn [json_back]; auto.
    - f_equal. rewrite <- (map_id l) at 2. apply map_ext_in. auto.
    - f_equal. replace (map _ d) with d.
      + unfold build. now rewrite build_id.
      + rewrite <- (map_id d) at 1. apply map_ext_in. intros (k, v) Hin. cbn [fst snd].
        destruct (Hk k (in_map fst _ _ Hin)) as (s & ->). cbn [key_text].
        now rewrite (IH v (in_map snd _ _ Hin)).
  Qed.

  Lemma plain_back v : json_ok v = true -> back v = v -> plain v.
  Proof.
    induction v as [| | | | |l IH|l IH|d IH| |] using pyval_deep; cbn [json_ok json_back];
      intros Hj E; try constructor; try discriminate.
    - intros x Hx. injection E as E. rewrite forallb_forall in Hj. apply IH; auto.
      apply In_nth_error in Hx as (n & Hx). pose proof (f_equal (fun l => nth_error l n) E) as En. cbn beta in En.
      rewrite nth_error_map, Hx in En. cbn in En. congruence.
    - injection E as E.
      assert (Hs : stringy (map (fun kv => (PStr (key_text repr (fst kv)), back (snd kv))) d)).
      { intros k Hk. rewrite map_map in Hk. apply in_map_iff in Hk as (? & <- & _). cbn. eauto. }
      destruct (build_from_keys _ [] Hs (fun k (H : In k []) => match H with end) (NoDup_nil _)) as (B & _).
      unfold build in E. cbv zeta in B. rewrite E in B. exact B.
    - injection E as E.
      assert (Hs : stringy (map (fun kv => (PStr (key_text repr (fst kv)), back (snd kv))) d)).
      { intros k Hk. rewrite map_map in Hk. apply in_map_iff in Hk as (? & <- & _). cbn. eauto. }
      destruct (build_from_keys _ [] Hs (fun k (H : In k []) => match H with end) (NoDup_nil _)) as (_ & B).
      unfold build in E. cbv zeta in B. rewrite E in B. exact B.
    - injection E as E.
      assert (Hs : stringy (map (fun kv => (PStr (key_text repr (fst kv)), back (snd kv))) d)).
      { intros k Hk. rewrite map_map in Hk. apply in_map_iff in Hk as (? & <- & _). cbn. eauto. }
      destruct (build_from_keys _ [] Hs (fun k (H : In k []) => match H with end) (NoDup_nil _)) as (B1 & B2).
      unfold build in E. cbv zeta in B1, B2. rewrite E in B1, B2.
      assert (M : map (fun kv => (PStr (key_text repr (fst kv)), back (snd kv))) d =
                  map (fun kv => (fst kv, back (snd kv))) d).
      { apply map_ext_in. intros (k, v) Hin. cbn [fst snd]. destruct (B1 k (in_map fst _ _ Hin)) as (s & ->).
        reflexivity. }
      rewrite M, build_id in E; cbn [app].
      + intros v Hv. apply in_map_iff in Hv as ((k & v') & <- & Hin). cbn [snd].
        rewrite forallb_forall in Hj. specialize (Hj _ Hin). cbn [fst snd] in Hj. apply andb_prop in Hj as (_ & Hj).
        apply IH; [apply (in_map snd _ _ Hin)|auto|].
        apply In_nth_error in Hin as (n & Hx). pose proof (f_equal (fun l => nth_error l n) E) as En. cbn in En.
        rewrite nth_error_map, Hx in En. cbn in En. congruence.
      + intros k Hk. apply B1. rewrite map_map in Hk. exact Hk.
      + rewrite map_map. exact B2.
  Qed.

  Lemma spelled_text k t : spelled k t -> key_text repr k = t.
  Proof.
    destruct 1 as [s| | | |n Hn]; try reflexivity.
    do 10 (destruct n as [|n] using N.peano_ind; [reflexivity|clear IHn; try (exfalso; lia)]).
  Qed.
End Back.

(** ** Saving and loading *)

Section Files.
  Context {F : Type}.
  Context (repr : pyfloat -> pystr) (pickles : metas -> bool) (isdir : loc -> bool) (cwd : loc).
  Notation store := (dict loc (vfile F)).
  Notation save := (save_vectors pickles isdir cwd).
  Notation load := (load_vectors repr cwd).

  Lemma put_Ok parts (x : vfile F) fine (s s' : store) : put_file isdir parts x fine s = (Ok tt, s') ->
    dget (place parts) s' = Some x /\ fine = true.
  Proof.
    unfold put_file, bind, modify, raise. destruct (isdir (place parts) || negb (isdir (removelast (place parts))));
      [discriminate|].
    destruct fine; [|discriminate]. intros [= <-]. split; auto. apply dget_dset_same.
  Qed.

  Lemma put_others parts (x : vfile F) fine (s : store) l : l <> place parts ->
    dget l (snd (put_file isdir parts x fine s)) = dget l s.
  Proof.
    intros H. unfold put_file, bind, modify, raise.
    destruct (isdir (place parts) || negb (isdir (removelast (place parts)))); [reflexivity|].
    destruct fine; cbn [snd]; rewrite !dget_dset_other; auto.
  Qed.

  (** A call writes the file of its path, or the archive of that name, and no other; whether it
      raises or not. *)
  Theorem C127_other_files_kept v m p format (s : store) l :
    l <> place (full cwd p) -> l <> place (npz_path (full cwd p)) ->
    dget l (snd (save v m p format s)) = dget l s.
  Proof.
    intros H1 H2. unfold save_vectors.
    destruct (eqb format (py "npz")); [apply put_others; auto|].
    destruct (eqb format (py "pickle")); [apply put_others; auto|].
    destruct (eqb format (py "json")); [apply put_others; auto|reflexivity].
  Qed.

  (** An archive is read back exactly: any array, any metadata pickle accepts. *)
  Theorem C127_npz_reads_back v m p (s s' : store) : path_suffix p = py ".npz" ->
    save v m p (py "npz") s = (Ok tt, s') -> load p s' = (Ok (v, map PDict m), s').
  Proof.
    intros E H. unfold save_vectors in H. rewrite eqb_refl in H. apply put_Ok in H as (H & _).
    destruct (suffix_parts cwd p _ E) as (front & stem & Ef & _); [discriminate|].
    rewrite Ef, npz_path_snoc, has_suffix_app in H.
    unfold load_vectors, bind, get. rewrite Ef, H, E, eqb_refl. reflexivity.
  Qed.

  (** So is a pickle. *)
  Theorem C127_pickle_reads_back v m p (s s' : store) : path_suffix p = py ".pkl" ->
    save v m p (py "pickle") s = (Ok tt, s') -> load p s' = (Ok (v, map PDict m), s').
  Proof.
    intros E H. unfold save_vectors in H. rewrite eqb_refl in H.
    change (eqb (py "pickle") (py "npz")) with false in H. cbv iota in H.
    apply put_Ok in H as (H & _). unfold load_vectors, bind, get. rewrite H, E. reflexivity.
  Qed.

  (** A JSON text is read back as JSON expresses it; exactly so if and only if the array is one of
      64-bit numbers with a number in it and every dictionary is plain. *)
  Theorem C127_json_reads_back_partial v m p (s s' : store) : path_suffix p = py ".json" ->
    save v m p (py "json") s = (Ok tt, s') ->
    exists v' m', load p s' = (Ok (v', m'), s') /\ (v' = v <-> described v) /\
      (m' = map PDict m <-> forall d, In d m -> plain (PDict d)).
  Proof.
    intros E H. unfold save_vectors in H. rewrite eqb_refl in H.
    change (eqb (py "json") (py "npz")) with false in H. change (eqb (py "json") (py "pickle")) with false in H.
    cbv iota in H. apply put_Ok in H as (H & Hj).
    exists (relisted v), (map (fun d => json_back repr (PDict d)) m). split; [|split].
    - unfold load_vectors, bind, get. rewrite H, E. reflexivity.
    - destruct v as [[b|b] [|x l]|[b|b] [|w] [|r rows]]; unfold described, relisted, wide; split; intros G;
        try destruct G as (G1 & G2); try destruct G2 as (G2 & G3);
        repeat match goal with G : ?a = _ -> _ |- _ => try (specialize (G eq_refl)) end;
        repeat split; try discriminate; try congruence.
    - rewrite forallb_forall in Hj. split.
      + intros G d Hd. apply (plain_back repr); [auto|].
        apply In_nth_error in Hd as (n & Hx). pose proof (f_equal (fun l => nth_error l n) G) as En. cbn beta in En.
        rewrite !nth_error_map, Hx in En. cbn [option_map] in En. congruence.
      + intros G. apply map_ext_in. intros d Hd. apply back_plain. auto.
  Qed.

  (** Keys that are no strings become strings, in JSON's spelling; as long as they stay different,
      every value is found under its key. *)
  Theorem C127_json_keys v (d : list (pyval * pyval)) (texts : list pystr) p (s s' : store) :
    path_suffix p = py ".json" -> save v [d] p (py "json") s = (Ok tt, s') ->
    Forall2 spelled (map fst d) texts -> NoDup texts -> (forall x, In x (map snd d) -> plain x) ->
    exists v', fst (load p s') = Ok (v', [PDict (combine (map PStr texts) (map snd d))]).
  Proof.
    intros E H Hs Hn Hv. unfold save_vectors in H. rewrite eqb_refl in H.
    change (eqb (py "json") (py "npz")) with false in H. change (eqb (py "json") (py "pickle")) with false in H.
    cbv iota in H. apply put_Ok in H as (H & Hj).
    exists (relisted v). unfold load_vectors, bind, get. rewrite H, E. cbn [fst map].
    change (eqb (py ".json") (py ".npz")) with false. change (eqb (py ".json") (py ".pkl")) with false.
    change (eqb (py ".json") (py ".json")) with true. cbv iota. cbn. do 4 f_equal.
    assert (M : map (fun kv => (PStr (key_text repr (fst kv)), json_back repr (snd kv))) d =
                combine (map PStr texts) (map snd d)).
    { clear - Hs Hv. revert texts Hs. induction d as [|(k, x) d IH]; intros [|t texts] Hs; inversion Hs; subst;
        [reflexivity|]. cbn [map fst snd combine]. erewrite spelled_text by eassumption.
      rewrite back_plain by (apply Hv; now left). f_equal. apply IH; auto. intros y Hy. apply Hv. now right. }
    rewrite M.
    assert (K : map fst (combine (map PStr texts) (map snd d)) = map PStr texts).
    { rewrite <- M. clear - Hs. revert texts Hs. induction d as [|(k, x) d IH]; intros [|t texts] Hs; inversion Hs; subst;
        [reflexivity|]. cbn [map fst snd]. erewrite spelled_text by eassumption. f_equal. now apply IH. }
    unfold build. apply (build_id _ []); cbn [app]; unfold stringy; rewrite K.
    - intros k Hk. apply in_map_iff in Hk as (t & <- & _). eauto.
    - apply FinFun.Injective_map_NoDup; [|exact Hn]. now intros a b [= ->].
  Qed.

  (** Where no file was before, a saved file is read back if and only if the format and the suffix
      of the path belong together. *)
  Theorem C127_read_back_iff_partial v m p format (s s' : store) :
    dget (place (full cwd p)) s = None -> save v m p format s = (Ok tt, s') ->
    (exists r, fst (load p s') = Ok r) <-> belongs format (path_suffix p).
  Proof.
    intros Hnew H. split.
    - intros (r & Hl). unfold load_vectors, bind, get in Hl. unfold save_vectors in H. unfold belongs.
      destruct (eqb_spec format (py "npz")) as [Ef|Nf].
      { left. split; auto. destruct (eqb_spec (path_suffix p) (py ".npz")) as [|N1]; [auto|exfalso].
        pose proof (put_others (npz_path (full cwd p)) (FNpz v m) (pickles m) s) as Ho. rewrite H in Ho. cbn [snd] in Ho.
        destruct (eqb_spec (path_suffix p) (py ".pkl")) as [E|N2];
          [|destruct (eqb_spec (path_suffix p) (py ".json")) as [E|N3]; [|discriminate]].
        - destruct (suffix_parts cwd p _ E) as (front & stem & Eq & Hs); [discriminate|].
          rewrite Ho in Hl.
          + rewrite Hnew in Hl. discriminate.
          + rewrite Eq. intros X. symmetry in X. revert X. apply other_archive; auto.
        - destruct (suffix_parts cwd p _ E) as (front & stem & Eq & Hs); [discriminate|].
          rewrite Ho in Hl.
          + rewrite Hnew in Hl. discriminate.
          + rewrite Eq. intros X. symmetry in X. revert X. apply other_archive; auto. }
      destruct (eqb_spec format (py "pickle")) as [Ef|Nf2].
      { right; left. split; auto. apply put_Ok in H as (H & _). rewrite H in Hl.
        destruct (eqb_spec (path_suffix p) (py ".npz")); [discriminate|].
        destruct (eqb_spec (path_suffix p) (py ".pkl")); [auto|].
        destruct (eqb_spec (path_suffix p) (py ".json")); discriminate. }
      destruct (eqb_spec format (py "json")) as [Ef|Nf3]; [|discriminate].
      right; right. split; auto. apply put_Ok in H as (H & _). rewrite H in Hl.
      destruct (eqb_spec (path_suffix p) (py ".npz")); [discriminate|].
      destruct (eqb_spec (path_suffix p) (py ".pkl")); [discriminate|].
      destruct (eqb_spec (path_suffix p) (py ".json")); [auto|discriminate].
    - intros [(-> & E)|[(-> & E)|(-> & E)]].
      + rewrite (C127_npz_reads_back v m p s s' E H). eexists; reflexivity.
      + rewrite (C127_pickle_reads_back v m p s s' E H). eexists; reflexivity.
      + destruct (C127_json_reads_back_partial v m p s s' E H) as (v' & m' & -> & _). eexists; reflexivity.
  Qed.

  (** An unknown format or suffix is refused, and nothing is written. *)
  Theorem C127_unknown_refused v m p format (s : store) :
    (format <> py "npz" -> format <> py "pickle" -> format <> py "json" ->
     save v m p format s = (Raise EValidation, s)) /\
    (path_suffix p <> py ".npz" -> path_suffix p <> py ".pkl" -> path_suffix p <> py ".json" ->
     load p s = (Raise EValidation, s)).
  Proof.
    split; intros H1 H2 H3.
    - unfold save_vectors. now rewrite !eqb_neq.
    - unfold load_vectors, bind, get. now rewrite !eqb_neq.
  Qed.
End Files.

(** ** Concrete cases *)

Definition demo_dirs (l : loc) : bool := match l with [] => true | [n] => eqb n (py "tmp") | _ => false end.
Definition demo_cwd : loc := [py "tmp"].
Definition any (m : metas) : bool := true.
Definition no_repr (f : pyfloat) : pystr := py "0.5".
Definition demo_v : varr Z := V2 (TFloat 64) 2 [[1; 2]; [3; 4]]%Z.
Definition demo_m : metas := [[(PStr (py "n"), PInt 1)]; [(PStr (py "l"), PList [PNone; PStr (py "x")])]].

Notation dsave := (save_vectors (F := Z) any demo_dirs demo_cwd).
Notation dload := (load_vectors (F := Z) no_repr demo_cwd).

Example C127_hypotheses_met :
  path_suffix (py "a/b.npz") = py ".npz" /\ path_suffix (py "b.pkl") = py ".pkl" /\
  path_suffix (py "b.json") = py ".json" /\
  fst (dsave demo_v demo_m (py "b.npz") (py "npz") []) = Ok tt /\
  fst (dsave demo_v demo_m (py "/tmp/b.pkl") (py "pickle") []) = Ok tt /\
  fst (dsave demo_v demo_m (py "./b.json") (py "json") []) = Ok tt /\
  dload (py "b.json") (snd (dsave demo_v demo_m (py "./b.json") (py "json") [])) =
    (Ok (demo_v, map PDict demo_m), [([py "tmp"; py "b.json"], FJson demo_v demo_m)]) /\
  described demo_v /\ (forall d, In d demo_m -> plain (PDict d)) /\
  belongs (py "pickle") (py ".pkl").
Proof.
  do 7 (split; [vm_compute; reflexivity|]). split; [repeat split; discriminate|].
  split; [|right; left; auto]. intros d Hd. destruct Hd as [<-|[<-|[]]].
  - constructor.
    + intros k [<-|[]]. eexists; reflexivity.
    + constructor; [intros []|constructor].
    + intros v [<-|[]]. constructor.
  - constructor.
    + intros k [<-|[]]. eexists; reflexivity.
    + constructor; [intros []|constructor].
    + intros v [<-|[]]. constructor. intros x [<-|[<-|[]]]; constructor.
Qed.

Example C127_json_keys_met :
  let d := [(PInt 7, PInt 1); (PBool true, PNone); (PNone, PBool false)] in
  fst (dsave demo_v [d] (py "b.json") (py "json") []) = Ok tt /\
  Forall2 spelled (map fst d) [py "7"; py "true"; py "null"] /\ NoDup [py "7"; py "true"; py "null"] /\
  (forall x, In x (map snd d) -> plain x).
Proof.
  cbv zeta. split; [vm_compute; reflexivity|]. split; [|split].
  - repeat constructor. exact (sp_digit 7 eq_refl).
  - repeat constructor; cbn; intuition discriminate.
  - intros x [<-|[<-|[<-|[]]]]; constructor.
Qed.

(** The default format writes another file than the one asked for. *)
Theorem C127_default_format_refuted :
  exists p s', dsave demo_v demo_m p (py "npz") [] = (Ok tt, s') /\ fst (dload p s') = Raise EOs.
Proof. exists (py "vectors.pkl"). eexists. split; vm_compute; reflexivity. Qed.

(** A pickle can be loaded under one suffix only. *)
Theorem C127_pickle_suffix_refuted :
  exists p s', dsave demo_v demo_m p (py "pickle") [] = (Ok tt, s') /\ fst (dload p s') = Raise EValidation.
Proof. exists (py "vectors.pickle"). eexists. split; vm_compute; reflexivity. Qed.

(** JSON: a tuple becomes a list, of two keys with the same text one is lost. *)
Theorem C127_json_metadata_refuted :
  exists m s', dsave demo_v m (py "b.json") (py "json") [] = (Ok tt, s') /\
    validate_metadata (PDict (nth 0 m [])) = Ok true /\
    fst (dload (py "b.json") s') = Ok (demo_v, [PDict [(PStr (py "t"), PList [PInt 1]);
      (PStr (py "d"), PDict [(PStr (py "1"), PStr (py "one"))])]]) /\
    nth 0 m [] = [(PStr (py "t"), PTuple [PInt 1]);
      (PStr (py "d"), PDict [(PInt 1, PStr (py "uno")); (PStr (py "1"), PStr (py "one"))])].
Proof.
  exists [[(PStr (py "t"), PTuple [PInt 1]);
      (PStr (py "d"), PDict [(PInt 1, PStr (py "uno")); (PStr (py "1"), PStr (py "one"))])]].
  eexists. repeat split; vm_compute; reflexivity.
Qed.

(** JSON: the width of an array without rows and the 32-bit type are lost, although the shape is
    in the file. *)
Theorem C127_json_array_refuted :
  exists (v1 v2 : varr Z) s1 s2,
    dsave v1 [] (py "b.json") (py "json") [] = (Ok tt, s1) /\ v1 = V2 (TFloat 64) 3 [] /\
    fst (dload (py "b.json") s1) = Ok (V1 (TFloat 64) [], []) /\
    dsave v2 [] (py "b.json") (py "json") [] = (Ok tt, s2) /\ v2 = V2 (TFloat 32) 1 [[1%Z]] /\
    fst (dload (py "b.json") s2) = Ok (V2 (TFloat 64) 1 [[1%Z]], []).
Proof. do 4 eexists. repeat split; vm_compute; reflexivity. Qed.

(** A save that fails destroys the file that was there. *)
Theorem C127_failed_save_refuted :
  exists s1 m2 s2, dsave demo_v demo_m (py "b.json") (py "json") [] = (Ok tt, s1) /\
    fst (dload (py "b.json") s1) = Ok (demo_v, map PDict demo_m) /\
    dsave demo_v m2 (py "b.json") (py "json") s1 = (Raise EType, s2) /\
    fst (dload (py "b.json") s2) = Raise EValue.
Proof. eexists. exists [[(PStr (py "x"), PObj 0)]]. eexists. repeat split; vm_compute; reflexivity. Qed.

Print Assumptions C127_other_files_kept.
Print Assumptions C127_npz_reads_back.
Print Assumptions C127_pickle_reads_back.
Print Assumptions C127_json_reads_back_partial.
Print Assumptions C127_json_keys.
Print Assumptions C127_read_back_iff_partial.
Print Assumptions C127_unknown_refused.
Print Assumptions C127_default_format_refuted.
Print Assumptions C127_pickle_suffix_refuted.
Print Assumptions C127_json_metadata_refuted.
Print Assumptions C127_json_array_refuted.
Print Assumptions C127_failed_save_refuted.
