(** C123: which of the built-in parsers gets a file, and the formats a registry reports. *)

From Coq Require Import String List Arith ZArith NArith Bool Lia ZifyBool ZifyNat ZifyN.
From Verif Require Import PyBase BaseLemmas PyMore PyValue ChunkModel ChunkProofs PipelineModel
  PropsRegistry ParserChoiceModel.
Import ListNotations.
Open Scope py_scope.
Open Scope nat_scope.

(** ** Suffixes *)

Lemma split_slash_nonempty s : split_slash s <> [].
Proof.
  induction s as [|c s IH]; simpl; [discriminate|]. destruct (split_slash s); [congruence|].
  destruct (N.eqb c 47); discriminate.
Qed.

Lemma split_no_slash s : ~ In 47%N s -> split_slash s = [s].
Proof.
  induction s as [|c s IH]; simpl; intros Hn; [reflexivity|]. rewrite IH by tauto.
  destruct (N.eqb_spec c 47); [subst; tauto|reflexivity].
Qed.

Lemma split_app dir name : ~ In 47%N name ->
  exists ws, split_slash (dir ++ 47%N :: name) = ws ++ [name].
Proof.
  intros Hn. induction dir as [|c dir IH]; simpl.
  - rewrite split_no_slash by auto. exists [[]]. reflexivity.
  - destruct IH as [ws E]. rewrite E. destruct ws as [|w ws]; simpl.
    + destruct (N.eqb c 47); [exists [[]]|]; [reflexivity|].
      exfalso. assert (L : forall s, In 47%N s -> 2 <= length (split_slash s)).
      { clear. induction s as [|a s IH]; simpl; [tauto|]. intros [->|Hin].
        - pose proof (split_slash_nonempty s). destruct (split_slash s); [congruence|]. simpl. lia.
        - specialize (IH Hin). destruct (split_slash s) as [|w ws]; [simpl in IH; lia|].
          destruct (N.eqb a 47); simpl in *; lia. }
      assert (In 47%N (dir ++ 47%N :: name)) as Hin by (apply in_or_app; simpl; auto).
      apply L in Hin. rewrite E in Hin. simpl in Hin. lia.
    + destruct (N.eqb c 47); [exists ([] :: w :: ws)|exists ((c :: w) :: ws)]; reflexivity.
Qed.

(** A file name: no slash in it, neither empty nor a dot. *)
Definition file_name (s : pystr) : Prop := ~ In 47%N s /\ s <> [] /\ s <> py ".".

Lemma name_of s : file_name s -> path_name s = s /\ forall dir, path_name (dir ++ 47%N :: s) = s.
Proof.
  intros (Hs & H0 & Hd). assert (Hk : negb (eqb s []) && negb (eqb s (py ".")) = true).
  { destruct (eqb_spec s []); [congruence|]. destruct (eqb_spec s (py ".")); [congruence|]. reflexivity. }
  split.
  - unfold path_name. rewrite split_no_slash by auto. cbn [filter]. now rewrite Hk.
  - intros dir. unfold path_name. destruct (split_app dir s Hs) as [ws ->].
    rewrite filter_app. cbn [filter]. rewrite Hk. apply last_last.
Qed.

Lemma dot_at s p : found s (py ".") p -> nth_error s (Z.to_nat p) = Some 46%N.
Proof.
  intros (a & b & -> & <-). unfold zlen. rewrite Nat2Z.id, nth_error_app2, Nat.sub_diag by lia. reflexivity.
Qed.

(** The last dot of a name. *)
Lemma rfind_dot stem ext : ~ In 46%N ext ->
  py_rfind (stem ++ 46%N :: ext) (py ".") 0 (zlen (stem ++ 46%N :: ext)) = zlen stem.
Proof.
  intros Hn. set (s := stem ++ 46%N :: ext).
  assert (Hl : zlen s = (zlen stem + 1 + zlen ext)%Z)
    by (unfold s, zlen; rewrite app_length; simpl length; lia).
  assert (Hf : found s (py ".") (zlen stem)) by (exists stem, ext; auto).
  assert (Z1 : zlen (py ".") = 1%Z) by reflexivity.
  destruct (py_rfind_spec s (py ".") 0 (zlen s)) as [[_ Hno]|(H1 & H2 & H3 & H4)]; [lia|unfold zlen; lia| |].
  - exfalso. apply (Hno _ Hf); rewrite ?Z1, ?Hl; unfold zlen; lia.
  - set (p := py_rfind _ _ _ _) in *. specialize (H4 _ Hf).
    assert (zlen stem <= p)%Z as Hle by (apply H4; rewrite ?Z1, ?Hl; unfold zlen; lia).
    destruct (Z.eq_dec p (zlen stem)) as [|Hne]; auto. exfalso. apply Hn.
    apply dot_at in H1. unfold s in H1. unfold zlen in *.
    replace (Z.to_nat p) with (length (stem ++ [46%N]) + (Z.to_nat p - length stem - 1)) in H1
      by (rewrite app_length; simpl; lia).
    replace (stem ++ 46%N :: ext) with ((stem ++ [46%N]) ++ ext) in H1 by (rewrite <- app_assoc; reflexivity).
    rewrite nth_error_app2 in H1 by lia. eapply nth_error_In. exact H1.
Qed.

Lemma suffix_split stem ext : ~ In 46%N ext ->
  let name := stem ++ 46%N :: ext in
  (let i := py_rfind name (py ".") 0 (zlen name) in
   if (0 <? i)%Z && (i <? zlen name - 1)%Z then skipn (Z.to_nat i) name else []) =
  match stem, ext with [], _ => [] | _, [] => [] | _, _ => 46%N :: ext end.
Proof.
  intros Hn. cbv zeta. rewrite rfind_dot by auto. unfold zlen. rewrite app_length. simpl length.
  destruct stem as [|c stem]; [reflexivity|]. destruct ext as [|e ext].
  - simpl length. replace (_ <? _)%Z with true by lia. replace (_ <? _)%Z with false by lia. reflexivity.
  - simpl length. replace (0 <? _)%Z with true by lia. replace (_ <? _ - 1)%Z with true by lia.
    cbn [andb]. rewrite Nat2Z.id. rewrite skipn_app, skipn_all2, Nat.sub_diag by (simpl; lia). reflexivity.
Qed.

(** C123, suffixes: in any directory, the suffix of [stem.ext] is [.ext]. *)
Theorem C123_suffix dir stem ext :
  stem <> [] -> ext <> [] -> ~ In 47%N stem -> ~ In 47%N ext -> ~ In 46%N ext ->
  path_suffix (stem ++ 46%N :: ext) = 46%N :: ext /\
  path_suffix (dir ++ 47%N :: stem ++ 46%N :: ext) = 46%N :: ext.
Proof.
  intros Hs He Hs' He' Hd. assert (Hf : file_name (stem ++ 46%N :: ext)).
  { split; [|split].
    - intros Hin. apply in_app_or in Hin as [Hin|[Hin|Hin]]; auto. discriminate.
    - destruct stem; discriminate.
    - intros E. apply (f_equal (@length N)) in E. rewrite app_length in E. destruct stem; [congruence|].
      simpl in E. lia. }
  destruct (name_of _ Hf) as [E1 E2]. unfold path_suffix. rewrite E1, E2.
  pose proof (suffix_split stem ext Hd) as E. cbv zeta in E |- *. rewrite E. destruct stem; [congruence|]. destruct ext; [congruence|]. auto.
Qed.

(** C123, suffixes: a name without a dot, or whose last dot is its first or its last character,
    has none. *)
Theorem C123_no_suffix dir name : file_name name ->
  (forall stem ext, name = stem ++ 46%N :: ext -> ~ In 46%N ext -> stem = [] \/ ext = []) ->
  path_suffix name = [] /\ path_suffix (dir ++ 47%N :: name) = [].
Proof.
  intros Hf Hno. destruct (name_of _ Hf) as [E1 E2]. unfold path_suffix. rewrite E1, E2.
  destruct (in_dec N.eq_dec 46%N name) as [Hin|Hn].
  - assert (Hlast : exists stem ext, name = stem ++ 46%N :: ext /\ ~ In 46%N ext).
    { clear - Hin. induction name as [|c name IH]; [destruct Hin|].
      destruct (in_dec N.eq_dec 46%N name) as [H|H].
      - destruct (IH H) as (st & ex & -> & Hex). exists (c :: st), ex. auto.
      - destruct Hin as [->|Hin]; [|contradiction]. exists [], name. auto. }
    destruct Hlast as (stem & ext & -> & Hext). specialize (Hno _ _ eq_refl Hext).
    pose proof (suffix_split stem ext Hext) as E. cbv zeta in E |- *. rewrite E. destruct Hno as [-> | ->]; [auto|]. destruct stem; auto.
  - assert (E : py_rfind name (py ".") 0 (zlen name) = (-1)%Z).
    { destruct (py_rfind_spec name (py ".") 0 (zlen name)) as [[E _]|(H1 & _)]; auto;
        [lia|unfold zlen; lia|]. exfalso. apply Hn. apply dot_at in H1. eapply nth_error_In; eauto. }
    rewrite E. auto.
Qed.

(** ** The choice *)

Section Choice.
  Context (lower : pystr -> pystr) (user : N -> list pystr) (usable : parser_class -> conf -> bool).
  Context (top d : list (pystr * conf)) (Hd : dget (py "parsers") top = Some (CTable d))
          (Hnd : NoDup (map fst d)).

  (** The class is configured and can be built. *)
  Definition on_offer (cls : parser_class) : Prop :=
    exists n c, In (n, c) d /\ stands_for n cls /\ usable cls c = true.

  (** The class lists the lower-cased suffix. *)
  Definition takes (cls : parser_class) (file : pystr) : Prop :=
    In (lower (path_suffix file)) (class_formats user cls).

  (** The documented order of preference. *)
  Definition preference : list parser_class := [ClsDocling; ClsOffice; ClsPdf; ClsText].

  (** The first class of the order of preference that is on offer and takes the file. *)
  Definition first_choice (file : pystr) (cls : parser_class) : Prop :=
    exists before after, preference = before ++ cls :: after /\ on_offer cls /\ takes cls file /\
      forall c, In c before -> ~ (on_offer c /\ takes c file).

  Notation build := (class_build usable).
  Notation can := (class_can_parse lower user).

  Definition made : registry parser_class := snd (reg_initialize build (new_registry (CTable top))).

  Lemma made_spec :
    reg_initialize build (new_registry (CTable top)) = (Ok tt, made) /\ g_ready made = true /\
    (forall n p, In (n, p) (g_parsers made) <->
       exists c, In (n, c) d /\ stands_for n p /\ usable p c = true) /\
    NoDup (map fst (g_parsers made)).
  Proof.
    destruct (C104_initialise parser_class build top d Hd Hnd) as (s & E & Hr & Hp & keep & Hk).
    unfold made. rewrite E. cbn [snd]. split; auto. split; auto. split.
    - intros n p. rewrite Hp. unfold class_build. split.
      + intros (cls & c & H1 & H2 & H3). destruct (usable cls c) eqn:Eu; [|discriminate].
        injection H3 as <-. exists c. auto.
      + intros (c & H1 & H2 & H3). exists p, c. now rewrite H3.
    - rewrite Hk. now apply NoDup_filter.
  Qed.

  Lemma can_takes cls file : can cls file = Ok true <-> takes cls file.
  Proof.
    unfold class_can_parse, takes. rewrite <- memb_In. split; [now intros [= ->]|now intros ->].
  Qed.

  Lemma offered cls : on_offer cls <-> exists n, In (n, cls) (g_parsers made).
  Proof.
    destruct made_spec as (_ & _ & Hp & _). split.
    - intros (n & c & Hc). exists n. apply Hp. eauto.
    - intros (n & Hin). apply Hp in Hin as (c & Hc). exists n, c. exact Hc.
  Qed.

  (** Rank of a class that has a name. *)
  Definition class_rank (cls : parser_class) : Z :=
    match cls with ClsDocling => 4 | ClsOffice => 3 | ClsPdf => 2 | ClsText => 1 | ClsUser _ => 0 end.

  Lemma named_rank n cls : stands_for n cls -> ranked n (class_rank cls).
  Proof. intros []; constructor. Qed.

  Lemma named_same n n' cls : stands_for n cls -> stands_for n' cls -> n = n'.
  Proof. intros [] Hn'; inversion Hn'; reflexivity. Qed.

  Lemma ranked_same n r r' : ranked n r -> ranked n r' -> r = r'.
  Proof. intros H1 H2. apply ranked_priority in H1, H2. congruence. Qed.

  Lemma preference_rank cls before after : preference = before ++ cls :: after ->
    (forall c, In c before -> (class_rank cls < class_rank c)%Z) /\
    (forall c, In c after -> (class_rank c < class_rank cls)%Z).
  Proof.
    unfold preference. intros E.
    destruct before as [|b1 before]; [|destruct before as [|b2 before]; [|destruct before as [|b3 before];
      [|destruct before as [|b4 [|b5 before]]]]]; cbn in E; inversion E; subst; cbn;
      split; intros c Hc; cbn in Hc; intuition (subst; cbn; lia).
  Qed.

  Lemma preference_all n cls : stands_for n cls -> In cls preference.
  Proof. intros []; cbn; auto. Qed.

  (** C123: without a named parser a file gets the first class of docling, office, pdf, text that
      is configured, could be built and lists the file's suffix in lower case; the order of the
      configuration does not matter.  If there is none the registry raises a ParsingError. *)
  Theorem C123_first_choice file :
    (forall cls, get_parser can made file None = Ok cls <-> first_choice file cls) /\
    (get_parser can made file None = Raise EParsing <->
     forall cls, on_offer cls -> ~ takes cls file).
  Proof.
    destruct made_spec as (_ & Hr & Hp & Hn).
    assert (Ha : answers can (g_parsers made) file) by (intros n p _; eexists; reflexivity).
    destruct (C66_choice parser_class pystr can made file None Hr (or_introl eq_refl) Ha) as [C1 C2].
    assert (Hname : forall n p, In (n, p) (g_parsers made) -> stands_for n p)
      by (intros n p Hin; apply Hp in Hin as (c & _ & Hs & _); exact Hs).
    split.
    - intros cls. rewrite C1. split.
      + intros (b & n & a & r & E & Hc & Hrk & Hb & Hafter).
        assert (Hin : In (n, cls) (g_parsers made)) by (rewrite E; apply in_or_app; right; now left).
        pose proof (Hname _ _ Hin) as Hs. pose proof (named_rank _ _ Hs) as Hrk'.
        pose proof (ranked_same _ _ _ Hrk Hrk') as ->.
        destruct (in_split _ _ (preference_all _ _ Hs)) as (before & after & Epref).
        exists before, after. split; auto. split; [apply offered; eauto|]. split; [now apply can_takes|].
        intros c Hc' [Ho Ht]. destruct (preference_rank _ _ _ Epref) as [Hlt _]. specialize (Hlt c Hc').
        apply offered in Ho as (n' & Hin'). apply can_takes in Ht.
        pose proof (named_rank _ _ (Hname _ _ Hin')) as Hr'. rewrite E in Hin'.
        apply in_app_or in Hin' as [Hin'|[Hin'|Hin']].
        * specialize (Hb _ _ _ Hin' Ht Hr'). lia.
        * injection Hin' as <- <-. lia.
        * specialize (Hafter _ _ _ Hin' Ht Hr'). lia.
      + intros (before & after & Epref & Ho & Ht & Hno). apply offered in Ho as (n & Hin).
        pose proof (Hname _ _ Hin) as Hs. destruct (in_split _ _ Hin) as (b & a & E).
        assert (Hother : forall n' q r', In (n', q) (b ++ a) -> can q file = Ok true -> ranked n' r' ->
                           (r' < class_rank cls)%Z).
        { intros n' q r' Hq Hc Hrk.
          assert (Hq' : In (n', q) (g_parsers made)).
          { rewrite E. apply in_app_or in Hq as [Hq|Hq]; apply in_or_app; [left|right; right]; auto. }
          pose proof (Hname _ _ Hq') as Hs'. pose proof (ranked_same _ _ _ Hrk (named_rank _ _ Hs')) as ->.
          pose proof (preference_all _ _ Hs') as Hpr. rewrite Epref in Hpr.
          destruct (preference_rank _ _ _ Epref) as [_ Hgt].
          apply in_app_or in Hpr as [Hpr|[Hpr|Hpr]]; auto.
          - exfalso. apply (Hno q Hpr). split; [apply offered; eauto|now apply can_takes].
          - exfalso. subst q. pose proof (named_same _ _ _ Hs Hs'). subst n'.
            rewrite E, map_app in Hn. cbn in Hn. apply NoDup_remove_2 in Hn. apply Hn.
            rewrite <- map_app. apply (in_map fst) in Hq. exact Hq. }
        exists b, n, a, (class_rank cls). split; auto. split; [now apply can_takes|].
        split; [now apply named_rank|]. split.
        * intros n' q r' Hq. apply Hother. apply in_or_app. auto.
        * intros n' q r' Hq Hc Hrk. apply Z.lt_le_incl. eapply Hother; eauto. apply in_or_app. auto.
    - assert (Hraise : forall e, get_parser can made file None = Raise e -> e = EParsing).
      { intros e. unfold get_parser. rewrite Hr. cbn [negb].
        destruct (suitable_spec can _ file Ha) as (l & -> & _). cbn [rbind].
        destruct (sort_desc l) as [|[? [? ?]] ?]; [now intros [= <-]|discriminate]. }
      split.
      + intros E cls Ho Ht. apply offered in Ho as (n & Hin). apply can_takes in Ht.
        apply (proj1 C2); eauto.
      + intros Hno. assert (exists e, get_parser can made file None = Raise e) as [e E].
        { apply C2. intros (n & p & Hin & Hc). apply (Hno p); [apply offered; eauto|now apply can_takes]. }
        rewrite (Hraise e E) in E. exact E.
  Qed.

  (** C123, formats: the formats the initialised registry reports are those of the classes on
      offer, and a file gets a parser exactly when its lower-cased suffix is among them.  Before
      initialising and after closing no format is reported. *)
  Theorem C123_formats :
    (forall f, In f (reg_formats (class_formats user) made) <->
       exists cls, on_offer cls /\ In f (class_formats user cls)) /\
    (forall file, (exists cls, get_parser can made file None = Ok cls) <->
       In (lower (path_suffix file)) (reg_formats (class_formats user) made)) /\
    reg_formats (class_formats user) (new_registry (CTable top)) = [] /\
    reg_formats (class_formats user) (snd (reg_close made)) = [].
  Proof.
    destruct made_spec as (_ & Hr & Hp & Hn).
    assert (Hf : forall f, In f (reg_formats (class_formats user) made) <->
                   exists cls, on_offer cls /\ In f (class_formats user cls)).
    { intros f. unfold reg_formats. rewrite Hr. cbn [negb]. rewrite in_concat. split.
      - intros (l & Hl & Hin). apply in_map_iff in Hl as ([n cls] & <- & Hin'). exists cls.
        split; auto. apply offered. eauto.
      - intros (cls & Ho & Hin). apply offered in Ho as (n & Hin').
        exists (class_formats user cls). split; auto. apply in_map_iff. exists (n, cls). auto. }
    split; auto. split; [|split; reflexivity]. intros file. rewrite Hf.
    destruct (C123_first_choice file) as [C1 C2]. split.
    - intros (cls & E). apply C1 in E as (b & a & _ & Ho & Ht & _). exists cls. auto.
    - intros (cls & Ho & Ht). destruct (get_parser can made file None) as [c|e] eqn:E; [eauto|].
      exfalso. assert (e = EParsing) as ->.
      { revert E. unfold get_parser. rewrite Hr. cbn [negb].
        assert (Ha : answers can (g_parsers made) file) by (intros n p _; eexists; reflexivity).
        destruct (suitable_spec can _ file Ha) as (l & -> & _). cbn [rbind].
        destruct (sort_desc l) as [|[? [? ?]] ?]; [now intros [= <-]|discriminate]. }
      exact (proj1 C2 eq_refl cls Ho Ht).
  Qed.
End Choice.

(** A lower-casing of ASCII letters, no user classes, docling not installed. *)
Definition ascii_lower (s : pystr) : pystr :=
  map (fun c => if (65 <=? c)%N && (c <=? 90)%N then (c + 32)%N else c) s.
Definition no_docling (cls : parser_class) (_ : conf) : bool :=
  match cls with ClsDocling => false | _ => true end.

Example C123_hypotheses_met :
  let d := [(py "text", CTable []); (py "docling", CTable []); (py "pdf", CTable []); (py "office", CTable [])] in
  let top := [(py "parsers", CTable d)] in
  let choose u f := get_parser (class_can_parse ascii_lower (fun _ => [])) (made u top) f None in
  dget (py "parsers") top = Some (CTable d) /\ NoDup (map fst d) /\
  choose no_docling (py "/a/b.c/Report.PDF") = Ok ClsPdf /\
  choose (fun _ _ => true) (py "/a/b.c/Report.PDF") = Ok ClsDocling /\
  choose no_docling (py "x.tar.docx") = Ok ClsOffice /\ choose no_docling (py "notes.txt/") = Ok ClsText /\
  choose no_docling (py "dir/.txt") = Raise EParsing /\ choose no_docling (py "a.b/readme") = Raise EParsing.
Proof.
  cbv zeta. split; [reflexivity|].
  split; [repeat constructor; cbn; intuition discriminate|]. vm_compute. auto 9.
Qed.

Example C123_suffix_case :
  file_name (py ".txt") /\
  (forall stem ext, py ".txt" = stem ++ 46%N :: ext -> ~ In 46%N ext -> stem = [] \/ ext = []) /\
  path_suffix (py "home/.txt") = [] /\ path_suffix (py "home/a.txt") = py ".txt".
Proof.
  split; [split; [cbn; intuition discriminate|split; discriminate]|]. split; [|vm_compute; auto].
  intros stem ext E _. destruct stem as [|c1 stem]; auto. exfalso. cbn in E. injection E as _ E.
  assert (In 46%N (stem ++ 46%N :: ext)) as Hin by (apply in_or_app; cbn; auto). rewrite <- E in Hin.
  cbn in Hin. intuition discriminate.
Qed.

Print Assumptions C123_suffix.
Print Assumptions C123_no_suffix.
Print Assumptions C123_first_choice.
Print Assumptions C123_formats.
