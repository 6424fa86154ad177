(** Properties C65, C66, C104 and C105: the parser registry and how the pipeline configures it
    (model: PipelineModel.v). *)

From Coq Require Import String List Arith ZArith NArith Bool Lia ZifyBool.
From Verif Require Import PyBase PyMore Num PyValue ChunkModel CleanModel BatchModel EmbedModel PipelineModel.
Import ListNotations.
Open Scope py_scope.

(** * Vocabulary *)

(** The documented priorities: docling over office over pdf over text over anything else. *)
Inductive ranked : pystr -> Z -> Prop :=
| RDocling : ranked (py "docling") 4
| ROffice : ranked (py "office") 3
| RPdf : ranked (py "pdf") 2
| RText : ranked (py "text") 1
| RCustom n : ~ In n [py "docling"; py "office"; py "pdf"; py "text"] -> ranked n 0.

Lemma priority_ranked n : ranked n (priority n).
Proof.
  unfold priority. cbn [dget].
  destruct (eqb_spec n (py "text")) as [->|H1]; [constructor|].
  destruct (eqb_spec n (py "pdf")) as [->|H2]; [constructor|].
  destruct (eqb_spec n (py "office")) as [->|H3]; [constructor|].
  destruct (eqb_spec n (py "docling")) as [->|H4]; [constructor|].
  constructor. intros [E|[E|[E|[E|[]]]]]; congruence.
Qed.

Lemma ranked_priority n r : ranked n r -> priority n = r.
Proof.
  intros [ | | | |m Hm]; try reflexivity. pose proof (priority_ranked m) as P.
  inversion P; subst; auto; exfalso; apply Hm; vm_compute; auto.
Qed.

(** The class a name stands for in a new registry. *)
Inductive stands_for : pystr -> parser_class -> Prop :=
| SText : stands_for (py "text") ClsText
| SPdf : stands_for (py "pdf") ClsPdf
| SOffice : stands_for (py "office") ClsOffice
| SDocling : stands_for (py "docling") ClsDocling.

Lemma builtin_spec n cls : dget n builtin_classes = Some cls <-> stands_for n cls.
Proof.
  unfold builtin_classes. cbn [dget]. split.
  - destruct (eqb_spec n (py "text")) as [->|H1]; [intros E; injection E as <-; constructor|].
    destruct (eqb_spec n (py "pdf")) as [->|H2]; [intros E; injection E as <-; constructor|].
    destruct (eqb_spec n (py "office")) as [->|H3]; [intros E; injection E as <-; constructor|].
    destruct (eqb_spec n (py "docling")) as [->|H4]; [intros E; injection E as <-; constructor|].
    discriminate.
  - intros [ | | | ]; reflexivity.
Qed.

Section Choice.
  Context {Parser Path : Type} (can_parse : Parser -> Path -> result bool).

  (** The registered parser a file without a named parser is to get: able, no able one of higher
      priority, no able one of the same priority registered earlier. *)
  Definition best (ps : list (pystr * Parser)) (file : Path) (p : Parser) : Prop :=
    exists before name after r,
      ps = before ++ (name, p) :: after /\ can_parse p file = Ok true /\ ranked name r /\
      (forall n q r', In (n, q) before -> can_parse q file = Ok true -> ranked n r' -> (r' < r)%Z) /\
      (forall n q r', In (n, q) after -> can_parse q file = Ok true -> ranked n r' -> (r' <= r)%Z).

  (** [can_parse] answers for every registered parser, as it does for the four built-in ones. *)
  Definition answers (ps : list (pystr * Parser)) (file : Path) : Prop :=
    forall n p, In (n, p) ps -> exists b, can_parse p file = Ok b.
End Choice.

Lemma sort_head {A} (l : list (Z * A)) :
  match sort_desc l with
  | [] => l = []
  | y :: _ => exists before after, l = before ++ y :: after /\
                (forall x, In x before -> (fst x < fst y)%Z) /\ (forall x, In x after -> (fst x <= fst y)%Z)
  end.
Proof.
  induction l as [|x l IH]; [reflexivity|]. simpl.
  destruct (sort_desc l) as [|y r] eqn:E.
  - subst l. exists [], []. split; [reflexivity|]. split; intros ? [].
  - destruct IH as (before & after & -> & H1 & H2). simpl.
    destruct (fst y <=? fst x)%Z eqn:Ec.
    + exists [], (before ++ y :: after). split; [reflexivity|]. split; [intros ? []|].
      intros z Hz. apply in_app_iff in Hz. destruct Hz as [Hz|[<-|Hz]]; [apply H1 in Hz|..|apply H2 in Hz]; lia.
    + exists (x :: before), after. split; [reflexivity|]. split; [|exact H2].
      intros z [<-|Hz]; [lia|auto].
Qed.

Section Suitable.
  Context {Parser Path : Type} (can_parse : Parser -> Path -> result bool).

  Lemma suitable_spec ps file : answers can_parse ps file ->
    exists l, suitable can_parse ps file = Ok l /\
      forall before y after, l = before ++ y :: after ->
        exists b a, ps = b ++ snd y :: a /\ fst y = priority (fst (snd y)) /\
          can_parse (snd (snd y)) file = Ok true /\
          (forall n q, In (n, q) b -> can_parse q file = Ok true -> In (priority n, (n, q)) before) /\
          (forall n q, In (n, q) a -> can_parse q file = Ok true -> In (priority n, (n, q)) after).
  Proof.
    induction ps as [|[n p] ps IH]; intros Ha.
    - exists []. split; [reflexivity|]. intros [|? ?]; discriminate.
    - destruct IH as (l & E & Hl); [intros m q Hin; apply (Ha m q); now right|].
      destruct (Ha n p (or_introl eq_refl)) as [b Eb]. simpl. rewrite Eb, E. simpl.
      eexists. split; [reflexivity|]. intros before y after El.
      assert (All : forall m q, In (m, q) ps -> can_parse q file = Ok true -> In (priority m, (m, q)) l).
      { clear -E Ha. revert l E. induction ps as [|[m' q'] ps IH]; intros l E m q [].
        - injection H as -> ->. intros Hq. simpl in E. rewrite Hq in E. simpl in E.
          destruct (suitable can_parse ps file); [|discriminate]. injection E as <-. now left.
        - intros Hq. simpl in E. destruct (can_parse q' file) as [b'|]; [|discriminate]. simpl in E.
          destruct (suitable can_parse ps file) as [l'|]; [|discriminate]. injection E as <-.
          assert (In (priority m, (m, q)) l').
          { eapply IH; eauto. intros x y [Hx|Hx]; [now apply (Ha x y); left|apply (Ha x y); right; now right]. }
          destruct b'; [now right|auto]. }
      destruct b.
      + destruct before as [|z before]; injection El as <- El.
        * exists [], ps. split; [reflexivity|]. split; [reflexivity|]. split; [exact Eb|].
          split; [intros ? ? []|]. now subst after.
        * destruct (Hl before y after El) as (bb & aa & -> & H1 & H2 & H3 & H4).
          exists ((n, p) :: bb), aa. split; [reflexivity|]. split; [exact H1|]. split; [exact H2|].
          split; [|exact H4]. intros m q [Hm|Hm] Hq; [injection Hm as <- <-; now left|right; auto].
      + destruct (Hl before y after El) as (bb & aa & -> & H1 & H2 & H3 & H4).
        exists ((n, p) :: bb), aa. split; [reflexivity|]. split; [exact H1|]. split; [exact H2|].
        split; [|exact H4]. intros m q [Hm|Hm] Hq; [injection Hm as <- <-; congruence|auto].
  Qed.

  Lemma suitable_some ps file l n p : suitable can_parse ps file = Ok l ->
    In (n, p) ps -> can_parse p file = Ok true -> l <> [].
  Proof.
    revert l. induction ps as [|[m q] ps IH]; intros l E [] Hp.
    - injection H as -> ->. simpl in E. rewrite Hp in E. simpl in E.
      destruct (suitable can_parse ps file); [|discriminate]. injection E as <-. discriminate.
    - simpl in E. destruct (can_parse q file) as [b|]; [|discriminate]. simpl in E.
      destruct (suitable can_parse ps file) as [l'|] eqn:E2; [|discriminate]. injection E as <-.
      specialize (IH l' eq_refl H Hp). destruct b; [discriminate|auto].
  Qed.
End Suitable.

(** ** C66 *)

Definition no_name (name : option pystr) : Prop := name = None \/ name = Some [].

(** Without a name the registry gives the best parser, and raises exactly when no registered
    parser takes the file. *)
Theorem C66_choice :
  forall (Parser Path : Type) (can_parse : Parser -> Path -> result bool) (s : registry Parser) file name,
    g_ready s = true -> no_name name -> answers can_parse (g_parsers s) file ->
    (forall p, get_parser can_parse s file name = Ok p <-> best can_parse (g_parsers s) file p) /\
    ((exists e, get_parser can_parse s file name = Raise e) <->
     ~ exists n p, In (n, p) (g_parsers s) /\ can_parse p file = Ok true).
Proof.
  intros Parser Path can_parse s file name Hr Hn Ha.
  assert (E : get_parser can_parse s file name =
    rbind (suitable can_parse (g_parsers s) file) (fun l =>
      match sort_desc l with [] => Raise EParsing | (_, (_, p)) :: _ => Ok p end)).
  { unfold get_parser. rewrite Hr. now destruct Hn as [->| ->]. }
  rewrite E. destruct (suitable_spec can_parse (g_parsers s) file Ha) as (l & El & Hl).
  rewrite El. simpl. pose proof (sort_head l) as Hs.
  assert (Found : forall y r, sort_desc l = y :: r -> best can_parse (g_parsers s) file (snd (snd y))).
  { intros y r Ey. rewrite Ey in Hs. destruct Hs as (before & after & -> & H1 & H2).
    destruct (Hl before y after eq_refl) as (b & a & E1 & E2 & E3 & H3 & H4).
    exists b, (fst (snd y)), a, (fst y). split; [destruct (snd y); exact E1|]. split; [exact E3|].
    split; [rewrite E2; apply priority_ranked|]. split.
    - intros n q r' Hin Hq Hrk. apply ranked_priority in Hrk. subst r'.
      specialize (H1 _ (H3 n q Hin Hq)). exact H1.
    - intros n q r' Hin Hq Hrk. apply ranked_priority in Hrk. subst r'.
      specialize (H2 _ (H4 n q Hin Hq)). exact H2. }
  assert (Unique : forall p q, best can_parse (g_parsers s) file p -> best can_parse (g_parsers s) file q -> p = q).
  { generalize (g_parsers s). clear. intros ps p q (b1 & n1 & a1 & r1 & E1 & C1 & R1 & B1 & A1)
      (b2 & n2 & a2 & r2 & E2 & C2 & R2 & B2 & A2).
    subst ps. destruct (Nat.lt_trichotomy (length b1) (length b2)) as [Hlt|[Heq|Hlt]].
    - exfalso. assert (In (n1, p) b2).
      { assert (nth_error (b2 ++ (n2, q) :: a2) (length b1) = Some (n1, p))
          by (rewrite <- E2, nth_error_app2, Nat.sub_diag by auto; reflexivity).
        rewrite nth_error_app1 in H by auto. eapply nth_error_In; eauto. }
      assert (In (n2, q) a1).
      { assert (nth_error (b1 ++ (n1, p) :: a1) (length b2) = Some (n2, q))
          by (rewrite E2, nth_error_app2, Nat.sub_diag by auto; reflexivity).
        rewrite nth_error_app2 in H0 by lia. destruct (length b2 - length b1) as [|k] eqn:Ek; [lia|].
        simpl in H0. eapply nth_error_In; eauto. }
      specialize (B2 _ _ _ H C1 R1). specialize (A1 _ _ _ H0 C2 R2). lia.
    - assert (nth_error (b1 ++ (n1, p) :: a1) (length b1) = nth_error (b2 ++ (n2, q) :: a2) (length b2))
        by now rewrite E2, Heq.
      rewrite !nth_error_app2, !Nat.sub_diag in H by auto. simpl in H. congruence.
    - exfalso. assert (In (n2, q) b1).
      { assert (nth_error (b1 ++ (n1, p) :: a1) (length b2) = Some (n2, q))
          by (rewrite E2, nth_error_app2, Nat.sub_diag by auto; reflexivity).
        rewrite nth_error_app1 in H by auto. eapply nth_error_In; eauto. }
      assert (In (n1, p) a2).
      { assert (nth_error (b2 ++ (n2, q) :: a2) (length b1) = Some (n1, p))
          by (rewrite <- E2, nth_error_app2, Nat.sub_diag by auto; reflexivity).
        rewrite nth_error_app2 in H0 by lia. destruct (length b1 - length b2) as [|k] eqn:Ek; [lia|].
        simpl in H0. eapply nth_error_In; eauto. }
      specialize (B1 _ _ _ H C2 R2). specialize (A2 _ _ _ H0 C1 R1). lia. }
  split.
  - intros p. destruct (sort_desc l) as [|[pr [n q]] r] eqn:Es.
    + split; [discriminate|]. intros (b & n & a & rk & Eps & Hc & _). exfalso.
      apply (suitable_some can_parse _ file l n p El); auto. rewrite Eps. apply in_or_app. right. now left.
    + pose proof (Found _ _ eq_refl) as Hb. simpl in Hb. split.
      * intros Eq. injection Eq as <-. exact Hb.
      * intros Hp. f_equal. now apply Unique.
  - destruct (sort_desc l) as [|[pr [n q]] r] eqn:Es.
    + split; [|eauto]. intros _ (n & p & Hin & Hc). now apply (suitable_some can_parse _ file l n p El).
    + split; [intros [e Ee]; discriminate|]. intros Hno. exfalso. apply Hno.
      destruct (Found _ _ eq_refl) as (b & m & a & rk & Eps & Hc & _). simpl in *.
      exists m, q. split; auto. rewrite Eps. apply in_or_app. right. now left.
Qed.

(** With a name it gives the parser registered under it, whether or not that takes the file. *)
Theorem C66_named :
  forall (Parser Path : Type) (can_parse : Parser -> Path -> result bool) (s : registry Parser) file n,
    g_ready s = true -> n <> [] -> NoDup (dkeys (g_parsers s)) ->
    forall p, get_parser can_parse s file (Some n) = Ok p <-> In (n, p) (g_parsers s).
Proof.
  intros Parser Path can_parse s file n Hr Hn Hd p. unfold get_parser. rewrite Hr. simpl.
  destruct n as [|ch n]; [congruence|]. split.
  - destruct (dget (ch :: n) (g_parsers s)) eqn:E; [|discriminate]. intros Eq. injection Eq as <-.
    now apply dget_Some_In.
  - intros Hin. now rewrite (In_dget _ _ _ Hd Hin).
Qed.

(** A registered parser of the user's own whose [can_parse] raises blocks every other one. *)
Theorem C66_raising :
  forall (Parser Path : Type) (can_parse : Parser -> Path -> result bool) (s : registry Parser) file n p e,
    g_ready s = true -> In (n, p) (g_parsers s) -> can_parse p file = Raise e ->
    exists x, get_parser can_parse s file None = Raise x.
Proof.
  intros Parser Path can_parse s file n p e Hr Hin He. unfold get_parser. rewrite Hr. simpl.
  assert (exists x, suitable can_parse (g_parsers s) file = Raise x) as [x ->]; [|simpl; eauto].
  induction (g_parsers s) as [|[m q] ps IH]; [destruct Hin|]. simpl. destruct Hin as [Hin|Hin].
  - injection Hin as -> ->. rewrite He. simpl. eauto.
  - destruct (can_parse q file) as [b|x]; simpl; [|eauto]. destruct (IH Hin) as [x ->]. simpl. eauto.
Qed.

(** A toy parser: the suffixes it takes; a toy file: its suffix. *)
Definition toy_can (p : list pystr) (file : pystr) : result bool := Ok (memb file p).
Definition toy_build (cls : parser_class) (_ : conf) : result (list pystr) :=
  match cls with
  | ClsText => Ok [py ".txt"; py ".md"; py ".rst"; py ".log"; py ".csv"]
  | ClsPdf => Ok [py ".pdf"]
  | ClsOffice => Ok [py ".docx"; py ".xlsx"; py ".xls"; py ".pptx"]
  | ClsDocling => Ok [py ".pdf"; py ".docx"; py ".pptx"; py ".html"; py ".xml"; py ".txt"]
  | ClsUser _ => Raise EParsing
  end.

Example C66_case :
  let conf := CTable [(py "parsers", CTable [(py "text", CTable []); (py "pdf", CTable []); (py "docling", CTable [])])] in
  let s := snd (reg_initialize toy_build (new_registry conf)) in
  g_ready s = true /\ answers toy_can (g_parsers s) (py ".pdf") /\
  get_parser toy_can s (py ".pdf") None = toy_build ClsDocling conf /\
  get_parser toy_can s (py ".md") None = toy_build ClsText conf /\
  get_parser toy_can s (py ".zip") None = Raise EParsing /\
  get_parser toy_can s (py ".md") (Some (py "pdf")) = toy_build ClsPdf conf.
Proof.
  intros c s. split; [reflexivity|]. split; [intros n p _; eexists; reflexivity|]. vm_compute. auto.
Qed.

(** ** C104 *)

(** Initialising a new registry registers the configured parsers that have a class and can be
    built, in the order of the configuration; those that cannot be built do no harm. *)
Theorem C104_initialise :
  forall (Parser : Type) (build : parser_class -> conf -> result Parser) (top : list (pystr * conf)) d,
    dget (py "parsers") top = Some (CTable d) -> NoDup (map fst d) ->
    exists s,
      reg_initialize build (new_registry (CTable top)) = (Ok tt, s) /\ g_ready s = true /\
      (forall n p, In (n, p) (g_parsers s) <->
         exists cls c, In (n, c) d /\ stands_for n cls /\ build cls c = Ok p) /\
      exists keep, map fst (g_parsers s) = filter keep (map fst d).
Proof.
  intros Parser build top d Ed Hd.
  set (usable := fun e : pystr * conf => match dget (fst e) builtin_classes with
                           | Some cls => match build cls (snd e) with Ok p => [(fst e, p)] | Raise _ => [] end
                           | None => [] end).
  assert (Keys : forall l n p, In (n, p) (concat (map usable l)) ->
                   exists c cls, In (n, c) l /\ dget n builtin_classes = Some cls /\ build cls c = Ok p).
  { intros l n p Hin. apply in_concat in Hin. destruct Hin as (x & Hx & Hin).
    apply in_map_iff in Hx. destruct Hx as ([m c] & <- & Hl). unfold usable in Hin. cbn [fst snd] in Hin.
    destruct (dget m builtin_classes) as [cls|] eqn:E; [|destruct Hin].
    destruct (build cls c) as [q|] eqn:Eb; [|destruct Hin]. destruct Hin as [Hin|[]]. injection Hin as <- <-.
    exists c, cls. auto. }
  assert (Loop : forall l s, NoDup (map fst l) -> g_classes s = builtin_classes ->
            (forall n, In n (map fst l) -> ~ In n (dkeys (g_parsers s))) ->
            forM l (register build) s = (Ok tt, set_parsers (g_parsers s ++ concat (map usable l)) s)).
  { induction l as [|[n c] l IH]; intros s Hn Hc Hf.
    - simpl. rewrite app_nil_r. destruct s; reflexivity.
    - inversion Hn; subst. cbn [forM]. unfold bind at 1, register at 1. unfold bind at 1, get at 1.
      cbn [fst snd]. rewrite Hc. cbn [map concat]. unfold usable at 1. cbn [fst snd].
      destruct (dget n builtin_classes) as [cls|] eqn:Eb.
      + destruct (build cls c) as [p|e] eqn:Ep.
        * unfold modify. rewrite IH; auto.
          -- simpl. rewrite dset_notin by (apply Hf; now left). rewrite <- app_assoc. reflexivity.
          -- intros m Hm. simpl. rewrite In_dkeys_dset. intros [->|Hin]; [auto|].
             apply (Hf m); [now right|exact Hin].
        * unfold ret. rewrite IH; auto. intros m Hm. apply Hf. now right.
      + unfold ret. rewrite IH; auto. intros m Hm. apply Hf. now right. }
  unfold reg_initialize. unfold bind at 1, get. unfold bind at 1, lift at 1. simpl. rewrite Ed.
  unfold bind at 1, lift. simpl. unfold bind at 1. rewrite Loop; auto.
  eexists. split; [reflexivity|]. split; [reflexivity|]. simpl. split.
  - intros n p. split.
    + intros Hin. apply Keys in Hin. destruct Hin as (c & cls & H1 & H2 & H3).
      exists cls, c. rewrite builtin_spec in H2. auto.
    + intros (cls & c & H1 & H2 & H3). apply in_concat. exists (usable (n, c)).
      split; [now apply in_map|]. unfold usable. cbn [fst snd]. apply builtin_spec in H2. rewrite H2, H3. now left.
  - exists (fun n => memb n (map fst (concat (map usable d)))).
    assert (G : forall l, NoDup (map fst l) ->
              map fst (concat (map usable l)) = filter (fun n => memb n (map fst (concat (map usable l)))) (map fst l)).
    { induction l as [|[n c] l IH]; intros Hn; [reflexivity|]. inversion Hn; subst. cbn [map concat].
      rewrite map_app. cbn [fst filter].
      assert (Hne : ~ In n (map fst (concat (map usable l)))).
      { intros Hin. apply in_map_iff in Hin. destruct Hin as ([m p] & Em & Hin). simpl in Em. subst m.
        apply Keys in Hin. destruct Hin as (c' & cls & Hin & _). apply H1. now apply (in_map fst) in Hin. }
      assert (Hext : forall pre, (forall m, In m (map fst l) -> ~ In m pre) ->
                filter (fun m => memb m (pre ++ map fst (concat (map usable l)))) (map fst l) =
                filter (fun m => memb m (map fst (concat (map usable l)))) (map fst l)).
      { intros pre Hp. apply filter_ext_in. intros m Hm. specialize (Hp m Hm).
        apply eq_true_iff_eq. rewrite !memb_In, in_app_iff. tauto. }
      assert (U : usable (n, c) = [] \/ exists p, usable (n, c) = [(n, p)]).
      { unfold usable. cbn [fst snd]. destruct (dget n builtin_classes) as [cls|]; [|auto].
        destruct (build cls c); eauto. }
      destruct U as [->|[p ->]]; cbn [map fst app].
      - rewrite (proj2 (memb_false _ _) Hne). auto.
      - assert (Em : memb n (n :: map fst (concat (map usable l))) = true) by (apply memb_In; now left).
        rewrite Em. f_equal. rewrite IH at 1 by auto. symmetry.
        apply (Hext [n]). intros m Hm [<-|[]]. auto. }
    apply G, Hd.
Qed.

Example C104_case :
  let d := [(py "docling", CTable []); (py "mine", CTable []); (py "text", CTable [])] in
  let bad := fun cls c => match cls with ClsDocling => Raise EParsing | _ => toy_build cls c end in
  let s := snd (reg_initialize bad (new_registry (CTable [(py "parsers", CTable d)]))) in
  NoDup (map fst d) /\ map fst (g_parsers s) = [py "text"].
Proof.
  split; [repeat constructor; simpl; intuition discriminate|vm_compute; reflexivity].
Qed.

(** ** C105 *)

(** Adding makes the parser available under its name and changes no other name; when the parser
    cannot be built nothing changes.  Removing takes exactly that name away. *)
Theorem C105_add :
  forall (Parser : Type) (build : parser_class -> conf -> result Parser) (s : registry Parser) n cls c,
    (forall p, build cls c = Ok p ->
       exists s', add_parser build n cls c s = (Ok tt, s') /\ g_ready s' = g_ready s /\
         dget n (g_parsers s') = Some p /\ (forall m, m <> n -> dget m (g_parsers s') = dget m (g_parsers s))) /\
    (forall e, build cls c = Raise e -> add_parser build n cls c s = (Raise EParsing, s)).
Proof.
  intros Parser build s n cls c. unfold add_parser, wrap, bind, lift, modify. split.
  - intros p ->. eexists. split; [reflexivity|]. split; [reflexivity|]. simpl.
    split; [apply dget_dset_same|]. intros m Hm. now apply dget_dset_other.
  - intros e ->. reflexivity.
Qed.

Theorem C105_remove :
  forall (Parser : Type) (s : registry Parser) n,
    exists s', remove_parser n s = (Ok tt, s') /\ g_ready s' = g_ready s /\
      dget n (g_parsers s') = None /\ (forall m, m <> n -> dget m (g_parsers s') = dget m (g_parsers s)).
Proof.
  intros Parser s n. unfold remove_parser, bind, modify. eexists. split; [reflexivity|].
  destruct (dmem n (g_parsers s)) eqn:E1; destruct (dmem n (g_classes _)); simpl;
    (split; [reflexivity|split; [try apply dget_ddel_same; now apply dmem_false|]]);
    intros m Hm; try reflexivity; now apply dget_ddel_other.
Qed.

(** The registration loop keeps the classes and registers every item that can be built. *)
Lemma register_loop {Parser} (build : parser_class -> conf -> result Parser) items :
  NoDup (map fst items) -> forall s : registry Parser,
  exists s', forM items (register build) s = (Ok tt, s') /\ g_classes s' = g_classes s /\
    (forall n, ~ In n (map fst items) -> dget n (g_parsers s') = dget n (g_parsers s)) /\
    forall n c cls p, In (n, c) items -> dget n (g_classes s) = Some cls -> build cls c = Ok p ->
      dget n (g_parsers s') = Some p.
Proof.
  induction items as [|[n c] items IH]; intros Hd s; inversion Hd as [|? ? Hn Hd']; subst.
  - exists s. cbn. repeat split; auto. intros ? ? ? ? [].
  - assert (E1 : exists s1, register build (n, c) s = (Ok tt, s1) /\ g_classes s1 = g_classes s /\
                  (forall m, m <> n -> dget m (g_parsers s1) = dget m (g_parsers s)) /\
                  forall cls p, dget n (g_classes s) = Some cls -> build cls c = Ok p ->
                    dget n (g_parsers s1) = Some p).
    { unfold register, bind, get. cbn [fst snd]. destruct (dget n (g_classes s)) as [cls|].
      - destruct (build cls c) as [p|e] eqn:Ep.
        + eexists. split; [reflexivity|]. cbn. split; [reflexivity|]. split.
          * intros m Hm. now apply dget_dset_other.
          * intros cls' p' [= <-] Ep'. rewrite Ep in Ep'. injection Ep' as <-. apply dget_dset_same.
        + exists s. repeat split; auto. intros cls' p' [= <-] Ep'. congruence.
      - exists s. repeat split; auto. discriminate. }
    destruct E1 as (s1 & E1 & C1 & O1 & B1). destruct (IH Hd' s1) as (s' & E2 & C2 & O2 & B2).
    exists s'. cbn [forM]. unfold bind. rewrite E1, E2. split; auto. split; [congruence|]. split.
    + intros m Hm. rewrite O2, O1; auto; intros Hin; apply Hm; [left|right]; auto.
    + intros m c' cls p [Hin|Hin] Hc Hb.
      * injection Hin as <- <-. rewrite O2 by auto. eauto.
      * apply (B2 m c' cls p); auto. congruence.
Qed.

(** The registry remembers the class of an added parser: after closing, initialising again builds
    it from the configuration like a built-in one. *)
Theorem C105_class_remembered :
  forall (Parser : Type) (build : parser_class -> conf -> result Parser) (s s1 : registry Parser) n cls c
         top d c' p,
    add_parser build n cls c s = (Ok tt, s1) ->
    g_config s = CTable top -> dget (py "parsers") top = Some (CTable d) -> NoDup (map fst d) ->
    In (n, c') d -> build cls c' = Ok p ->
    exists s2, reg_initialize build (snd (reg_close s1)) = (Ok tt, s2) /\
      dget n (g_parsers s2) = Some p.
Proof.
  intros Parser build s s1 n cls c top d c' p Ha Hg Hp Hd Hin Hb.
  unfold add_parser, wrap, bind, lift, modify in Ha. destruct (build cls c) as [p0|]; [|discriminate].
  injection Ha as <-. unfold reg_initialize, reg_close, bind, get, lift, modify.
  cbn [snd fst g_config set_reg_ready set_parsers set_classes]. rewrite Hg. cbn [conf_get]. rewrite Hp. cbn [conf_items].
  set (s0 := set_reg_ready false _).
  destruct (register_loop build d Hd s0) as (s' & -> & _ & _ & HB). eexists. split; [reflexivity|].
  cbn. apply (HB n c' cls p); auto. unfold s0. cbn. apply dget_dset_same.
Qed.

Example C105_class_remembered_case :
  let conf := CTable [(py "parsers", CTable [(py "mine", CTable [])])] in
  let s0 := snd (reg_initialize toy_build (new_registry conf)) in
  let s1 := snd (add_parser toy_build (py "mine") ClsPdf (CTable []) s0) in
  dget (py "mine") (g_parsers s0) = None /\
  dget (py "mine") (g_parsers (snd (reg_initialize toy_build (snd (reg_close s1))))) = Some [py ".pdf"].
Proof. vm_compute. auto. Qed.

(** Removing a built-in parser forgets its class: closing and initialising the registry again does
    not bring it back. *)
Theorem C105_removed_for_good_refuted :
  exists (build : parser_class -> conf -> result (list pystr)) c,
    let s0 := snd (reg_initialize build (new_registry c)) in
    let s1 := snd (reg_initialize build (snd (reg_close (snd (remove_parser (py "text") s0))))) in
    (exists p, dget (py "text") (g_parsers s0) = Some p) /\
    dget (py "text") (g_parsers s1) = None /\ g_config s1 = g_config s0.
Proof.
  exists toy_build, (CTable [(py "parsers", CTable [(py "text", CTable [])])]).
  vm_compute. repeat split. eauto.
Qed.

Example C105_case :
  let s0 := snd (reg_initialize toy_build (new_registry (CTable []))) in
  let s1 := snd (add_parser toy_build (py "mine") ClsPdf (CTable []) s0) in
  get_parser toy_can s1 (py ".pdf") None = Ok [py ".pdf"] /\
  get_parser toy_can (snd (remove_parser (py "mine") s1)) (py ".pdf") None = Raise EParsing.
Proof. vm_compute. auto. Qed.

(** * C65: the pipeline's configuration *)

Section Configured.
  Context {F : Type} {num : Num F} {Parser Path Meta : Type}.
  Context (build : parser_class -> conf -> result Parser)
          (can_parse : Parser -> Path -> result bool)
          (parse : Parser -> Path -> result (pdoc F Path Meta))
          (class_name : Parser -> pystr) (formats : Parser -> list pystr)
          (lib : text_lib) (encode : pystr -> result (list F)) (md5 : pystr -> result pystr)
          (read_clean : conf -> result clean_config) (read_chunk : conf -> result chunk_config)
          (read_embed : conf -> result embed_config).
  Let init := pipe_initialize (F := F) build read_clean read_chunk read_embed.
  Let process := process_document can_parse parse class_name lib encode md5.

  (** The registry of an initialised pipeline is the initialised registry of its configuration. *)
  Lemma init_registry c s : init (new_pipeline c) = (Ok tt, s) ->
    l_ready s = true /\
    exists pc g, conf_get c (py "parsers") = Ok pc /\
      reg_initialize build (new_registry pc) = (Ok tt, g) /\ l_registry s = Some g.
  Proof.
    unfold init, pipe_initialize, wrap, bind, get, lift, modify, when_configured. simpl.
    destruct (conf_get c (py "parsers")) as [pc|]; [|discriminate].
    destruct (reg_initialize build (new_registry pc)) as [[[]|] g] eqn:Eg; [|discriminate].
    destruct (conf_get c (py "processors")) as [cs|]; [|discriminate].
    assert (Keep : forall (m : M (pipeline F Parser) unit),
      (exists f, m = add_cleaning read_clean f) \/ (exists f, m = add_chunking read_chunk f) \/
      (exists f, m = add_embedding read_embed f) \/ m = ret tt ->
      forall s1 r s2, m s1 = (r, s2) -> l_registry s2 = l_registry s1).
    { intros m Hm s1 r s2 E.
      destruct Hm as [[f ->]|[[f ->]|[[f ->]| ->]]].
      - unfold add_cleaning, bind, lift in E. destruct (read_clean f); injection E as <- <-; reflexivity.
      - unfold add_chunking, bind, lift in E. destruct (read_chunk f) as [k|]; [|injection E as <- <-; reflexivity].
        destruct (chunk_initialize k); injection E as <- <-; reflexivity.
      - unfold add_embedding, bind, lift in E. destruct (read_embed f) as [e|]; [|injection E as <- <-; reflexivity].
        destruct (emb_initialize e new_embedder) as [[u|x] s0]; injection E as <- <-; reflexivity.
      - injection E as <- <-; reflexivity. }
    set (m1 := match conf_entry cs (py "cleaning") with Some c0 => add_cleaning read_clean c0 | None => ret tt end).
    set (m2 := match conf_entry cs (py "chunking") with Some c0 => add_chunking read_chunk c0 | None => ret tt end).
    set (m3 := match conf_entry cs (py "embedding") with Some c0 => add_embedding read_embed c0 | None => ret tt end).
    assert (K1 : forall s1 r s2, m1 s1 = (r, s2) -> l_registry s2 = l_registry s1)
      by (apply Keep; unfold m1; destruct (conf_entry cs (py "cleaning")) as [f|]; [left; now exists f|auto]).
    assert (K2 : forall s1 r s2, m2 s1 = (r, s2) -> l_registry s2 = l_registry s1)
      by (apply Keep; unfold m2; destruct (conf_entry cs (py "chunking")) as [f|]; [right; left; now exists f|auto]).
    assert (K3 : forall s1 r s2, m3 s1 = (r, s2) -> l_registry s2 = l_registry s1)
      by (apply Keep; unfold m3; destruct (conf_entry cs (py "embedding")) as [f|]; [right; right; left; now exists f|auto]).
    intros E.
    destruct (m1 _) as [[[]|] s1] eqn:E1; [|discriminate].
    destruct (m2 s1) as [[[]|] s2] eqn:E2; [|discriminate].
    destruct (m3 s2) as [[[]|] s3] eqn:E3; [|discriminate].
    injection E as <-. split; [reflexivity|]. exists pc, g. split; [reflexivity|]. split; [exact Eg|].
    simpl. rewrite (K3 _ _ _ E3), (K2 _ _ _ E2), (K1 _ _ _ E1). reflexivity.
  Qed.
End Configured.

(** With a configuration as documented, parser names mapped to options under "parsers", the
    initialised pipeline supports no format and fails on every file, whatever the options. *)
Theorem C65_refuted :
  forall (F : Type) (num : Num F) (Parser Path Meta : Type)
         (build : parser_class -> conf -> result Parser) (can_parse : Parser -> Path -> result bool)
         (parse : Parser -> Path -> result (pdoc F Path Meta)) class_name formats lib encode md5
         read_clean read_chunk read_embed (top : list (pystr * conf)) (names : list (pystr * conf)) s,
    dget (py "parsers") top = Some (CTable names) ->
    (forall n, In n (map fst names) -> exists cls, stands_for n cls) ->
    pipe_initialize (F := F) build read_clean read_chunk read_embed (new_pipeline (CTable top)) = (Ok tt, s) ->
    pipe_formats formats s = [] /\
    forall file name,
      process_document (F := F) (Meta := Meta) can_parse parse class_name lib encode md5 file name s
      = (Raise EProcessing, s).
Proof.
  intros F num Parser Path Meta build can_parse parse class_name formats lib encode md5
    read_clean read_chunk read_embed top names s Ht Hn E.
  destruct (init_registry build read_clean read_chunk read_embed (CTable top) s E) as (Hr & pc & g & Ec & Eg & Es).
  simpl in Ec. rewrite Ht in Ec. injection Ec as <-.
  assert (Ep : dget (py "parsers") names = None).
  { apply dget_None. intros Hin. destruct (Hn _ Hin) as [cls Hc]. inversion Hc. }
  unfold reg_initialize, bind, get, lift in Eg. simpl in Eg. rewrite Ep in Eg. simpl in Eg.
  injection Eg as <-. split.
  - unfold pipe_formats. rewrite Es, Hr. reflexivity.
  - intros file name. unfold process_document, bind, get. rewrite Hr. simpl. unfold wrap, bind, lift.
    rewrite Es. unfold parse_document, get_parser. simpl. destruct name as [[|ch n]|]; reflexivity.
Qed.

(** What does work: the same table one level deeper.  Then a file that a named parser takes is
    parsed by the best of the named parsers.  Partial: not the documented shape. *)
Theorem C65_nested_partial :
  forall (F : Type) (num : Num F) (Parser Path Meta : Type)
         (build : parser_class -> conf -> result Parser) (can_parse : Parser -> Path -> result bool)
         (parse : Parser -> Path -> result (pdoc F Path Meta))
         read_clean read_chunk read_embed (top inner : list (pystr * conf)) names s file,
    dget (py "parsers") top = Some (CTable inner) -> dget (py "parsers") inner = Some (CTable names) ->
    NoDup (map fst names) ->
    pipe_initialize (F := F) build read_clean read_chunk read_embed (new_pipeline (CTable top)) = (Ok tt, s) ->
    (forall n c cls p, In (n, c) names -> stands_for n cls -> build cls c = Ok p -> exists b, can_parse p file = Ok b) ->
    (exists n c cls p, In (n, c) names /\ stands_for n cls /\ build cls c = Ok p /\ can_parse p file = Ok true) ->
    exists g p, l_registry s = Some g /\ best can_parse (g_parsers g) file p /\
      parse_document can_parse parse g file None = parse p file.
Proof.
  intros F num Parser Path Meta build can_parse parse read_clean read_chunk read_embed top inner names s file
    Ht Hi Hd E Ha (n & c & cls & p & Hin & Hs & Hb & Hc).
  destruct (init_registry build read_clean read_chunk read_embed (CTable top) s E) as (Hr & pc & g & Ec & Eg & Es).
  simpl in Ec. rewrite Ht in Ec. injection Ec as <-.
  destruct (C104_initialise Parser build inner names Hi Hd) as (g' & Eg' & Hg & Hp & _).
  rewrite Eg in Eg'. injection Eg' as <-.
  assert (Ans : answers can_parse (g_parsers g) file).
  { intros m q Hq. apply Hp in Hq. destruct Hq as (cls' & c' & H1 & H2 & H3). eauto. }
  destruct (C66_choice Parser Path can_parse g file None Hg (or_introl eq_refl) Ans) as [C1 C2].
  destruct (get_parser can_parse g file None) as [q|e] eqn:Eq.
  - exists g, q. split; [exact Es|]. split; [now apply C1|]. unfold parse_document. now rewrite Eq.
  - exfalso. assert (~ exists n p, In (n, p) (g_parsers g) /\ can_parse p file = Ok true) as Hno
      by (apply C2; eauto). apply Hno. exists n, p. split; [|exact Hc]. apply Hp. eauto.
Qed.

From Verif Require Import Demo DemoIndex.

(** Toy readers of options: the defaults. *)
Definition toy_clean (_ : conf) : result clean_config := Ok default_cleaning.
Definition toy_chunk (_ : conf) : result chunk_config := Ok default_chunking.
Definition toy_embed (_ : conf) : result embed_config := Ok (MkEmb (py "m") TSentence 32 true false).

(** The README's configuration initialises. *)
Definition readme_config : list (pystr * conf) :=
  [(py "parsers", CTable [(py "text", CTable [(py "chunk_size", CValue (PInt 1000))])]);
   (py "processors", CTable [(py "cleaning", CTable []); (py "chunking", CTable []); (py "embedding", CTable [])])].

Example C65_case :
  exists s, pipe_initialize (F := Z) toy_build toy_clean toy_chunk toy_embed (new_pipeline (CTable readme_config))
            = (Ok tt, s) /\ length (l_processors s) = 3.
Proof. eexists. split; vm_compute; reflexivity. Qed.

(** One level deeper the text parser is there. *)
Example C65_nested_case :
  let names := [(py "text", CTable []); (py "pdf", CTable [])] in
  let top := [(py "parsers", CTable [(py "parsers", CTable names)])] in
  exists s g p,
    pipe_initialize (F := Z) toy_build toy_clean toy_chunk toy_embed (new_pipeline (CTable top)) = (Ok tt, s) /\
    l_registry s = Some g /\ get_parser toy_can g (py ".md") None = Ok p.
Proof. eexists _, _, _. split; [vm_compute; reflexivity|]. split; vm_compute; reflexivity. Qed.

Print Assumptions C65_refuted.
Print Assumptions C65_nested_partial.
Print Assumptions C66_choice.
Print Assumptions C66_named.
Print Assumptions C66_raising.
Print Assumptions C104_initialise.
Print Assumptions C105_add.
Print Assumptions C105_remove.
Print Assumptions C105_class_remembered.
Print Assumptions C105_removed_for_good_refuted.
