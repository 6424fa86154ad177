(** Properties C75 and C99 to C103: the embedding processor (model: EmbedModel.v). *)

From Coq Require Import String List Arith ZArith NArith Bool Lia.
From Verif Require Import PyBase PyMore Num PyValue BatchModel PropsBatch EmbedModel.
Import ListNotations.
Open Scope py_scope.

(** * Vocabulary *)

(** Nothing but white space. *)
Definition white (t : pystr) : Prop := forall ch, In ch t -> py_space ch = true.

Lemma is_blank_white t : is_blank t = true <-> white t.
Proof.
  unfold is_blank, white. rewrite <- py_strip_nil. destruct (py_strip t); split; congruence.
Qed.

Section Vocabulary.
  Context {F : Type} `{Num F}.

  (** What a text's embedding is to be: zeros for white space, otherwise what the model makes of
      it, divided by its norm when that is configured. *)
  Definition embeds (encode : pystr -> result (list F)) (c : embed_config) (t : pystr)
      (r : result (list F)) : Prop :=
    (white t -> r = Ok (repeat nzero 384)) /\
    (~ white t -> forall v, encode t = Ok v ->
       r = Ok (if e_normal c then map (fun a => ndiv a (norm v)) v else v)) /\
    (~ white t -> forall e, encode t = Raise e -> r = Raise e).

  (** The values behind the places a call returned. *)
  Definition shown (s : @embedder F) (r : result nat) : result (list F) :=
    rbind r (fun l => match nth_error (m_heap s) l with Some v => Ok v | None => Raise EIndexRange end).

  (** What a program can do with a processor and the arrays it was given. *)
  Inductive emb_op : Type :=
  | EText (t : pystr)
  | EDocument (d : emb_doc)
  | EBatch (ts : list pystr)
  | EClear
  | EStats
  | EWrite (l : nat) (v : list F).

  Definition emb_do (encode : pystr -> result (list F)) (md5 : pystr -> result pystr)
      (c : embed_config) (o : emb_op) : M (@embedder F) unit :=
    match o with
    | EText t => _ <- generate_embedding encode md5 c t ;; ret tt
    | EDocument d => _ <- emb_process encode md5 c d ;; ret tt
    | EBatch ts => _ <- emb_batch encode md5 c ts ;; ret tt
    | EClear => emb_clear
    | EStats => _ <- emb_get_stats encode md5 c ;; ret tt
    | EWrite l v => emb_write l v
    end.

  (** The state after a sequence of operations, whatever they answered. *)
  Definition emb_after encode md5 c (ops : list emb_op) (s : @embedder F) : @embedder F :=
    fold_left (fun s o => snd (emb_do encode md5 c o s)) ops s.

  (** The texts an operation embeds through the cache. *)
  Definition texts_of (o : emb_op) : list pystr :=
    match o with
    | EText t => [t]
    | EDocument d =>
        (match ed_text d with Some t => [t] | None => [] end) ++
        (match ed_chunks d with
         | Some cs => concat (map (fun x => match x with Some t => [t] | None => [] end) cs)
         | None => [] end)
    | EBatch ts => ts
    | EStats => [py "test"]
    | EClear | EWrite _ _ => []
    end.

  Definition no_write (o : emb_op) : Prop := match o with EWrite _ _ => False | _ => True end.
End Vocabulary.
Arguments emb_op F : clear implicits.

(** The hash gives a key to every text of [T] that is not white space, and no two of them the
    same. *)
Definition keys_apart (md5 : pystr -> result pystr) (c : embed_config) (T : pystr -> Prop) : Prop :=
  (forall t, T t -> ~ white t -> exists k, md5 (key_content c t) = Ok k) /\
  (forall t u, T t -> T u -> ~ white t -> ~ white u ->
     md5 (key_content c t) = md5 (key_content c u) -> t = u).

Definition known_type (c : embed_config) : Prop := forall n, e_type c <> TOther n.

(** The hashed string determines the text, so only the hash itself can confuse texts. *)
Lemma key_content_inj c t u : key_content c t = key_content c u -> t = u.
Proof. unfold key_content. intros E. now apply app_inv_tail in E. Qed.

(** * The cache *)

Section Cache.
  Context {F : Type} `{Num F}.
  Context (encode : pystr -> result (list F)) (md5 : pystr -> result pystr) (c : embed_config).
  Context (T : pystr -> Prop).
  Hypothesis Hk : keys_apart md5 c T.
  Hypothesis Ht : known_type c.

  Let answer (t : pystr) : result (list F) :=
    if is_blank t then Ok (repeat nzero 384) else rbind (encode t) (fun v => Ok (finish c v)).

  Lemma answer_embeds t : embeds encode c t (answer t).
  Proof.
    unfold embeds, answer, finish, unit_row. destruct (is_blank t) eqn:E.
    - apply is_blank_white in E. repeat split; intros; tauto.
    - assert (~ white t) by (rewrite <- is_blank_white; congruence).
      split; [tauto|]. split; intros _ v ->; reflexivity.
  Qed.

  Lemma embeds_answer t r : embeds encode c t r -> r = answer t.
  Proof.
    intros (E1 & E2 & E3). unfold answer, finish, unit_row. destruct (is_blank t) eqn:E.
    - apply E1, is_blank_white, E.
    - assert (~ white t) by (rewrite <- is_blank_white; congruence).
      destruct (encode t) eqn:Ee; simpl; auto.
  Qed.

  Lemma run_model_encode t : run_model encode c t = encode t.
  Proof. unfold run_model. destruct (e_type c) eqn:E; auto. now apply Ht in E. Qed.

  (** Every cache entry points to the embedding of the text its key belongs to. *)
  Definition sound (s : @embedder F) : Prop :=
    forall k l, dget k (m_cache s) = Some l ->
      exists t v, T t /\ is_blank t = false /\ md5 (key_content c t) = Ok k /\
                  nth_error (m_heap s) l = Some v /\ answer t = Ok v.

  (** Arrays only get added. *)
  Definition grows (s s' : @embedder F) : Prop :=
    (exists h, m_heap s' = m_heap s ++ h) /\ m_ready s' = m_ready s.

  Lemma grows_refl s : grows s s.
  Proof. split; [exists []; now rewrite app_nil_r|reflexivity]. Qed.

  Lemma grows_trans a b d : grows a b -> grows b d -> grows a d.
  Proof.
    intros [[h E] R] [[h' E'] R']. split; [exists (h ++ h'); rewrite E', E; now rewrite app_assoc|congruence].
  Qed.

  Lemma grows_nth s s' l v : grows s s' -> nth_error (m_heap s) l = Some v -> nth_error (m_heap s') l = Some v.
  Proof.
    intros [[h E] _] Hn. rewrite E, nth_error_app1; auto. apply nth_error_Some. congruence.
  Qed.

  Lemma alloc_grows v s : grows s (snd (alloc v s)).
  Proof. split; [exists [v]; reflexivity|reflexivity]. Qed.

  Lemma alloc_sound v s : sound s -> sound (snd (alloc v s)).
  Proof.
    intros Hs k l Hd. simpl in *. destruct (Hs k l Hd) as (t & w & A & B & C & D & E).
    exists t, w. repeat split; auto. rewrite nth_error_app1; auto. apply nth_error_Some. congruence.
  Qed.

  Lemma generate_sound t s : T t -> sound s ->
    let (r, s') := generate_embedding encode md5 c t s in
    sound s' /\ grows s s' /\ shown s' r = answer t /\
    (forall l, r = Ok l -> exists v, nth_error (m_heap s') l = Some v).
  Proof.
    intros HT Hs. unfold generate_embedding. destruct (is_blank t) eqn:Eb.
    - split; [now apply alloc_sound|]. split; [apply alloc_grows|].
      simpl. rewrite nth_error_app2, Nat.sub_diag by auto. unfold answer. rewrite Eb. split; [reflexivity|].
      intros l El. injection El as <-. rewrite nth_error_app2, Nat.sub_diag by auto. now eexists.
    - assert (Hw : ~ white t) by (rewrite <- is_blank_white; congruence).
      assert (New : forall key, (forall k, key = Some k -> md5 (key_content c t) = Ok k) ->
        let (r, s') := generate_new encode c key t s in
        sound s' /\ grows s s' /\ shown s' r = answer t /\
        (forall l, r = Ok l -> exists v, nth_error (m_heap s') l = Some v)).
      { intros key Hkey. unfold generate_new, bind, lift. rewrite run_model_encode.
        unfold answer. rewrite Eb. destruct (encode t) as [v|e] eqn:Ee.
        - simpl. assert (Hn : nth_error (m_heap s ++ [finish c v]) (length (m_heap s)) = Some (finish c v))
            by now rewrite nth_error_app2, Nat.sub_diag.
          destruct key as [k|]; simpl.
          + split; [|split; [split; [exists [finish c v]; reflexivity|reflexivity]|rewrite Hn; split; [reflexivity|]; intros l El; injection El as <-; eauto]].
            intros k' l Hd. simpl in *. rewrite dget_dset in Hd. destruct (eqb_spec k' k) as [->|Hne].
            * injection Hd as <-. exists t, (finish c v). repeat split; auto.
              unfold answer. now rewrite Eb, Ee.
            * destruct (Hs k' l Hd) as (u & w & A & B & C & D & E). exists u, w. repeat split; auto.
              rewrite nth_error_app1; auto. apply nth_error_Some. congruence.
          + split; [|split; [split; [exists [finish c v]; reflexivity|reflexivity]|rewrite Hn; split; [reflexivity|]; intros l El; injection El as <-; eauto]].
            intros k' l Hd. simpl in *.
            destruct (Hs k' l Hd) as (u & w & A & B & C & D & E). exists u, w. repeat split; auto.
            rewrite nth_error_app1; auto. apply nth_error_Some. congruence.
        - split; [exact Hs|]. split; [apply grows_refl|]. split; [reflexivity|]. discriminate. }
      destruct (e_cached c); [|apply New; discriminate].
      destruct Hk as [Hk1 Hk2]. destruct (Hk1 t HT Hw) as [k Ek].
      unfold bind, lift, get. rewrite Ek.
      destruct (dget k (m_cache s)) as [l|] eqn:Ed; [|apply New; congruence].
      simpl. split; [|split; [split; [exists []; simpl; now rewrite app_nil_r|reflexivity]|]].
      + intros k' l' Hd. exact (Hs k' l' Hd).
      + destruct (Hs k l Ed) as (u & w & A & B & C & D & E).
        assert (Hwu : ~ white u) by (rewrite <- is_blank_white; congruence).
        assert (t = u) as -> by (apply Hk2; auto; congruence).
        rewrite D. split; [congruence|]. intros l' El. injection El as <-. eauto.
  Qed.

  (** A method that keeps the cache sound and only adds arrays. *)
  Definition gentle {A} (m : M (@embedder F) A) : Prop :=
    forall s, sound s -> sound (snd (m s)) /\ grows s (snd (m s)).

  Lemma gentle_ret {A} (a : A) : gentle (ret a).
  Proof. intros s Hs. split; [exact Hs|apply grows_refl]. Qed.

  Lemma gentle_lift {A} (r : result A) : gentle (lift r).
  Proof. intros s Hs. split; [exact Hs|apply grows_refl]. Qed.

  Lemma gentle_get : gentle get.
  Proof. intros s Hs. split; [exact Hs|apply grows_refl]. Qed.

  Lemma gentle_raise {A} e : gentle (@raise _ A e).
  Proof. intros s Hs. split; [exact Hs|apply grows_refl]. Qed.

  Lemma gentle_bind {A B} (m : M (@embedder F) A) (f : A -> M (@embedder F) B) :
    gentle m -> (forall a, gentle (f a)) -> gentle (bind m f).
  Proof.
    intros Hm Hf s Hs. unfold bind. specialize (Hm s Hs).
    destruct (m s) as [[a|e] s']; simpl in *; [|exact Hm].
    destruct Hm as [H1 H2]. destruct (Hf a s' H1) as [H3 H4]. split; [exact H3|].
    eapply grows_trans; eauto.
  Qed.

  Lemma gentle_mapM {A B} (f : A -> M (@embedder F) B) l :
    (forall a, In a l -> gentle (f a)) -> gentle (mapM l f).
  Proof.
    induction l as [|a l IH]; intros Hf; simpl; [apply gentle_ret|].
    apply gentle_bind; [apply Hf; now left|]. intros b.
    apply gentle_bind; [apply IH; intros x Hx; apply Hf; now right|]. intros bs. apply gentle_ret.
  Qed.

  Lemma gentle_alloc v : gentle (alloc v).
  Proof. intros s Hs. split; [now apply alloc_sound|apply alloc_grows]. Qed.

  Lemma gentle_generate t : T t -> gentle (generate_embedding encode md5 c t).
  Proof.
    intros HT s Hs. pose proof (generate_sound t s HT Hs) as G.
    destruct (generate_embedding encode md5 c t s) as [r s']. simpl. tauto.
  Qed.

  Lemma gentle_count n : gentle (modify (count_texts n)).
  Proof.
    intros s Hs. split; [intros k l Hd; exact (Hs k l Hd)|].
    split; [exists []; simpl; now rewrite app_nil_r|reflexivity].
  Qed.

  Lemma gentle_chunks cs :
    (forall t, In (Some t) cs -> T t) -> gentle (embed_chunks encode md5 c cs).
  Proof.
    induction cs as [|[t|] cs IH]; intros Hc; simpl; [apply gentle_ret| |].
    - apply gentle_bind; [apply gentle_generate, Hc; now left|]. intros l.
      apply gentle_bind; [apply IH; intros u Hu; apply Hc; now right|]. intros ls. apply gentle_ret.
    - apply IH. intros u Hu. apply Hc. now right.
  Qed.

  Lemma gentle_process d : (forall t, In t (texts_of (F := F) (EDocument d)) -> T t) ->
    gentle (emb_process encode md5 c d).
  Proof.
    intros HT. unfold emb_process. apply gentle_bind; [apply gentle_get|]. intros s.
    destruct (negb (m_ready s)); [apply gentle_raise|].
    simpl in HT. apply gentle_bind.
    - destruct (ed_text d) as [t|]; [|apply gentle_ret].
      apply gentle_bind; [apply gentle_generate, HT; now left|intros l; apply gentle_ret].
    - intros e. apply gentle_bind; [|intros x; apply gentle_ret].
      destruct (ed_chunks d) as [cs|]; [|apply gentle_ret].
      apply gentle_bind; [apply gentle_chunks|intros l; apply gentle_ret].
      intros t Hin. apply HT. apply in_or_app. right. apply in_concat. exists [t].
      split; [|now left]. apply in_map_iff. now exists (Some t).
  Qed.

  Lemma firstn_skipn_In {A} a b (l : list A) x : In x (firstn a (skipn b l)) -> In x l.
  Proof.
    intros Hx. rewrite <- (firstn_skipn b l). apply in_or_app. right.
    rewrite <- (firstn_skipn a (skipn b l)). apply in_or_app. now left.
  Qed.

  Lemma gentle_batch ts : (forall t, In t ts -> T t) -> gentle (emb_batch encode md5 c ts).
  Proof.
    intros HT. unfold emb_batch. apply gentle_bind; [apply gentle_get|]. intros s.
    destruct (negb (m_ready s)); [apply gentle_raise|].
    apply gentle_bind; [apply gentle_lift|]. intros starts.
    apply gentle_bind.
    - apply gentle_mapM. intros i _. cbv zeta.
      assert (G : gentle (generate_batch encode md5 c (batch_of (e_batch c) ts i))).
      { unfold generate_batch. apply gentle_bind.
        - apply gentle_mapM. intros t Hin. apply gentle_generate, HT.
          unfold batch_of in Hin. eapply firstn_skipn_In; eauto.
        - intros ls. apply gentle_bind; [apply gentle_get|]. intros s'.
          apply gentle_bind; [apply gentle_lift|]. intros vs.
          apply gentle_mapM. intros v _. apply gentle_alloc. }
      destruct (e_type c); auto.
      unfold encode_batch. apply gentle_bind; [apply gentle_lift|]. intros vs.
      apply gentle_mapM. intros v _. apply gentle_alloc.
    - intros parts. apply gentle_bind; [apply gentle_count|]. intros []. apply gentle_ret.
  Qed.

  Lemma do_sound o s : no_write o -> (forall t, In t (texts_of o) -> T t) -> sound s ->
    sound (snd (emb_do encode md5 c o s)).
  Proof.
    intros Hw HT Hs. destruct o as [t|d|ts| | |l v]; simpl in *.
    - apply gentle_bind; auto; [apply gentle_generate; auto|intros; apply gentle_ret].
    - apply gentle_bind; auto; [apply gentle_process; auto|intros; apply gentle_ret].
    - apply gentle_bind; auto; [apply gentle_batch; auto|intros; apply gentle_ret].
    - intros k l Hd. discriminate.
    - apply gentle_bind; auto; [|intros; apply gentle_ret].
      unfold emb_get_stats. apply gentle_bind; [apply gentle_get|]. intros s0.
      apply gentle_bind; [|intros; apply gentle_ret]. unfold emb_dimension.
      apply gentle_bind; [apply gentle_get|]. intros s1. destruct (negb (m_ready s1)); [apply gentle_ret|].
      apply gentle_bind; [apply gentle_generate; auto|]. intros l.
      apply gentle_bind; [apply gentle_get|]. intros s2. apply gentle_ret.
    - tauto.
  Qed.

  Lemma after_sound ops : forall s, Forall no_write ops ->
    (forall t, In t (concat (map texts_of ops)) -> T t) -> sound s ->
    sound (emb_after encode md5 c ops s).
  Proof.
    induction ops as [|o ops IH]; intros s Hw HT Hs; simpl; [exact Hs|].
    inversion Hw; subst. apply IH; auto.
    - intros t Hin. apply HT. simpl. apply in_or_app. now right.
    - apply do_sound; auto. intros t Hin. apply HT. simpl. apply in_or_app. now left.
  Qed.
End Cache.

(** ** C75 *)

(** After any history of embedding calls, batches, documents, cache clearing and statistics, a
    text gets the embedding it is to have, whatever is in the cache.  Partial: the history holds
    no writes into arrays the processor returned, and the hash tells the texts apart. *)
Theorem C75_transparent_partial :
  forall (F : Type) (num : Num F) (encode : pystr -> result (list F)) (md5 : pystr -> result pystr)
         (c : embed_config) (ops : list (emb_op F)) (t : pystr) (ready : bool),
    let s := emb_after encode md5 c ops (MkEmbedder [] [] 0 0 0 ready) in
    known_type c -> Forall no_write ops ->
    keys_apart md5 c (fun u => u = t \/ In u (concat (map texts_of ops))) ->
    let (r, s') := generate_embedding encode md5 c t s in
    embeds encode c t (shown s' r).
Proof.
  intros F num encode md5 c ops t ready s Ht Hw Hk.
  assert (Hs : sound encode md5 c (fun u => u = t \/ In u (concat (map texts_of ops))) s).
  { apply after_sound; auto. intros k l Hd. discriminate. }
  pose proof (generate_sound encode md5 c _ Hk Ht t s (or_introl eq_refl) Hs) as G.
  destruct (generate_embedding encode md5 c t s) as [r s'].
  destruct G as (_ & _ & -> & _). apply answer_embeds.
Qed.

From Verif Require Import Demo DemoIndex.

(** A toy model: three numbers from the first character and the length. *)
Definition toy_encode (t : pystr) : result (list Z) :=
  match t with [] => Raise EValue | ch :: _ => Ok [Z.of_N ch; Z.of_nat (length t); 4%Z] end.
Definition toy_config : embed_config := MkEmb (py "m") TSentence 2 true false.
(** A hash that tells all texts apart. *)
Definition plain_hash (s : pystr) : result pystr := Ok s.

(** The array in the cache is the array the caller got: who writes into it changes the answer to
    the next request for the same text. *)
Theorem C75_alias_refuted :
  exists (encode : pystr -> result (list Z)) md5 c (ops : list (emb_op Z)) t,
    known_type c /\ keys_apart md5 c (fun _ => True) /\
    let s := emb_after encode md5 c ops (MkEmbedder [] [] 0 0 0 true) in
    let (r, s') := generate_embedding encode md5 c t s in
    ~ embeds encode c t (shown s' r).
Proof.
  exists toy_encode, plain_hash, toy_config, [EText (py "hello"); EWrite 0 [0; 0; 0]%Z], (py "hello").
  split; [discriminate|]. split.
  { split; [intros t _ _; exists (key_content toy_config t); reflexivity|].
    intros t u _ _ _ _ E. injection E as E. now apply key_content_inj in E. }
  intros s. destruct (generate_embedding toy_encode plain_hash toy_config (py "hello") s) as [r s'] eqn:Eg.
  vm_compute in Eg. injection Eg as <- <-. intros (_ & E & _).
  specialize (E ltac:(intros Hw; specialize (Hw 104%N ltac:(vm_compute; auto)); discriminate)
                [104; 5; 4]%Z eq_refl).
  vm_compute in E. discriminate E.
Qed.

(** Caching makes a text that does not encode as UTF-8 fail although the model takes it. *)
Theorem C75_unencodable_refuted :
  exists (encode : pystr -> result (list Z)) md5 c t v,
    known_type c /\ encode t = Ok v /\ ~ white t /\
    let (r, s') := generate_embedding encode md5 c t (MkEmbedder [] [] 0 0 0 true) in
    exists e, r = Raise e.
Proof.
  exists toy_encode, (fun s => if existsb (fun ch => (55296 <=? ch)%N && (ch <=? 57343)%N) s then Raise EValue else Ok s),
    toy_config, [55296%N], [55296; 1; 4]%Z.
  split; [discriminate|]. split; [reflexivity|]. split.
  - intros Hw. specialize (Hw 55296%N ltac:(simpl; auto)). discriminate.
  - vm_compute. eauto.
Qed.

(** In principle: every hash with a digest of fixed length confuses two texts, and then the
    second gets the first's embedding under some model. *)
Definition hex_digest (s : pystr) : Prop :=
  length s = 32 /\ Forall (fun ch => In ch (py "0123456789abcdef")) s.

Fixpoint all_strings (alphabet : pystr) (n : nat) : list pystr :=
  match n with
  | O => [[]]
  | S n' => concat (map (fun ch => map (cons ch) (all_strings alphabet n')) alphabet)
  end.

Lemma all_strings_In alphabet n : forall s, length s = n -> Forall (fun ch => In ch alphabet) s ->
  In s (all_strings alphabet n).
Proof.
  induction n as [|n IH]; intros [|ch s] Hl Hf; try discriminate; [simpl; auto|].
  inversion Hf; subst. simpl. apply in_concat. exists (map (cons ch) (all_strings alphabet n)).
  split; [now apply in_map_iff; exists ch|]. apply in_map_iff. exists s. split; auto.
Qed.

Lemma pigeonhole {A} `{EqDec A} (f : nat -> A) (L : list A) :
  (forall i, In (f i) L) -> exists i j, i < j /\ f i = f j.
Proof.
  intros Hin. set (n := S (length L)).
  assert (D : forall m, (exists i j, i < j < m /\ f i = f j) \/ NoDup (map f (seq 0 m))).
  { induction m as [|m [(i & j & Hij & E)|IH]].
    - right. constructor.
    - left. exists i, j. split; [lia|auto].
    - destruct (in_dec (fun x y => match eqb_spec x y with ReflectT _ e => left e | ReflectF _ e => right e end)
                  (f m) (map f (seq 0 m))) as [Hi|Hi].
      + apply in_map_iff in Hi. destruct Hi as (i & E & Hs). apply in_seq in Hs.
        left. exists i, m. split; [lia|auto].
      + right. rewrite seq_S, map_app. simpl. clear -IH Hi.
        induction (map f (seq 0 m)) as [|a l IHl]; simpl in *; [repeat constructor; auto|].
        inversion IH; subst. constructor; [|apply IHl; tauto].
        rewrite in_app_iff. simpl. intuition. }
  destruct (D n) as [(i & j & Hij & E)|Hn]; [exists i, j; split; [lia|auto]|].
  exfalso. assert (length (map f (seq 0 n)) <= length L).
  { apply NoDup_incl_length; auto. intros x Hx. apply in_map_iff in Hx. destruct Hx as (i & <- & _). auto. }
  rewrite map_length, seq_length in *. unfold n in *. lia.
Qed.

Theorem C75_collision_refuted :
  forall (md5 : pystr -> pystr) (c : embed_config),
    (forall s, hex_digest (md5 s)) -> known_type c -> e_cached c = true -> e_normal c = false ->
    exists (encode : pystr -> result (list Z)) t u,
      t <> u /\ ~ white t /\ ~ white u /\
      let s := emb_after encode (fun x => Ok (md5 x)) c [EText t] (MkEmbedder [] [] 0 0 0 true) in
      let (r, s') := generate_embedding encode (fun x => Ok (md5 x)) c u s in
      ~ embeds encode c u (shown s' r).
Proof.
  intros md5 c Hhex Ht Hc Hn.
  set (text := fun i : nat => repeat 97%N (S i)).
  destruct (pigeonhole (fun i => md5 (key_content c (text i))) (all_strings (py "0123456789abcdef") 32))
    as (i & j & Hij & E).
  { intros i. destruct (Hhex (key_content c (text i))). now apply all_strings_In. }
  set (encode := fun t : pystr => Ok [Z.of_nat (length t)]).
  exists encode, (text i), (text j).
  assert (Hw : forall k, ~ white (text k)).
  { intros k Hw. specialize (Hw 97%N ltac:(simpl; auto)). discriminate. }
  assert (Hne : text i <> text j).
  { intros Et. apply (f_equal (@length N)) in Et. unfold text in Et. rewrite !repeat_length in Et. lia. }
  split; [exact Hne|]. split; [apply Hw|]. split; [apply Hw|].
  assert (Hb : forall k, is_blank (text k) = false).
  { intros k. destruct (is_blank (text k)) eqn:Eb; auto. apply is_blank_white in Eb. now apply Hw in Eb. }
  assert (Em : forall k, run_model encode c (text k) = encode (text k)).
  { intros k. unfold run_model. destruct (e_type c) eqn:Et; auto. now apply Ht in Et. }
  set (s := emb_after _ _ _ _ _).
  assert (Es : m_heap s = [[Z.of_nat (length (text i))]] /\
               dget (md5 (key_content c (text j))) (m_cache s) = Some 0).
  { subst s. unfold emb_after. cbn [fold_left emb_do]. unfold bind at 1.
    unfold generate_embedding. rewrite Hb, Hc. unfold bind at 1, lift at 1. unfold bind at 1, get at 1.
    cbn [m_cache dget]. unfold generate_new. unfold bind at 1, lift at 1. rewrite Em.
    unfold encode at 1. unfold finish. rewrite Hn. rewrite <- E. cbn.
    split; [reflexivity|]. now rewrite eqb_refl. }
  destruct Es as [Eh Ed]. unfold generate_embedding. rewrite Hb, Hc.
  unfold bind at 1, lift at 1. unfold bind at 1, get at 1. rewrite Ed.
  unfold bind, modify, ret. simpl. rewrite Eh. simpl.
  intros (_ & E2 & _). specialize (E2 (Hw j) [Z.of_nat (length (text j))] eq_refl).
  rewrite Hn in E2.
  assert (E3 : Z.of_nat (length (text i)) = Z.of_nat (length (text j))) .
  { apply (f_equal (fun r => match r with Ok (x :: _) => x | _ => 0%Z end)) in E2. exact E2. }
  unfold text in E3. rewrite !repeat_length in E3. lia.
Qed.

Example C75_case :
  let ops := [EText (py "one"); EBatch [py "two"; py " "]; EText (py "one"); EClear; EStats;
              EDocument (MkEmbDoc (Some (py "two")) (Some [Some (py "one"); None]))] in
  let s := emb_after toy_encode plain_hash toy_config ops (MkEmbedder [] [] 0 0 0 true) in
  known_type toy_config /\ Forall no_write ops /\
  keys_apart plain_hash toy_config (fun u => u = py "one" \/ In u (concat (map texts_of ops))) /\
  m_hits s = 0 /\ length (m_cache s) = 3 /\
  (let (r, s') := generate_embedding toy_encode plain_hash toy_config (py "one") s in
   shown s' r = Ok [111; 3; 4]%Z /\ m_hits s' = 1).
Proof.
  split; [discriminate|]. split; [repeat constructor|]. split.
  { split; [intros t _ _; eexists; reflexivity|].
    intros t u _ _ _ _ E. injection E as E. now apply key_content_inj in E. }
  vm_compute. auto.
Qed.

(** * Dimension, norm, batches, statistics, chunks *)

(** ** C99 *)

(** Every text gets an embedding of the model's dimension.  Partial: the text is not white space,
    or the dimension is 384. *)
Theorem C99_dimension_partial :
  forall (F : Type) (num : Num F) (encode : pystr -> result (list F)) (md5 : pystr -> result pystr)
         (c : embed_config) (d : nat) (ops : list (emb_op F)) (t : pystr) (ready : bool) v,
    let s := emb_after encode md5 c ops (MkEmbedder [] [] 0 0 0 ready) in
    known_type c -> Forall no_write ops ->
    keys_apart md5 c (fun u => u = t \/ In u (concat (map texts_of ops))) ->
    (forall u w, encode u = Ok w -> length w = d) -> ~ white t \/ d = 384 ->
    let (r, s') := generate_embedding encode md5 c t s in
    shown s' r = Ok v -> length v = d.
Proof.
  intros F num encode md5 c d ops t ready v s Ht Hnw Hk Hd Hw.
  pose proof (C75_transparent_partial F num encode md5 c ops t ready Ht Hnw Hk) as C.
  cbv zeta in C. fold s in C.
  destruct (generate_embedding encode md5 c t s) as [r s']. intros E. rewrite E in C.
  destruct C as (E1 & E2 & E3).
  destruct (is_blank t) eqn:Eb.
  - apply is_blank_white in Eb. destruct Hw as [Hw | ->]; [tauto|].
    specialize (E1 Eb). assert (v = repeat nzero 384) as -> by congruence. apply repeat_length.
  - assert (Hn : ~ white t) by (rewrite <- is_blank_white; congruence).
    destruct (encode t) as [w|x] eqn:Ee; [|specialize (E3 Hn x eq_refl); discriminate].
    specialize (E2 Hn w eq_refl). injection E2 as ->.
    apply Hd in Ee. destruct (e_normal c); [now rewrite map_length|auto].
Qed.

(** White space gets 384 zeros whatever the model's dimension. *)
Theorem C99_refuted :
  exists (encode : pystr -> result (list Z)) md5 c d t,
    known_type c /\ (forall u w, encode u = Ok w -> length w = d) /\
    let (r, s') := generate_embedding encode md5 c t (MkEmbedder [] [] 0 0 0 true) in
    exists v, shown s' r = Ok v /\ length v <> d.
Proof.
  exists toy_encode, plain_hash, toy_config, 3, (py "  ").
  split; [discriminate|]. split.
  - intros [|ch u] w E; [discriminate|]. now injection E as <-.
  - vm_compute. eexists. split; [reflexivity|]. discriminate.
Qed.

(** ** C101 *)

Lemma mapM_alloc {F} `{Num F} (g : list F -> list F) vs : forall s : @embedder F,
  exists ls s', mapM vs (fun v => alloc (g v)) s = (Ok ls, s') /\
    (exists h, m_heap s' = m_heap s ++ h) /\ m_cache s' = m_cache s /\
    Forall2 (fun l v => nth_error (m_heap s') l = Some (g v)) ls vs.
Proof.
  induction vs as [|v vs IH]; intros s.
  - exists [], s. split; [reflexivity|]. split; [exists []; now rewrite app_nil_r|]. auto.
  - simpl. unfold bind, alloc at 1.
    destruct (IH (MkEmbedder (m_heap s ++ [g v]) (m_cache s) (m_texts s) (m_made s) (m_hits s) (m_ready s)))
      as (ls & s' & -> & (h & Eh) & Ec & H2).
    exists (length (m_heap s) :: ls), s'. split; [reflexivity|]. simpl in *.
    split; [exists (g v :: h); rewrite Eh, <- app_assoc; reflexivity|]. split; [exact Ec|].
    constructor; auto. rewrite Eh, <- app_assoc, nth_error_app2, Nat.sub_diag by auto. reflexivity.
Qed.

Lemma Forall2_grow {F} (h h' : list (list F)) g ls (vs : list (list F)) :
  (exists x, h' = h ++ x) ->
  Forall2 (fun l v => nth_error h l = Some (g v)) ls vs ->
  Forall2 (fun l v => nth_error h' l = Some (g v)) ls vs.
Proof.
  intros [x ->]. induction 1; constructor; auto.
  rewrite nth_error_app1; auto. apply nth_error_Some. congruence.
Qed.

(** With a sentence transformer and a positive batch size, [batch_process] gives one array per
    text, in order, holding what the single call gives; the batch size does not matter.  Partial:
    no text is white space and the model takes all of them. *)
Theorem C101_batch_partial :
  forall (F : Type) (num : Num F) (encode : pystr -> result (list F)) (md5 : pystr -> result pystr)
         (c : embed_config) (texts : list pystr) (s : @embedder F),
    e_type c = TSentence -> (0 < e_batch c)%Z -> m_ready s = true ->
    Forall (fun t => ~ white t /\ exists v, encode t = Ok v) texts ->
    exists ls s',
      emb_batch encode md5 c texts s = (Ok ls, s') /\
      Forall2 (fun l t => exists v, nth_error (m_heap s') l = Some v /\ embeds encode c t (Ok v)) ls texts.
Proof.
  intros F num encode md5 c texts s Hty Hb Hr Hall.
  set (k := Z.to_nat (e_batch c)). assert (Hk : 0 < k) by (subst k; lia).
  assert (One : forall ts s0, Forall (fun t => exists v, encode t = Ok v) ts ->
    exists ls s', encode_batch encode c ts s0 = (Ok ls, s') /\
      (exists h, m_heap s' = m_heap s0 ++ h) /\
      Forall2 (fun l t => exists v, encode t = Ok v /\ nth_error (m_heap s') l = Some (finish c v)) ls ts).
  { intros ts s0 Hts. unfold encode_batch, bind, lift.
    assert (exists vs, rmap encode ts = Ok vs /\ Forall2 (fun v t => encode t = Ok v) vs ts) as (vs & -> & Hv).
    { clear -Hts. induction Hts as [|t ts [v Ev] Hts IH]; [exists []; auto|].
      destruct IH as (vs & E & H2). exists (v :: vs). simpl. rewrite Ev, E. auto. }
    destruct (mapM_alloc (finish c) vs s0) as (ls & s' & E & Hh & _ & H2).
    exists ls, s'. split; [exact E|]. split; [exact Hh|].
    clear -H2 Hv. revert ts Hv. induction H2; intros ts Hv; inversion Hv; subst; constructor; eauto. }
  assert (All : forall gs s0, Forall (Forall (fun t => exists v, encode t = Ok v)) gs ->
    exists lss s', mapM gs (encode_batch encode c) s0 = (Ok lss, s') /\
      (exists h, m_heap s' = m_heap s0 ++ h) /\
      Forall2 (fun l t => exists v, encode t = Ok v /\ nth_error (m_heap s') l = Some (finish c v))
              (concat lss) (concat gs)).
  { induction gs as [|g gs IH]; intros s0 Hg.
    - exists [], s0. split; [reflexivity|]. split; [exists []; now rewrite app_nil_r|]. constructor.
    - inversion Hg; subst. destruct (One g s0) as (ls & s1 & E1 & (h1 & Eh1) & H1'); auto.
      destruct (IH s1) as (lss & s2 & E2 & (h2 & Eh2) & H2'); auto.
      exists (ls :: lss), s2. simpl. unfold bind. rewrite E1, E2. split; [reflexivity|].
      split; [exists (h1 ++ h2); rewrite Eh2, Eh1; now rewrite app_assoc|].
      simpl. apply Forall2_app; auto. clear -H1' Eh2. induction H1' as [|l t ls ts (v & Ev & Hn)]; constructor; auto.
      exists v. split; auto. rewrite Eh2, nth_error_app1; auto. apply nth_error_Some. congruence. }
  assert (Hc : concat (pieces k texts) = texts)
    by now apply (consecutive_concat k), pieces_consecutive.
  destruct (All (pieces k texts) s) as (lss & s' & E & (h & Eh) & H2).
  { apply Forall_forall. intros g Hg. apply Forall_forall. intros t Hin.
    rewrite Forall_forall in Hall. apply Hall. rewrite <- Hc. apply in_concat. eauto. }
  rewrite Hc in H2.
  exists (concat lss), (count_texts (length texts) s'). split.
  - unfold emb_batch, bind at 1, get. rewrite Hr. cbn [negb]. rewrite range_pos by auto. fold k.
    unfold bind at 1, lift. rewrite Hty. unfold bind at 1.
    assert (Em : mapM (map (fun j => j * k) (seq 0 ((length texts + k - 1) / k)))
                   (fun i => encode_batch encode c (batch_of (e_batch c) texts i)) s
                 = mapM (pieces k texts) (encode_batch encode c) s).
    { unfold pieces, batch_of. fold k. generalize (seq 0 ((length texts + k - 1) / k)). intros l. clear.
      revert s. induction l as [|i l IH]; intros s; simpl; [reflexivity|].
      unfold bind. destruct (encode_batch encode c (firstn k (skipn (i * k) texts)) s) as [[a|e] s1]; [|reflexivity].
      now rewrite IH. }
    cbv zeta. rewrite Em, E. reflexivity.
  - simpl. clear -H2 Hall. revert Hall. induction H2 as [|l t ls ts (v & Ev & Hn) H2 IH]; intros Hall; constructor.
    + exists (finish c v). split; auto. inversion Hall as [|? ? [Hw _] _]; subst.
      split; [tauto|]. split; intros _ w Ew; [|congruence].
      rewrite Ev in Ew. injection Ew as <-. reflexivity.
    + inversion Hall; subst. auto.
Qed.

(** White space gets zeros alone and whatever the model says in a batch. *)
Theorem C101_blank_refuted :
  exists (encode : pystr -> result (list Z)) md5 c t,
    e_type c = TSentence /\ (0 < e_batch c)%Z /\
    let s := MkEmbedder [] [] 0 0 0 true in
    exists v w ls s',
      shown (snd (generate_embedding encode md5 c t s)) (fst (generate_embedding encode md5 c t s)) = Ok v /\
      emb_batch encode md5 c [t] s = (Ok ls, s') /\ read_all s' ls = [w] /\ v <> w.
Proof.
  exists toy_encode, plain_hash, toy_config, (py " "). split; [reflexivity|]. split; [reflexivity|].
  exists (repeat 0%Z 384), [32; 1; 4]%Z. eexists _, _.
  split; [vm_compute; reflexivity|]. split; [vm_compute; reflexivity|]. split; [vm_compute; reflexivity|].
  discriminate.
Qed.

(** A negative batch size gives no embeddings at all, and counts the texts. *)
Theorem C101_negative_size_refuted :
  exists (encode : pystr -> result (list Z)) md5 c t s',
    e_type c = TSentence /\ (exists v, encode t = Ok v) /\ ~ white t /\
    emb_batch encode md5 c [t] (MkEmbedder [] [] 0 0 0 true) = (Ok [], s') /\ m_made s' = 1.
Proof.
  exists toy_encode, plain_hash, (MkEmb (py "m") TSentence (-1) true false), (py "hello").
  eexists. split; [reflexivity|]. split; [eexists; reflexivity|]. split.
  - intros Hw. specialize (Hw 104%N ltac:(vm_compute; auto)). discriminate.
  - split; vm_compute; reflexivity.
Qed.

(** With the other models one text of white space makes the whole batch fail, unless the model's
    dimension happens to be 384. *)
Theorem C101_ragged_refuted :
  exists (encode : pystr -> result (list Z)) md5 c texts e s',
    e_type c = TOpenAI /\ (0 < e_batch c)%Z /\ Forall (fun t => white t \/ exists v, encode t = Ok v) texts /\
    emb_batch encode md5 c texts (MkEmbedder [] [] 0 0 0 true) = (Raise e, s').
Proof.
  exists toy_encode, plain_hash, (MkEmb (py "m") TOpenAI 2 true false), [py "hello"; py " "], EValue.
  eexists. split; [reflexivity|]. split; [reflexivity|]. split.
  - constructor; [right; eexists; reflexivity|]. constructor; [|constructor].
    left. intros ch [<-|[]]. reflexivity.
  - vm_compute. reflexivity.
Qed.

Example C101_case :
  let s := MkEmbedder [] [] 0 0 0 true in
  Forall (fun t => ~ white t /\ exists v, toy_encode t = Ok v) [py "a"; py "bb"; py "ccc"] /\
  (let (r, s') := emb_batch toy_encode plain_hash toy_config [py "a"; py "bb"; py "ccc"] s in
   r = Ok [0; 1; 2] /\ read_all s' [0; 1; 2] = [[97; 1; 4]; [98; 2; 4]; [99; 3; 4]]%Z).
Proof.
  split; [|vm_compute; auto].
  assert (G : forall ch u, py_space ch = false -> ~ white (ch :: u)).
  { intros ch u E Hw. specialize (Hw ch (or_introl eq_refl)). congruence. }
  repeat (constructor; [split; [apply G; reflexivity|eexists; reflexivity]|]). constructor.
Qed.

(** ** C102 *)

(** Reading the statistics makes the processor embed the word "test": the next reading differs,
    and fails when the model does. *)
Theorem C102_stats_refuted :
  exists (encode : pystr -> result (list Z)) md5 c st st',
    let s := MkEmbedder [] [] 0 0 0 true in
    let (r, s1) := emb_get_stats encode md5 c s in
    let (r', s2) := emb_get_stats encode md5 c s1 in
    r = Ok st /\ r' = Ok st' /\ st_made st = 0 /\ st_made st' = 1 /\ st_cache st' = 1.
Proof.
  exists toy_encode, plain_hash, toy_config. eexists _, _. vm_compute. repeat split.
Qed.

(** The hit rate, hits over embeddings made, exceeds one. *)
Theorem C102_hit_rate_refuted :
  exists (encode : pystr -> result (list Z)) md5 c (ops : list (emb_op Z)),
    Forall no_write ops /\
    let s := emb_after encode md5 c ops (MkEmbedder [] [] 0 0 0 true) in
    0 < m_made s < m_hits s.
Proof.
  exists toy_encode, plain_hash, toy_config, [EText (py "a"); EText (py "a"); EText (py "a")].
  split; [repeat constructor|]. vm_compute. lia.
Qed.

(** With the other models a batch counts each text twice. *)
Theorem C102_counted_twice_refuted :
  exists (encode : pystr -> result (list Z)) md5 c texts s',
    NoDup texts /\ Forall (fun t => ~ white t) texts /\
    (exists ls, emb_batch encode md5 c texts (MkEmbedder [] [] 0 0 0 true) = (Ok ls, s')) /\
    m_made s' = 2 * length texts.
Proof.
  exists toy_encode, plain_hash, (MkEmb (py "m") TOpenAI 2 true false), [py "a"; py "b"]. eexists.
  split; [repeat constructor; simpl; intuition discriminate|]. split.
  { repeat constructor; intros Hw.
    - specialize (Hw 97%N ltac:(vm_compute; auto)). discriminate.
    - specialize (Hw 98%N ltac:(vm_compute; auto)). discriminate. }
  split; [eexists; vm_compute; reflexivity|reflexivity].
Qed.

(** What holds: the two counters never differ, hits never exceed the requests, and the cache never
    holds more entries than embeddings were made. *)
Theorem C102_counters_partial :
  forall (F : Type) (num : Num F) (encode : pystr -> result (list F)) (md5 : pystr -> result pystr)
         (c : embed_config) (texts : list pystr) (ready : bool),
    let s := emb_after encode md5 c (map EText texts) (MkEmbedder [] [] 0 0 0 ready) in
    m_texts s = m_made s /\ m_hits s + m_made s <= length texts /\ length (m_cache s) <= m_made s.
Proof.
  intros F num encode md5 c texts ready.
  assert (G : forall ts (s : @embedder F) n,
    m_texts s = m_made s -> m_hits s + m_made s <= n -> length (m_cache s) <= m_made s ->
    let s' := emb_after encode md5 c (map EText ts) s in
    m_texts s' = m_made s' /\ m_hits s' + m_made s' <= n + length ts /\ length (m_cache s') <= m_made s').
  { induction ts as [|t ts IH]; intros s n H1 H2 H3; simpl.
    - rewrite Nat.add_0_r. auto.
    - rewrite Nat.add_succ_r, <- Nat.add_succ_l.
      assert (Hsmall : forall k (l : nat) (d : dict pystr nat), length (dset k l d) <= S (length d)).
      { intros k l. induction d as [|[k' v] d IHd]; simpl; [lia|].
        destruct (eqb k k'); simpl; lia. }
      apply IH; unfold bind, generate_embedding; destruct (is_blank t); simpl; try lia;
        unfold generate_new, bind, lift, get, modify, ret;
        destruct (e_cached c); simpl;
        try (destruct (md5 (key_content c t)) as [k|]; simpl; try lia;
             destruct (dget k (m_cache s)); simpl; try lia);
        destruct (run_model encode c t); simpl; try lia;
        try (rewrite (Hsmall _ _ (m_cache s)); lia);
        try (etransitivity; [apply Hsmall|lia]). }
  apply (G texts _ 0); simpl; auto.
Qed.

(** ** C103 *)

(** When all chunks have a text and no array is written, the i-th entry of chunk_embeddings is the
    embedding of the i-th chunk. *)
Theorem C103_chunks_partial :
  forall (F : Type) (num : Num F) (encode : pystr -> result (list F)) (md5 : pystr -> result pystr)
         (c : embed_config) (ops : list (emb_op F)) (text : option pystr) (chunks : list pystr) e ls s',
    let s := emb_after encode md5 c ops (MkEmbedder [] [] 0 0 0 true) in
    let d := MkEmbDoc text (Some (map Some chunks)) in
    known_type c -> Forall no_write ops ->
    keys_apart md5 c (fun u => In u (texts_of (F := F) (EDocument d)) \/ In u (concat (map texts_of ops))) ->
    emb_process encode md5 c d s = (Ok (e, Some ls), s') ->
    Forall2 (fun l t => exists v, nth_error (m_heap s') l = Some v /\ embeds encode c t (Ok v)) ls chunks.
Proof.
  intros F num encode md5 c ops text chunks e ls s' s d Ht Hw Hk.
  set (T := fun u => In u (texts_of (F := F) (EDocument d)) \/ In u (concat (map texts_of ops))) in *.
  assert (Hs : sound encode md5 c T s).
  { apply after_sound; auto; [intros t Hin; now right|]. intros k l Hd. discriminate. }
  assert (HT : forall t, In t chunks -> T t).
  { intros t Hin. left. simpl. apply in_or_app. right. apply in_concat. exists [t].
    split; [|now left]. rewrite map_map. apply in_map_iff. now exists t. }
  assert (G : forall cs s0 l0 s1, (forall t, In t cs -> T t) -> sound encode md5 c T s0 ->
    embed_chunks encode md5 c (map Some cs) s0 = (Ok l0, s1) ->
    Forall2 (fun l t => exists v, nth_error (m_heap s1) l = Some v /\ embeds encode c t (Ok v)) l0 cs).
  { induction cs as [|t cs IH]; intros s0 l0 s1 Hcs Hs0 E; simpl in E.
    - injection E as <- <-. constructor.
    - unfold bind in E.
      pose proof (generate_sound encode md5 c T Hk Ht t s0 (Hcs t (or_introl eq_refl)) Hs0) as Gt.
      destruct (generate_embedding encode md5 c t s0) as [[l|x] s2]; [|discriminate].
      destruct Gt as (Gs & Gg & Ga & Gn).
      pose proof (gentle_chunks encode md5 c T Hk Ht (map Some cs)) as Gc.
      destruct (embed_chunks encode md5 c (map Some cs) s2) as [[l1|x] s3] eqn:E2; [|discriminate].
      injection E as <- <-. constructor.
      + destruct (Gn l eq_refl) as [v Ev]. exists v. split.
        * destruct Gc with (s := s2) as [_ Hgr]; auto.
          { intros u Hu. apply in_map_iff in Hu. destruct Hu as (u' & Eu & Hin). injection Eu as ->.
            apply Hcs. now right. }
          rewrite E2 in Hgr. simpl in Hgr. eapply grows_nth; eauto.
        * simpl in Ga. rewrite Ev in Ga. rewrite Ga. apply answer_embeds.
      + apply IH with (s0 := s2); auto. intros u Hu. apply Hcs. now right. }
  unfold emb_process, bind at 1, get. intros E.
  destruct (negb (m_ready s)); [discriminate|]. simpl in E. unfold bind at 1 in E.
  assert (Gd : gentle encode md5 c T (match text with
      | Some t => l <- generate_embedding encode md5 c t ;; ret (Some l) | None => ret None end)).
  { destruct text as [t|]; [|apply gentle_ret]. apply gentle_bind; [|intros; apply gentle_ret].
    apply gentle_generate; auto. left. now left. }
  specialize (Gd s Hs).
  destruct ((match text with
      | Some t => l <- generate_embedding encode md5 c t ;; ret (Some l) | None => ret None end) s)
    as [[e0|x] s1]; [|discriminate].
  unfold bind in E.
  destruct (embed_chunks encode md5 c (map Some chunks) s1) as [[l0|x] s2] eqn:E2; [|discriminate].
  injection E as _ <- <-. simpl in Gd. destruct Gd. eapply (G chunks s1); auto.
Qed.

(** A chunk without a text gets no entry, so the entries after it belong to earlier chunks. *)
Theorem C103_missing_refuted :
  exists (encode : pystr -> result (list Z)) md5 c d e ls s' chunks t,
    known_type c /\ keys_apart md5 c (fun _ => True) /\ ed_chunks d = Some chunks /\
    emb_process encode md5 c d (MkEmbedder [] [] 0 0 0 true) = (Ok (e, Some ls), s') /\
    length ls < length chunks /\
    nth_error chunks 1 = Some (Some t) /\
    exists l, nth_error ls 0 = Some l /\ embeds encode c t (shown s' (Ok l)).
Proof.
  exists toy_encode, plain_hash, toy_config, (MkEmbDoc None (Some [None; Some (py "hello")])).
  eexists _, _, _, _, (py "hello"). split; [discriminate|]. split.
  { split; [intros t _ _; exists (key_content toy_config t); reflexivity|].
    intros t u _ _ _ _ E. injection E as E. now apply key_content_inj in E. }
  split; [reflexivity|]. split; [vm_compute; reflexivity|]. split; [vm_compute; lia|].
  split; [reflexivity|]. exists 0. split; [reflexivity|].
  split; [|split].
  - intros Hw. specialize (Hw 104%N ltac:(vm_compute; auto)). discriminate.
  - intros _ v E. injection E as <-. reflexivity.
  - intros _ x E. discriminate.
Qed.

Example C103_case :
  let d := MkEmbDoc (Some (py "one two")) (Some (map Some [py "one"; py "two"])) in
  exists e ls s',
    emb_process toy_encode plain_hash toy_config d
      (emb_after toy_encode plain_hash toy_config [EText (py "two")] (MkEmbedder [] [] 0 0 0 true))
    = (Ok (e, Some ls), s') /\
    ls = [2; 0] /\ read_all s' ls = [[111; 3; 4]; [116; 3; 4]]%Z.
Proof. eexists _, _, _. split; [vm_compute; reflexivity|]. vm_compute. auto. Qed.

Example C99_case :
  ~ white (py "one") /\ (forall u w, toy_encode u = Ok w -> length w = 3) /\
  (let s := emb_after toy_encode plain_hash toy_config [EText (py "two")] (MkEmbedder [] [] 0 0 0 true) in
   let (r, s') := generate_embedding toy_encode plain_hash toy_config (py "one") s in
   shown s' r = Ok [111; 3; 4]%Z).
Proof.
  split; [intros Hw; specialize (Hw 111%N ltac:(vm_compute; auto)); discriminate|].
  split; [intros [|ch u] w E; [discriminate|]; now injection E as <-|reflexivity].
Qed.

Example C102_case :
  let s := emb_after toy_encode plain_hash toy_config (map EText [py "a"; py " "; py "a"; py "b"])
             (MkEmbedder [] [] 0 0 0 true) in
  m_texts s = 2 /\ m_made s = 2 /\ m_hits s = 1 /\ length (m_cache s) = 2.
Proof. vm_compute. auto. Qed.

(** ** C100 *)

From Coq Require Import Reals Lra.
From Verif Require Import RealNum.

(** With normalisation on, the embedding of a text is a multiple of the model's vector of length
    one.  Partial: the text is not white space and the model's vector is not zero. *)
Theorem C100_unit_partial :
  forall (encode : pystr -> result (list R)) (md5 : pystr -> result pystr)
         (c : embed_config) (ops : list (emb_op R)) (t : pystr) (ready : bool) w,
    let s := emb_after encode md5 c ops (MkEmbedder [] [] 0 0 0 ready) in
    known_type c -> Forall no_write ops ->
    keys_apart md5 c (fun u => u = t \/ In u (concat (map texts_of ops))) ->
    e_normal c = true -> ~ white t -> encode t = Ok w -> len w <> 0%R ->
    let (r, s') := generate_embedding encode md5 c t s in
    exists v, shown s' r = Ok v /\ len v = 1%R /\ v = map (fun a => (a / len w)%R) w.
Proof.
  intros encode md5 c ops t ready w s Ht Hnw Hk Hn Hw Ee Hz.
  pose proof (C75_transparent_partial R _ encode md5 c ops t ready Ht Hnw Hk) as C.
  cbv zeta in C. fold s in C.
  destruct (generate_embedding encode md5 c t s) as [r s'].
  destruct C as (_ & E & _). specialize (E Hw w Ee). rewrite Hn, norm_len in E. rewrite E.
  eexists. split; [reflexivity|]. split; [|apply map_ext; reflexivity].
  assert (Hp : (0 < len w)%R) by (pose proof (len_pos w); lra).
  replace (map (fun a : R => ndiv a (len w)) w) with (map (fun a => / len w * a)%R w)
    by (apply map_ext; intros a; simpl; unfold Rdiv; apply Rmult_comm).
  rewrite len_scale by (left; now apply Rinv_0_lt_compat).
  now apply Rinv_l.
Qed.

(** White space gets the zero vector, normalisation or not. *)
Theorem C100_blank_refuted :
  exists (encode : pystr -> result (list R)) md5 c t,
    e_normal c = true /\
    let (r, s') := generate_embedding encode md5 c t (MkEmbedder [] [] 0 0 0 true) in
    exists v, shown s' r = Ok v /\ len v = 0%R.
Proof.
  exists (fun _ => Ok [1%R]), plain_hash, (MkEmb (py "m") TSentence 2 true true), [].
  split; [reflexivity|]. unfold generate_embedding. change (is_blank []) with true. cbv iota.
  unfold alloc. exists (repeat 0%R 384). split; [reflexivity|].
  unfold len. replace (inner (repeat 0%R 384) (repeat 0%R 384)) with 0%R; [apply sqrt_0|].
  generalize 384%nat. intros n. induction n as [|n IH]; simpl; [reflexivity|]. rewrite <- IH. lra.
Qed.

Example C100_case :
  let c := MkEmb (py "m") TSentence 2 true true in
  let encode := fun _ : pystr => Ok [3%R; 4%R] in
  known_type c /\ keys_apart plain_hash c (fun _ => True) /\
  ~ white (py "one") /\ encode (py "one") = Ok [3%R; 4%R] /\ len [3%R; 4%R] <> 0%R.
Proof.
  split; [discriminate|]. split.
  { split; [intros t _ _; eexists; reflexivity|].
    intros t u _ _ _ _ E. injection E as E. now apply key_content_inj in E. }
  split; [intros Hw; specialize (Hw 111%N ltac:(vm_compute; auto)); discriminate|].
  split; [reflexivity|]. unfold len. simpl. apply Rgt_not_eq, sqrt_lt_R0. lra.
Qed.

Print Assumptions C75_transparent_partial.
Print Assumptions C75_alias_refuted.
Print Assumptions C75_unencodable_refuted.
Print Assumptions C75_collision_refuted.
Print Assumptions C99_dimension_partial.
Print Assumptions C99_refuted.
Print Assumptions C100_unit_partial.
Print Assumptions C100_blank_refuted.
Print Assumptions C101_batch_partial.
Print Assumptions C101_blank_refuted.
Print Assumptions C101_negative_size_refuted.
Print Assumptions C101_ragged_refuted.
Print Assumptions C102_stats_refuted.
Print Assumptions C102_hit_rate_refuted.
Print Assumptions C102_counted_twice_refuted.
Print Assumptions C102_counters_partial.
Print Assumptions C103_chunks_partial.
Print Assumptions C103_missing_refuted.
