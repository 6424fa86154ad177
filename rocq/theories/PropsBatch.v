(** Properties C67, C68 and C69: the batch manager (model: BatchModel.v). *)

From Coq Require Import List Arith ZArith Bool Lia Permutation.
From Verif Require Import PyBase BatchModel.
Import ListNotations.
Open Scope py_scope.

(** * Vocabulary *)

(** Cutting a list from the front in pieces of [size], the last one possibly shorter. *)
Inductive consecutive {A} (size : nat) : list A -> list (list A) -> Prop :=
| consecutive_nil : consecutive size [] []
| consecutive_last g : g <> [] -> length g <= size -> consecutive size g [g]
| consecutive_more g l gs :
    length g = size -> l <> [] -> consecutive size l gs -> consecutive size (g ++ l) (g :: gs).

(** Batches of rows with their metadata. *)
Definition pairs {V O} (g : list V * list O) : list (V * O) := combine (fst g) (snd g).

(** The batches hand over the rows, each with its own metadata, in order, in pieces of [size]. *)
Definition hands_over {V O} (size : nat) (vectors : list V) (metadata : list O)
    (gs : list (list V * list O)) : Prop :=
  consecutive size (combine vectors metadata) (map pairs gs) /\
  Forall (fun g => length (fst g) = length (snd g)) gs.

(** [insert] called on one batch after another; every call has an outcome. *)
Inductive inserted {W V O I} (insert : list V -> list O -> M W (list I))
  : W -> list (list V * list O) -> list (result (list I)) -> W -> Prop :=
| inserted_nil w : inserted insert w [] [] w
| inserted_cons w w1 w2 vs os r gs rs :
    insert vs os w = (r, w1) -> inserted insert w1 gs rs w2 ->
    inserted insert w ((vs, os) :: gs) (r :: rs) w2.

(** The values among the outcomes. *)
Definition values {A} (rs : list (result (list A))) : list A :=
  concat (map (fun r => match r with Ok l => l | Raise _ => [] end) rs).

Definition succeeded {A} (r : result A) : bool := match r with Ok _ => true | Raise _ => false end.

(** The number of rows in the batches whose outcome passes [sel]. *)
Definition rows_where {V O A} (sel : result A -> bool) (gs : list (list V * list O))
    (rs : list (result A)) : nat :=
  list_sum (map (fun p => if sel (snd p) then length (fst (fst p)) else 0) (combine gs rs)).

(** Callbacks that return and leave the world alone. *)
Definition quiet {W V O} (b : manager W V O) : Prop :=
  (forall f, b_progress b = Some f -> forall p t w, f p t w = (Ok tt, w)) /\
  (forall f, b_error b = Some f -> forall e c w, f e c w = (Ok tt, w)).

(** * Cutting *)

Lemma range_pos n size : (0 < size)%Z ->
  range_from_zero n size
  = Ok (map (fun k => k * Z.to_nat size)%nat (seq 0 ((n + Z.to_nat size - 1) / Z.to_nat size))).
Proof.
  intros Hs. unfold range_from_zero.
  destruct (Z.eqb_spec size 0); [lia|]. destruct (Z.ltb_spec size 0); [lia|]. reflexivity.
Qed.

Lemma ceil_step n s : 0 < s -> 0 < n -> (n + s - 1) / s = S ((n - s + s - 1) / s).
Proof.
  intros Hs Hn. destruct (le_lt_dec s n) as [Hle|Hlt].
  - replace (n + s - 1) with ((n - s + s - 1) + 1 * s) by lia.
    rewrite Nat.div_add by lia. lia.
  - replace (n - s) with 0 by lia. rewrite (Nat.div_small (0 + s - 1) s) by lia.
    symmetry. apply Nat.div_unique with (r := n - 1); lia.
Qed.

Definition pieces {A} (s : nat) (l : list A) : list (list A) :=
  map (fun k => firstn s (skipn (k * s) l)) (seq 0 ((length l + s - 1) / s)).

Lemma pieces_nil {A} s : 0 < s -> pieces s (@nil A) = [].
Proof. intros Hs. unfold pieces. simpl length. rewrite Nat.div_small by lia. reflexivity. Qed.

Lemma pieces_step {A} s (l : list A) : 0 < s -> l <> [] ->
  pieces s l = firstn s l :: pieces s (skipn s l).
Proof.
  intros Hs Hl. unfold pieces. rewrite skipn_length.
  assert (0 < length l) by (destruct l; simpl; [congruence|lia]).
  rewrite ceil_step by lia. cbn [seq map]. f_equal.
  rewrite <- seq_shift, map_map. apply map_ext. intros k.
  replace (S k * s) with (k * s + s) by lia. f_equal.
  clear. generalize (k * s). intros m. revert l. induction s as [|s IH]; intros l.
  - now rewrite Nat.add_0_r.
  - rewrite Nat.add_succ_r. destruct l as [|a l]; simpl; [now rewrite skipn_nil|apply IH].
Qed.

Lemma pieces_consecutive {A} s : 0 < s -> forall l : list A, consecutive s l (pieces s l).
Proof.
  intros Hs l. remember (length l) as n eqn:E. revert l E.
  induction n as [n IH] using lt_wf_ind. intros l ->.
  destruct l as [|a l'] eqn:El; [rewrite pieces_nil by auto; constructor|].
  rewrite <- El. assert (l <> []) by (subst; discriminate).
  assert (length l > 0) by (subst; simpl; lia).
  rewrite pieces_step by auto.
  destruct (le_lt_dec (length l) s) as [Hle|Hlt].
  - rewrite firstn_all2, skipn_all2, pieces_nil by auto. now constructor.
  - rewrite <- (firstn_skipn s l) at 1. constructor.
    + rewrite firstn_length. lia.
    + intros E. assert (length (skipn s l) = 0) by now rewrite E.
      rewrite skipn_length in *. lia.
    + apply IH with (m := length (skipn s l)); auto. rewrite skipn_length, <- El. lia.
Qed.

(** A list has only one such cutting. *)
Lemma consecutive_concat {A} s (l : list A) gs : consecutive s l gs -> concat gs = l.
Proof.
  induction 1; simpl; auto.
  - now rewrite app_nil_r.
  - now rewrite IHconsecutive.
Qed.

Lemma consecutive_unique {A} s (l : list A) a c : consecutive s l a -> consecutive s l c -> 0 < s -> a = c.
Proof.
  intros Ha. revert c. induction Ha as [|g Hg Hle|g l a Hg Hl Ha IH]; intros c Hc Hpos.
  - inversion Hc; subst; auto; try congruence.
    destruct g; simpl in *; [lia|]. discriminate.
  - inversion Hc; subst; auto; try congruence.
    exfalso. rewrite app_length in Hle. destruct l; simpl in *; [congruence|lia].
  - inversion Hc as [E0|g' Hg' Hle E1|g' l' a' Hg' Hl' Ha' E1]; subst.
    + symmetry in E0. apply app_eq_nil in E0. tauto.
    + exfalso. rewrite app_length in Hle. destruct l; simpl in *; [congruence|lia].
    + assert (g' = g /\ l' = l) as [-> ->].
      { assert (firstn (length g') (g' ++ l') = firstn (length g') (g ++ l)) as F1 by now rewrite E1.
        assert (skipn (length g') (g' ++ l') = skipn (length g') (g ++ l)) as F2 by now rewrite E1.
        rewrite Hg' in F1 at 2. rewrite Hg' in F2 at 2.
        rewrite firstn_app, firstn_all, Nat.sub_diag, app_nil_r in F1.
        rewrite skipn_app, skipn_all, Nat.sub_diag in F2. simpl in F1, F2.
        rewrite firstn_app, firstn_all, Nat.sub_diag, app_nil_r in F1.
        rewrite skipn_app, skipn_all, Nat.sub_diag in F2. simpl in F1, F2. auto. }
      f_equal. auto.
Qed.

Lemma hands_over_unique {V O} s (vectors : list V) (metadata : list O) gs' gs :
  0 < s -> hands_over s vectors metadata gs' -> hands_over s vectors metadata gs -> gs' = gs.
Proof.
  intros Hs [Hc' Hf'] [Hc Hf].
  assert (Em : map pairs gs' = map pairs gs)
    by (apply (consecutive_unique s (combine vectors metadata)); auto).
  clear -Em Hf Hf'. revert gs Em Hf. induction Hf' as [|[v o] gs' Hx Hf' IH]; intros gs Em Hf.
  - destruct gs; [reflexivity|discriminate].
  - destruct gs as [|[v2 o2] gs]; [discriminate|]. inversion Hf; subst. simpl in *.
    injection Em as E1 E2. f_equal; [|now apply IH]. unfold pairs in E1. simpl in E1.
    assert (Hv : map fst (combine v o) = map fst (combine v2 o2)) by now rewrite E1.
    assert (Ho : map snd (combine v o) = map snd (combine v2 o2)) by now rewrite E1.
    clear -Hv Ho Hx H1.
    assert (L : forall A B (x : list A) (y : list B), length x = length y ->
                map fst (combine x y) = x /\ map snd (combine x y) = y).
    { induction x as [|a x IHx]; intros [|c y] E; try discriminate; simpl; auto.
      destruct (IHx y) as [-> ->]; auto. }
    destruct (L _ _ v o Hx) as [A1 A2], (L _ _ v2 o2 H1) as [B1 B2]. congruence.
Qed.

Lemma combine_firstn_skipn {A B} s k (l : list A) (m : list B) :
  combine (firstn s (skipn k l)) (firstn s (skipn k m)) = firstn s (skipn k (combine l m)).
Proof.
  rewrite <- combine_firstn. f_equal. revert l m.
  induction k as [|k IH]; intros [|a l] [|c m]; simpl; auto.
  - destruct (skipn k l); reflexivity.
Qed.

(** The batches the loops run over. *)
Definition cuts {V O} (s : nat) (vectors : list V) (metadata : list O) : list (list V * list O) :=
  map (fun i => (firstn s (skipn i vectors), firstn s (skipn i metadata)))
      (map (fun k => k * s) (seq 0 ((length vectors + s - 1) / s))).

Lemma cuts_hand_over {V O} s (vectors : list V) (metadata : list O) :
  0 < s -> length vectors = length metadata ->
  hands_over s vectors metadata (cuts s vectors metadata).
Proof.
  intros Hs Hlen. split.
  - replace (map pairs (cuts s vectors metadata)) with (pieces s (combine vectors metadata));
      [now apply pieces_consecutive|].
    unfold pieces, cuts. rewrite !map_map, combine_length, Hlen, Nat.min_id.
    apply map_ext. intros k. unfold pairs. simpl. symmetry. apply combine_firstn_skipn.
  - unfold cuts. rewrite map_map. apply Forall_map, Forall_forall. intros k _. simpl.
    now rewrite !firstn_length, !skipn_length, Hlen.
Qed.

Lemma cuts_fst {V O} s (vectors : list V) (metadata : list O) :
  map fst (cuts s vectors metadata) = pieces s vectors.
Proof. unfold cuts, pieces. rewrite !map_map. reflexivity. Qed.

Lemma forM_map {S A B} (f : A -> B) (l : list A) (body : B -> M S unit) s :
  forM (map f l) body s = forM l (fun x => body (f x)) s.
Proof.
  revert s. induction l as [|a l IH]; intros s; simpl; auto.
  unfold bind. destruct (body (f a) s) as [[x|e] s']; auto.
Qed.

(** * Insertion *)

Section Insert.
  Context {W V O I : Type} (b : manager W V O) (insert : list V -> list O -> M W (list I)).
  Hypothesis Hq : quiet b.

  Lemma report_quiet {B} (r : run B) : report b r = (Ok tt, r).
  Proof.
    destruct Hq as [Hp _]. unfold report. destruct (b_progress b) as [f|]; [|reflexivity].
    unfold bind, get, on_world, zoom. rewrite (Hp f eq_refl). now destruct r.
  Qed.

  Lemma complain_quiet {B} e c (r : run B) : complain b e c r = (Ok tt, r).
  Proof.
    destruct Hq as [_ He]. unfold complain. destruct (b_error b) as [f|]; [|reflexivity].
    unfold on_world, zoom. rewrite (He f eq_refl). now destruct r.
  Qed.

  Lemma insert_batch_quiet vs os (r : run I) :
    insert_batch b insert vs os r
    = match insert vs os (r_world r) with
      | (Ok ids, w) => (Ok tt, add_processed (length vs) (extend ids (MkRun (r_stats r) (r_out r) w)))
      | (Raise _, w) => (Ok tt, add_failed (length vs) (MkRun (r_stats r) (r_out r) w))
      end.
  Proof.
    unfold insert_batch, try_except, bind, on_world, zoom, modify.
    destruct (insert vs os (r_world r)) as [[ids|e] w].
    - now rewrite report_quiet.
    - now rewrite complain_quiet.
  Qed.

  Lemma insert_all gs : forall r,
    exists rs w,
      inserted insert (r_world r) gs rs w /\
      forM gs (fun g => insert_batch b insert (fst g) (snd g)) r
      = (Ok tt, MkRun (MkStats (s_total (r_stats r))
                         (s_processed (r_stats r) + rows_where succeeded gs rs)
                         (s_failed (r_stats r) + rows_where (fun x => negb (succeeded x)) gs rs))
                      (r_out r ++ values rs) w).
  Proof.
    induction gs as [|[vs os] gs IH]; intros r.
    - exists [], (r_world r). split; [constructor|]. destruct r as [[t p f] o w]. simpl.
      unfold rows_where, values. simpl. now rewrite !Nat.add_0_r, app_nil_r.
    - cbn [forM fst snd]. unfold bind. rewrite insert_batch_quiet.
      destruct (insert vs os (r_world r)) as [[ids|e] w1] eqn:E.
      + destruct (IH (add_processed (length vs) (extend ids (MkRun (r_stats r) (r_out r) w1))))
          as (rs & w & Hi & Hf).
        exists (Ok ids :: rs), w. split; [econstructor; eauto|].
        rewrite Hf. unfold rows_where, values. simpl.
        now rewrite <- !app_assoc, <- Nat.add_assoc.
      + destruct (IH (add_failed (length vs) (MkRun (r_stats r) (r_out r) w1)))
          as (rs & w & Hi & Hf).
        exists (Raise e :: rs), w. split; [econstructor; eauto|].
        rewrite Hf. unfold rows_where, values. simpl. now rewrite <- Nat.add_assoc.
  Qed.

  Lemma batch_insert_runs vectors metadata (r : run I) : (0 < b_size b)%Z ->
    batch_insert b insert vectors metadata r
    = match forM (cuts (Z.to_nat (b_size b)) vectors metadata)
                 (fun g => insert_batch b insert (fst g) (snd g)) (start (length vectors) r) with
      | (Ok _, r') => (Ok (r_out r'), r')
      | (Raise e, r') => (Raise e, r')
      end.
  Proof.
    intros Hs. unfold batch_insert, cuts. rewrite range_pos by auto.
    set (starts := map (fun k => k * Z.to_nat (b_size b)) _). clearbody starts.
    unfold bind at 1 2 3, modify, lift. rewrite forM_map.
    unfold batch_of. cbn [fst snd].
    match goal with |- context [forM ?l ?f ?s] => destruct (forM l f s) as [[[]|e] r'] end;
      reflexivity.
  Qed.
End Insert.

Lemma inserted_length {W V O I} (insert : list V -> list O -> M W (list I)) w gs rs w' :
  inserted insert w gs rs w' -> length rs = length gs.
Proof. induction 1; simpl; congruence. Qed.

Lemma rows_split {V O A} (gs : list (list V * list O)) (rs : list (result A)) :
  length rs = length gs ->
  rows_where succeeded gs rs + rows_where (fun x => negb (succeeded x)) gs rs
  = length (concat (map fst gs)).
Proof.
  unfold rows_where. revert rs. induction gs as [|[vs os] gs IH]; intros [|x rs] E; try discriminate.
  - reflexivity.
  - simpl in *. rewrite app_length, <- (IH rs) by lia. destruct (succeeded x); simpl; lia.
Qed.

(** ** C67 *)

(** [batch_insert] cuts rows and metadata in consecutive batches of the configured size, inserts
    them one after the other whatever fails, returns the ids of the batches that succeeded, and
    the two counters grow by the rows of the batches that succeeded and that failed, together by
    the number of rows.  Partial: the size must be positive, the callbacks must return, and the
    counters are relative to their values before the call. *)
Theorem C67_batches_partial :
  forall (W V O I : Type) (b : manager W V O) (insert : list V -> list O -> M W (list I))
         (vectors : list V) (metadata : list O) (r : run I),
    quiet b -> (0 < b_size b)%Z -> length vectors = length metadata ->
    exists gs rs w st,
      batch_insert b insert vectors metadata r = (Ok (values rs), MkRun st (values rs) w) /\
      hands_over (Z.to_nat (b_size b)) vectors metadata gs /\
      inserted insert (r_world r) gs rs w /\
      s_total st = length vectors /\
      s_processed st = s_processed (r_stats r) + rows_where succeeded gs rs /\
      s_failed st = s_failed (r_stats r) + rows_where (fun x => negb (succeeded x)) gs rs /\
      rows_where succeeded gs rs + rows_where (fun x => negb (succeeded x)) gs rs
      = length vectors.
Proof.
  intros W V O I b insert vectors metadata r Hq Hs Hlen.
  set (s := Z.to_nat (b_size b)). assert (0 < s) by (subst s; lia).
  destruct (insert_all b insert Hq (cuts s vectors metadata) (start (length vectors) r))
    as (rs & w & Hi & Hf).
  exists (cuts s vectors metadata), rs, w. eexists.
  rewrite batch_insert_runs by auto. fold s. rewrite Hf. simpl.
  split; [reflexivity|]. split; [now apply cuts_hand_over|]. split; [exact Hi|].
  simpl. split; [reflexivity|]. split; [reflexivity|]. split; [reflexivity|].
  rewrite rows_split by (eapply inserted_length; eauto).
  rewrite cuts_fst. now rewrite (consecutive_concat s vectors) by now apply pieces_consecutive.
Qed.

(** When no batch fails and the client gives one id per row, the ids returned are aligned with
    the rows: there is one per row and each batch contributes the ids of its own rows, in place. *)
Theorem C67_ids_aligned :
  forall (W V O I : Type) (b : manager W V O) (insert : list V -> list O -> M W (list I))
         (vectors : list V) (metadata : list O) (r : run I) gs rs w ids r',
    quiet b -> (0 < b_size b)%Z -> length vectors = length metadata ->
    (forall vs os u l u', insert vs os u = (Ok l, u') -> length l = length vs) ->
    hands_over (Z.to_nat (b_size b)) vectors metadata gs ->
    inserted insert (r_world r) gs rs w -> forallb succeeded rs = true ->
    batch_insert b insert vectors metadata r = (Ok ids, r') ->
    exists idgs,
      rs = map Ok idgs /\ ids = concat idgs /\ length ids = length vectors /\
      map (@length I) idgs = map (fun g => length (fst g)) gs /\ r_world r' = w.
Proof.
  intros W V O I b insert vectors metadata r gs rs w ids r' Hq Hs Hlen Hone Hgs Hi Hall Hb.
  destruct (C67_batches_partial W V O I b insert vectors metadata r Hq Hs Hlen)
    as (gs' & rs' & w' & st & E & Hgs' & Hi' & _).
  assert (gs' = gs) as -> by (apply (hands_over_unique (Z.to_nat (b_size b)) vectors metadata); auto; lia).
  assert (Hdet : rs' = rs /\ w' = w).
  { clear -Hi Hi'. revert rs' w' Hi'. induction Hi; intros rs' w' Hi'; inversion Hi'; subst; auto.
    rewrite H in *. match goal with E : (_, _) = (_, _) |- _ => injection E as -> -> end.
    destruct (IHHi _ _ H7) as [-> ->]. auto. }
  destruct Hdet as [-> ->]. rewrite E in Hb. injection Hb as <- <-.
  assert (exists idgs, rs = map Ok idgs /\ map (@length I) idgs = map (fun g => length (fst g)) gs)
    as (idgs & -> & Hl).
  { clear -Hi Hall Hone. induction Hi as [u|u u1 u2 vs os x gs rs Hx Hi IHHi].
    - exists []. auto.
    - simpl in Hall. apply andb_true_iff in Hall. destruct Hall as [H1 H2].
      destruct (IHHi H2) as (idgs & -> & Hl). destruct x as [l|]; [|discriminate].
      exists (l :: idgs). simpl. split; auto. f_equal; auto. eapply Hone; eauto. }
  exists idgs. split; [reflexivity|].
  assert (Hv : values (map Ok idgs) = concat idgs).
  { unfold values. rewrite map_map, map_id. reflexivity. }
  split; [exact Hv|]. split; [|split; [exact Hl|reflexivity]].
  rewrite Hv. assert (Hsum : length (concat idgs) = list_sum (map (@length I) idgs)).
  { clear. induction idgs; simpl; auto. now rewrite app_length, IHidgs. }
  rewrite Hsum, Hl. destruct Hgs as [Hc Hf]. apply consecutive_concat in Hc.
  assert (length (combine vectors metadata) = length vectors)
    by (rewrite combine_length; lia).
  rewrite <- H, <- Hc. clear -Hf. induction Hf as [|[v o] gs Hx Hf IH]; simpl; auto.
  rewrite app_length, IH. f_equal. unfold pairs. simpl in *. rewrite combine_length. lia.
Qed.

(** For a client whose insertion of rows splits, batch insertion of at least one row gives what
    one call with all rows gives: the same ids and the same world. *)
Theorem C67_one_insertion :
  forall (W V O I : Type) (b : manager W V O) (insert : list V -> list O -> M W (list I))
         (vectors : list V) (metadata : list O) (r : run I) ids w,
    quiet b -> (0 < b_size b)%Z -> length vectors = length metadata -> vectors <> [] ->
    (forall a c oa oc u l u', a <> [] -> c <> [] -> length a = length oa -> length c = length oc ->
       insert (a ++ c) (oa ++ oc) u = (Ok l, u') ->
       exists la lc u1, insert a oa u = (Ok la, u1) /\ insert c oc u1 = (Ok lc, u') /\ l = la ++ lc) ->
    insert vectors metadata (r_world r) = (Ok ids, w) ->
    exists st, batch_insert b insert vectors metadata r = (Ok ids, MkRun st ids w) /\
               s_processed st = s_processed (r_stats r) + length vectors /\
               s_failed st = s_failed (r_stats r).
Proof.
  intros W V O I b insert vectors metadata r ids w Hq Hs Hlen Hne Hadd Hi.
  set (s := Z.to_nat (b_size b)). assert (Hs' : 0 < s) by (subst s; lia).
  rewrite batch_insert_runs by auto. fold s.
  assert (G : forall n vs os q l u,
    length vs = n -> length vs = length os -> vs <> [] -> insert vs os (r_world q) = (Ok l, u) ->
    forM (cuts s vs os) (fun g => insert_batch b insert (fst g) (snd g)) q
    = (Ok tt, MkRun (MkStats (s_total (r_stats q)) (s_processed (r_stats q) + length vs)
                             (s_failed (r_stats q))) (r_out q ++ l) u)).
  { clear -Hs' Hq Hadd. induction n as [n IH] using lt_wf_ind. intros vs os q l u En Hl Hne Hi.
    assert (Hcut : cuts s vs os
                   = (firstn s vs, firstn s os) :: cuts s (skipn s vs) (skipn s os)).
    { unfold cuts. rewrite skipn_length.
      assert (0 < length vs) by (destruct vs; simpl; [congruence|lia]).
      rewrite ceil_step by lia. cbn [seq map]. f_equal.
      rewrite <- seq_shift, !map_map. apply map_ext. intros k.
      replace (S k * s) with (k * s + s) by lia.
      assert (Sk : forall A (x : list A) m, skipn (m + s) x = skipn m (skipn s x)).
      { clear. intros A x m. revert x. induction s as [|s IH]; intros x.
        - now rewrite Nat.add_0_r.
        - rewrite Nat.add_succ_r. destruct x; simpl; [now rewrite skipn_nil|apply IH]. }
      now rewrite !Sk. }
    rewrite Hcut. cbn [forM fst snd]. unfold bind. rewrite insert_batch_quiet by auto.
    destruct (le_lt_dec (length vs) s) as [Hle|Hlt].
    - rewrite !firstn_all2, !skipn_all2 by lia. rewrite Hi.
      unfold cuts. simpl length. rewrite Nat.div_small by lia. reflexivity.
    - rewrite <- (firstn_skipn s vs), <- (firstn_skipn s os) in Hi.
      apply Hadd in Hi.
      + destruct Hi as (la & lc & u1 & E1 & E2 & ->). rewrite E1.
        rewrite (IH (length (skipn s vs))) with (l := lc) (u := u); auto.
        * simpl. rewrite skipn_length, firstn_length, <- app_assoc.
          replace (s_processed (r_stats q) + Nat.min s (length vs) + (length vs - s))
            with (s_processed (r_stats q) + length vs) by lia. reflexivity.
        * rewrite skipn_length. lia.
        * now rewrite !skipn_length, Hl.
        * intros E. assert (length (skipn s vs) = 0) by now rewrite E.
          rewrite skipn_length in *. lia.
      + intros E. assert (length (firstn s vs) = 0) by now rewrite E.
        rewrite firstn_length in *. lia.
      + intros E. assert (length (skipn s vs) = 0) by now rewrite E.
        rewrite skipn_length in *. lia.
      + now rewrite !firstn_length, Hl.
      + now rewrite !skipn_length, Hl. }
  rewrite (G _ vectors metadata (start (length vectors) r) ids w eq_refl Hlen Hne Hi).
  eexists. split; [reflexivity|]. split; reflexivity.
Qed.

(** ** C67 for the client over a flat index *)

From Verif Require Import Payload StorageModel StorageSpec StorageRun Num ClientModel FlatModel.

Section OverFlat.
  Context {F Mt S : Type} `{Num F}.
  Context (C : storage_class S (list F) Mt) (mt : metric).
  (** [np.argsort] of the insertion call, which does not use it. *)
  Context (srt : list F -> list nat).
  (** The uuids the process draws, in the order it draws them. *)
  Context (uuid : nat -> pystr).

  (** [client.insert] as the batch manager calls it, in a world that counts the uuids drawn. *)
  Definition flat_world : Type := (client (flat F) S * nat)%type.
  Definition flat_client_insert (vs : list (list F)) (os : list (option Mt))
      : M flat_world (list pystr) :=
    fun w => let (r, c) := cl_insert (flat_class C mt) srt (fun i => uuid (snd w + i)) (Mat vs) (Some os) (fst w)
             in (r, (c, snd w + length vs)).

  Let recount (z : Z) (w : flat F * S) : flat F * S :=
    (MkFlat (f_ids (fst w)) (f_cache (fst w)) z (f_init (fst w)), snd w).

  Lemma rows_recount fresh md z rows : forall i w,
    flat_insert_rows C fresh md i rows (recount z w)
    = (fst (flat_insert_rows C fresh md i rows w), recount z (snd (flat_insert_rows C fresh md i rows w))).
  Proof.
    induction rows as [|v rows IH]; intros i [x s]; [reflexivity|].
    cbn [flat_insert_rows]. unfold bind, on_sb, zoom, recount, set_ix, modify. simpl.
    destruct (sc_store C (fresh i) v (row_meta md i) s) as [[a|e] s']; [|reflexivity].
    specialize (IH (1 + i) (fset_cache (dset (fresh i) v (f_cache x))
                               (fset_ids (f_ids x ++ [fresh i]) x), s')).
    unfold recount in IH. simpl in IH. unfold fset_cache, fset_ids in *. simpl in *. rewrite IH.
    match goal with |- context [flat_insert_rows C fresh md (Datatypes.S i) rows ?w] =>
      destruct (flat_insert_rows C fresh md (Datatypes.S i) rows w) as [[ids|e] w'] end; reflexivity.
  Qed.

  Lemma rows_init fresh md rows : forall i w,
    f_init (fst (snd (flat_insert_rows C fresh md i rows w))) = f_init (fst w).
  Proof.
    induction rows as [|v rows IH]; intros i [x s]; [reflexivity|].
    cbn [flat_insert_rows]. unfold bind, on_sb, zoom, set_ix, modify. simpl.
    destruct (sc_store C (fresh i) v (row_meta md i) s) as [[a|e] s']; [|reflexivity].
    match goal with |- context [flat_insert_rows C fresh md (Datatypes.S i) rows ?w] =>
      specialize (IH (Datatypes.S i) w); revert IH;
      destruct (flat_insert_rows C fresh md (Datatypes.S i) rows w) as [[ids|e] w'] end;
      intros IH; exact IH.
  Qed.

  Lemma rows_app fresh md a c : forall i w,
    flat_insert_rows C fresh md i (a ++ c) w
    = (ia <- flat_insert_rows C fresh md i a ;;
       ic <- flat_insert_rows C fresh md (i + length a) c ;;
       ret (ia ++ ic)) w.
  Proof.
    induction a as [|v a IH]; intros i w.
    - simpl. rewrite Nat.add_0_r. unfold bind, ret.
      destruct (flat_insert_rows C fresh md i c w) as [[l|e] w']; reflexivity.
    - simpl app. cbn [flat_insert_rows]. unfold bind, on_sb, zoom, set_ix, modify. destruct w as [x s].
      simpl. destruct (sc_store C (fresh i) v (row_meta md i) s) as [[u|e] s']; [|reflexivity].
      rewrite IH. unfold bind. simpl length. rewrite <- Nat.add_succ_comm.
      match goal with |- context [flat_insert_rows C fresh md (Datatypes.S i) a ?w] =>
        destruct (flat_insert_rows C fresh md (Datatypes.S i) a w) as [[ids|e] w'] end; [|reflexivity].
      unfold ret. cbv beta iota.
      destruct (flat_insert_rows C fresh md (Datatypes.S i + length a) c w') as [[ic|e] w'']; reflexivity.
  Qed.

  Lemma rows_ext fresh fresh' md md' rows : forall i j w,
    (forall t, t < length rows -> fresh (i + t) = fresh' (j + t)) ->
    (forall t, t < length rows -> row_meta md (i + t) = row_meta md' (j + t)) ->
    flat_insert_rows C fresh md i rows w = flat_insert_rows C fresh' md' j rows w.
  Proof.
    induction rows as [|v rows IH]; intros i j w Hf Hm; [reflexivity|].
    cbn [flat_insert_rows].
    pose proof (Hf 0) as F0. pose proof (Hm 0) as M0.
    rewrite !Nat.add_0_r in F0, M0. rewrite F0, M0 by (simpl; lia).
    unfold bind, on_sb, zoom, set_ix, modify. destruct w as [x s]. simpl.
    destruct (sc_store C (fresh' j) v (row_meta md' j) s) as [[u|e] s']; [|reflexivity].
    rewrite (IH (Datatypes.S i) (Datatypes.S j)); [reflexivity| |].
    - intros t Ht. specialize (Hf (Datatypes.S t)). rewrite !Nat.add_succ_r in Hf.
      apply Hf. simpl. lia.
    - intros t Ht. specialize (Hm (Datatypes.S t)). rewrite !Nat.add_succ_r in Hm.
      apply Hm. simpl. lia.
  Qed.

  Lemma row_meta_left (oa oc : list (option Mt)) t : t < length oa ->
    row_meta (Some (oa ++ oc)) t = row_meta (Some oa) t.
  Proof.
    intros Ht. unfold row_meta. rewrite app_length.
    rewrite (proj2 (Nat.eqb_neq (length oa + length oc) 0)), (proj2 (Nat.eqb_neq (length oa) 0)) by lia.
    rewrite (proj2 (Nat.ltb_lt t (length oa + length oc))), (proj2 (Nat.ltb_lt t (length oa))) by lia.
    simpl. now apply app_nth1.
  Qed.

  Lemma row_meta_right (oa oc : list (option Mt)) t : t < length oc ->
    row_meta (Some (oa ++ oc)) (length oa + t) = row_meta (Some oc) t.
  Proof.
    intros Ht. unfold row_meta. rewrite app_length.
    rewrite (proj2 (Nat.eqb_neq (length oa + length oc) 0)), (proj2 (Nat.eqb_neq (length oc) 0)) by lia.
    rewrite (proj2 (Nat.ltb_lt (length oa + t) (length oa + length oc))),
            (proj2 (Nat.ltb_lt t (length oc))) by lia.
    simpl. rewrite app_nth2 by lia. f_equal. lia.
  Qed.

  Lemma flat_client_insert_eq a oa x s ini n :
    flat_client_insert a oa (MkClient x s ini, n)
    = if ini
      then if f_init x
           then match flat_insert_rows C (fun i => uuid (n + i)) (Some oa) 0 a (x, s) with
                | (Ok l, w) => (Ok l, (MkClient (fset_count (fst w)) (snd w) true, n + length a))
                | (Raise _, w) => (Raise EIndex, (MkClient (fst w) (snd w) true, n + length a))
                end
           else (Raise EIndex, (MkClient x s ini, n + length a))
      else (Raise EValori, (MkClient x s ini, n + length a)).
  Proof.
    unfold flat_client_insert, cl_insert, guarded, bind, get, on_index, zoom. simpl.
    destruct ini; [|reflexivity]. simpl. unfold flat_insert, bind, get_ix. simpl.
    destruct (f_init x); [|reflexivity]. simpl. unfold wrap.
    destruct (flat_insert_rows C (fun i => uuid (n + i)) (Some oa) 0 a (x, s)) as [[l|e] [x1 s1]];
      reflexivity.
  Qed.

  Lemma flat_splits a c oa oc u l u' : length a = length oa -> length c = length oc ->
    flat_client_insert (a ++ c) (oa ++ oc) u = (Ok l, u') ->
    exists la lc u1, flat_client_insert a oa u = (Ok la, u1) /\
                     flat_client_insert c oc u1 = (Ok lc, u') /\ l = la ++ lc.
  Proof.
    intros Ha Hc. destruct u as [[x s ini] n]. rewrite !flat_client_insert_eq.
    destruct ini; [|discriminate]. destruct (f_init x) eqn:Ex; [|discriminate].
    rewrite rows_app. unfold bind. simpl.
    rewrite (rows_ext (fun i => uuid (n + i)) (fun i => uuid (n + i)) (Some (oa ++ oc)) (Some oa) a 0 0)
      by (auto; intros t Ht; apply row_meta_left; lia).
    destruct (flat_insert_rows C (fun i => uuid (n + i)) (Some oa) 0 a (x, s)) as [[la|e] [x1 s1]] eqn:Ea;
      [|discriminate].
    rewrite (rows_ext (fun i => uuid (n + i)) (fun i => uuid (n + length a + i)) (Some (oa ++ oc)) (Some oc) c (length a) 0).
    2:{ intros t Ht. f_equal. lia. }
    2:{ intros t Ht. simpl. rewrite Ha. apply row_meta_right. lia. }
    destruct (flat_insert_rows C (fun i => uuid (n + length a + i)) (Some oc) 0 c (x1, s1))
      as [[lc|e] [x2 s2]] eqn:Ec; [|discriminate].
    unfold ret. simpl. intros E. injection E as <- <-.
    exists la, lc, (MkClient (fset_count x1) s1 true, n + length a). split; [reflexivity|].
    assert (Ix1 : f_init x1 = true).
    { pose proof (rows_init (fun i => uuid (n + i)) (Some oa) a 0 (x, s)) as I0.
      rewrite Ea in I0. simpl in I0. congruence. }
    rewrite flat_client_insert_eq. simpl. rewrite Ix1.
    pose proof (rows_recount (fun i => uuid (n + length a + i)) (Some oc)
                  (Z.of_nat (length (f_ids x1))) c 0 (x1, s1)) as R.
    unfold recount in R. simpl in R. unfold fset_count at 1. rewrite R, Ec. simpl.
    split; [|reflexivity]. rewrite app_length, Nat.add_assoc. reflexivity.
  Qed.
End OverFlat.

(** Batch insertion through a client over a flat index, on any storage backend, gives exactly
    what one insertion of all rows gives: the same ids, the same index, the same storage. *)
Theorem C67_flat_one_insertion :
  forall (F Mt S : Type) (num : Num F) (C : storage_class S (list F) Mt) (mt : metric)
         (srt : list F -> list nat) (uuid : nat -> pystr)
         (b : manager (flat_world (F := F) (S := S)) (list F) (option Mt))
         (vectors : list (list F)) (metadata : list (option Mt)) (r : run pystr) ids w,
    quiet b -> (0 < b_size b)%Z -> length vectors = length metadata -> vectors <> [] ->
    flat_client_insert C mt srt uuid vectors metadata (r_world r) = (Ok ids, w) ->
    exists st,
      batch_insert b (flat_client_insert C mt srt uuid) vectors metadata r = (Ok ids, MkRun st ids w) /\
      s_processed st = s_processed (r_stats r) + length vectors /\
      s_failed st = s_failed (r_stats r).
Proof.
  intros F Mt S num C mt srt uuid b vectors metadata r ids w Hq Hs Hl Hne Hi.
  apply C67_one_insertion; auto.
  intros a c oa oc u l u' _ _ Ha Hc E. eapply flat_splits; eauto.
Qed.

From Verif Require Import DbSpec ClientRun FlatProofs Demo DemoIndex.

(** Three rows in batches of two, over the memory backend: an initialised client. *)
Example C67_flat_case :
  let c := cl_after mem_class (flat_class mem_class MEuclidean) mem_new [CInit stable_argsort []] in
  let ins := flat_client_insert (F := Z) mem_class MEuclidean stable_argsort (demo_ids 97) in
  let b : manager (@flat_world Z (@mem (list Z) Z)) (list Z) (option Z) := MkManager 2 None None in
  let vs := [[1; 0]; [0; 1]; [2; 2]]%Z in let os := [Some 7; None; Some 8]%Z in
  quiet b /\
  fst (ins vs os (c, 5)) = Ok [demo_ids 97 5; demo_ids 97 6; demo_ids 97 7] /\
  batch_insert b ins vs os (MkRun no_stats [] (c, 5))
  = (Ok [demo_ids 97 5; demo_ids 97 6; demo_ids 97 7],
     MkRun (MkStats 3 3 0) [demo_ids 97 5; demo_ids 97 6; demo_ids 97 7] (snd (ins vs os (c, 5)))).
Proof. split; [split; discriminate|]. split; vm_compute; reflexivity. Qed.

(** ** C67: what is not so *)

(** A client that keeps the rows it is given and refuses batches holding a 13. *)
Definition toy_insert (vs : list Z) (os : list Z) : M (list Z) (list Z) :=
  fun w => if existsb (Z.eqb 13) vs then (Raise EValori, w) else (Ok vs, w ++ vs).
Definition toy_manager (size : Z) : manager (list Z) Z Z := MkManager size None None.
Definition toy_run : run Z := MkRun no_stats [] (@nil Z).

(** A negative batch size inserts nothing, counts nothing and reports success. *)
Theorem C67_negative_size_refuted :
  exists (b : manager (list Z) Z Z) vectors metadata r ids r',
    quiet b /\ length vectors = length metadata /\
    batch_insert b toy_insert vectors metadata r = (Ok ids, r') /\
    r_stats r = no_stats /\ vectors <> [] /\ ids = [] /\ r_world r' = r_world r /\
    s_processed (r_stats r') + s_failed (r_stats r') <> length vectors.
Proof.
  exists (toy_manager (-1)), [1; 2]%Z, [10; 20]%Z, toy_run, []%list, (MkRun (MkStats 2 0 0) [] []).
  split; [split; discriminate|]. repeat split; vm_compute; congruence.
Qed.

(** A progress callback that raises: the batch is inserted, its ids are returned, and it counts
    both as processed and as failed. *)
Theorem C67_raising_callback_refuted :
  exists (b : manager (list Z) Z Z) vectors metadata r ids r',
    (0 < b_size b)%Z /\ length vectors = length metadata /\
    batch_insert b toy_insert vectors metadata r = (Ok ids, r') /\
    r_stats r = no_stats /\ ids = vectors /\ r_world r' = vectors /\
    s_processed (r_stats r') + s_failed (r_stats r') = 2 * length vectors /\ vectors <> [].
Proof.
  exists (MkManager 2 (Some (fun _ _ => raise EType)) None), [1; 2; 3]%Z, [10; 20; 30]%Z, toy_run,
    [1; 2; 3]%Z, (MkRun (MkStats 3 3 3) [1; 2; 3]%Z [1; 2; 3]%Z).
  repeat split; vm_compute; congruence.
Qed.

(** Without [reset_stats] the counters of a second call include those of the first, while the
    total does not. *)
Theorem C67_not_reset_refuted :
  exists (b : manager (list Z) Z Z) vectors metadata r ids r' ids2 r2,
    quiet b /\ (0 < b_size b)%Z /\ length vectors = length metadata /\ r_stats r = no_stats /\
    batch_insert b toy_insert vectors metadata r = (Ok ids, r') /\
    batch_insert b toy_insert vectors metadata r' = (Ok ids2, r2) /\
    s_total (r_stats r2) < s_processed (r_stats r2) + s_failed (r_stats r2).
Proof.
  exists (toy_manager 2), [1; 2; 3]%Z, [10; 20; 30]%Z, toy_run,
    [1; 2; 3]%Z, (MkRun (MkStats 3 3 0) [1; 2; 3]%Z [1; 2; 3]%Z),
    [1; 2; 3]%Z, (MkRun (MkStats 3 6 0) [1; 2; 3]%Z [1; 2; 3; 1; 2; 3]%Z).
  split; [split; discriminate|]. repeat split; vm_compute; lia.
Qed.

(** Two batches, the second fails. *)
Example C67_case :
  quiet (toy_manager 2) /\ (0 < b_size (toy_manager 2))%Z /\
  batch_insert (toy_manager 2) toy_insert [1; 2; 13; 4; 5]%Z [1; 2; 3; 4; 5]%Z toy_run
  = (Ok [1; 2; 5]%Z, MkRun (MkStats 5 3 2) [1; 2; 5]%Z [1; 2; 5]%Z) /\
  hands_over 2 [1; 2; 13; 4; 5]%Z [1; 2; 3; 4; 5]%Z
    [([1; 2], [1; 2]); ([13; 4], [3; 4]); ([5], [5])]%Z /\
  inserted toy_insert [] [([1; 2], [1; 2]); ([13; 4], [3; 4]); ([5], [5])]%Z
    [Ok [1; 2]%Z; Raise EValori; Ok [5]%Z] [1; 2; 5]%Z.
Proof.
  split; [split; discriminate|]. split; [reflexivity|]. split; [vm_compute; reflexivity|]. split.
  - split; [|repeat constructor]. simpl.
    apply (consecutive_more 2 [(1, 1); (2, 2)]%Z [(13, 3); (4, 4); (5, 5)]%Z); try discriminate; auto.
    apply (consecutive_more 2 [(13, 3); (4, 4)]%Z [(5, 5)]%Z); try discriminate; auto.
    apply consecutive_last; try discriminate; simpl; auto.
  - repeat (econstructor; [reflexivity|]). constructor.
Qed.

(** The toy client's insertion splits, and gives one id per row. *)
Example C67_one_insertion_case :
  (forall a c oa oc u l u', toy_insert (a ++ c) (oa ++ oc) u = (Ok l, u') ->
     exists la lc u1, toy_insert a oa u = (Ok la, u1) /\ toy_insert c oc u1 = (Ok lc, u') /\ l = la ++ lc) /\
  (forall vs os u l u', toy_insert vs os u = (Ok l, u') -> length l = length vs) /\
  toy_insert [1; 2; 3; 4; 5]%Z [1; 2; 3; 4; 5]%Z [] = (Ok [1; 2; 3; 4; 5]%Z, [1; 2; 3; 4; 5]%Z) /\
  batch_insert (toy_manager 2) toy_insert [1; 2; 3; 4; 5]%Z [1; 2; 3; 4; 5]%Z toy_run
  = (Ok [1; 2; 3; 4; 5]%Z, MkRun (MkStats 5 5 0) [1; 2; 3; 4; 5]%Z [1; 2; 3; 4; 5]%Z).
Proof.
  split; [|split; [|split; vm_compute; reflexivity]].
  - intros a c oa oc u l u'. unfold toy_insert. rewrite existsb_app.
    destruct (existsb (Z.eqb 13) a), (existsb (Z.eqb 13) c); simpl; try discriminate.
    intros E. injection E as <- <-. exists a, c, (u ++ a). now rewrite app_assoc.
  - intros vs os u l u'. unfold toy_insert. destruct (existsb _ _); [discriminate|].
    intros E. now injection E as <- <-.
Qed.

(** ** C68 *)

Section Parallel.
  Context {W V O I : Type} (b : manager W V O) (insert : list V -> list O -> M W (list I)).
  Hypothesis Hq : quiet b.

  Lemma work_runs gs : forall exec done w,
    Forall (fun j => j < length gs) exec ->
    exists gs' rs w',
      Forall2 (fun j g => nth_error gs j = Some g) exec gs' /\
      inserted insert w gs' rs w' /\
      work insert gs exec done w = (done ++ combine exec rs, w').
  Proof.
    induction exec as [|j exec IH]; intros done w Hall.
    - exists [], [], w. simpl. rewrite app_nil_r. repeat constructor.
    - inversion Hall as [|? ? Hj Hrest]; subst. cbn [work].
      destruct (nth_error gs j) as [[vs os]|] eqn:En; [|apply nth_error_None in En; lia].
      destruct (insert vs os w) as [r w1] eqn:Ei.
      destruct (IH (done ++ [(j, r)]) w1 Hrest) as (gs' & rs & w' & H2 & Hi & Hw).
      exists ((vs, os) :: gs'), (r :: rs), w'. split; [now constructor|].
      split; [econstructor; eauto|]. rewrite Hw, <- app_assoc. reflexivity.
  Qed.

  (** What a completed batch contributes. *)
  Definition got (done : list (nat * result (list I))) (j : nat) : list I :=
    match dget j done with Some (Ok l) => l | _ => [] end.
  Definition lost (gs : list (list V * list O)) (done : list (nat * result (list I))) (j : nat) : nat :=
    match nth_error gs j, dget j done with Some (vs, _), Some (Raise _) => length vs | _, _ => 0 end.

  Lemma collect_all gs done : forall completion (r : run I),
    Forall (fun j => j < length gs) completion ->
    forM completion (collect b gs done) r
    = (Ok tt, MkRun (MkStats (s_total (r_stats r))
                       (s_processed (r_stats r) + length (concat (map (got done) completion)))
                       (s_failed (r_stats r) + list_sum (map (lost gs done) completion)))
                    (r_out r ++ concat (map (got done) completion)) (r_world r)).
  Proof.
    induction completion as [|j l IH]; intros r Hall.
    - destruct r as [[t p f] o w]. simpl. now rewrite !Nat.add_0_r, app_nil_r.
    - inversion Hall as [|? ? Hj Hrest]; subst. cbn [forM]. unfold bind at 1.
      destruct (nth_error gs j) as [[vs os]|] eqn:En; [|apply nth_error_None in En; lia].
      unfold collect at 1. rewrite En. cbn [map concat list_sum fold_right].
      unfold got at 1 3, lost at 1. rewrite En.
      destruct (dget j done) as [[ids|e]|] eqn:Ed.
      + unfold bind, modify. rewrite (report_quiet b Hq). rewrite IH by auto.
        destruct r as [[t p f] o w]. simpl. now rewrite app_length, <- !app_assoc, <- Nat.add_assoc.
      + unfold bind, modify. rewrite (complain_quiet b Hq), (report_quiet b Hq), IH by auto.
        destruct r as [[t p f] o w]. simpl. now rewrite <- Nat.add_assoc.
      + unfold ret. rewrite IH by auto. reflexivity.
  Qed.
End Parallel.

Lemma combine_dget {A} (ks : list nat) : forall (vs : list A), NoDup ks -> length vs = length ks ->
  map (fun k => dget k (combine ks vs)) ks = map Some vs.
Proof.
  induction ks as [|k ks IH]; intros [|v vs] Hn Hl; try discriminate; [reflexivity|].
  inversion Hn; subst. simpl. rewrite eqb_refl. f_equal. rewrite <- IH by (auto; simpl in *; lia).
  apply map_ext_in. intros a Ha. rewrite eqb_neq; auto. intros ->. tauto.
Qed.

Lemma Permutation_concat_map {A B} (f : A -> list B) l l' :
  Permutation l l' -> Permutation (concat (map f l)) (concat (map f l')).
Proof.
  induction 1; simpl; auto.
  - now apply Permutation_app_head.
  - rewrite !app_assoc. apply Permutation_app_tail, Permutation_app_comm.
  - etransitivity; eauto.
Qed.

Lemma Permutation_list_sum l l' : Permutation l l' -> list_sum l = list_sum l'.
Proof. induction 1; simpl; lia. Qed.

Lemma Forall2_nth_map {A} (gs gs' : list A) (js : list nat) :
  Forall2 (fun j g => nth_error gs j = Some g) js gs' -> map (nth_error gs) js = map Some gs'.
Proof. induction 1; simpl; congruence. Qed.

Lemma Forall2_len {A B} (R : A -> B -> Prop) l l' : Forall2 R l l' -> length l = length l'.
Proof. induction 1; simpl; congruence. Qed.

Lemma nth_error_seq {A} (gs : list A) : map (nth_error gs) (seq 0 (length gs)) = map Some gs.
Proof.
  induction gs as [|g gs IH]; [reflexivity|]. simpl. f_equal. rewrite <- seq_shift, map_map. exact IH.
Qed.

(** For every order in which the workers take the batches and every order in which they complete,
    every batch is inserted exactly once, nothing else is, and the ids returned are those of the
    batches that succeeded, in some order; the counters grow by their number and by the rows of
    the batches that failed.  Partial: insertions are atomic, the size is positive and the
    callbacks return. *)
Theorem C68_parallel_partial :
  forall (W V O I : Type) (b : manager W V O) (insert : list V -> list O -> M W (list I))
         (vectors : list V) (metadata : list O) (r : run I) (exec completion : list nat) gs,
    quiet b -> (0 < b_size b)%Z -> length vectors = length metadata ->
    hands_over (Z.to_nat (b_size b)) vectors metadata gs ->
    Permutation exec (seq 0 (length gs)) -> Permutation completion (seq 0 (length gs)) ->
    exists gs' rs w st ids,
      parallel_batch_insert b insert exec completion vectors metadata r = (Ok ids, MkRun st ids w) /\
      Permutation gs' gs /\ inserted insert (r_world r) gs' rs w /\
      Permutation ids (values rs) /\
      s_processed st = s_processed (r_stats r) + length ids /\
      s_failed st = s_failed (r_stats r) + rows_where (fun x => negb (succeeded x)) gs' rs.
Proof.
  intros W V O I b insert vectors metadata r exec completion gs Hq Hs Hlen Egs Hex Hco.
  apply (hands_over_unique _ _ _ (cuts (Z.to_nat (b_size b)) vectors metadata)) in Egs;
    [symmetry in Egs|lia|apply cuts_hand_over; auto; lia].
  assert (Hlt : forall l, Permutation l (seq 0 (length gs)) -> Forall (fun j => j < length gs) l).
  { intros l Hl. apply Forall_forall. intros j Hj.
    apply (Permutation_in _ Hl), in_seq in Hj. lia. }
  destruct (work_runs insert gs exec [] (r_world r) (Hlt _ Hex)) as (gs' & rs & w & H2 & Hi & Hw).
  simpl in Hw.
  assert (Hlr : length rs = length exec).
  { rewrite (inserted_length _ _ _ _ _ Hi). symmetry. eapply Forall2_len; eauto. }
  assert (Hnd : NoDup exec).
  { eapply Permutation_NoDup; [symmetry; eauto|]. apply seq_NoDup. }
  set (done := combine exec rs) in *.
  exists gs', rs, w.
  eexists (MkStats (length vectors)
             (s_processed (r_stats r) + length (concat (map (got done) completion)))
             (s_failed (r_stats r) + list_sum (map (lost gs done) completion))),
    (concat (map (got done) completion)).
  split; [|split; [|split; [exact Hi|split; [|split; [reflexivity|]]]]].
  - unfold parallel_batch_insert, BatchModel.cut. rewrite range_pos by auto. simpl rbind.
    unfold bind at 1, modify at 1. unfold bind at 1, lift.
    change (map (fun i => (batch_of (b_size b) vectors i, batch_of (b_size b) metadata i)) _)
      with (cuts (Z.to_nat (b_size b)) vectors metadata).
    rewrite <- Egs. unfold bind at 1, get at 1. unfold start at 1. cbn [r_world].
    rewrite Hw. unfold bind at 1, modify. unfold bind at 1.
    rewrite (collect_all b Hq) by auto. reflexivity.
  - pose proof (Forall2_nth_map gs gs' exec H2) as E1.
    assert (P : Permutation (map Some gs') (map Some gs)).
    { rewrite <- E1, <- (nth_error_seq gs). now apply Permutation_map. }
    apply (Permutation_map (fun o => match o with Some x => [x] | None => [] end)) in P.
    rewrite !map_map in P. apply (Permutation_concat_map (fun x : list (list V * list O) => x)) in P.
    rewrite !map_id in P.
    assert (Cs : forall l : list (list V * list O), concat (map (fun x => [x]) l) = l)
      by (induction l; simpl; congruence).
    now rewrite !Cs in P.
  - assert (E : concat (map (got done) exec) = values rs).
    { unfold values. f_equal. unfold got.
      transitivity (map (fun o => match o with Some (Ok l) => l | _ => [] end)
                        (map (fun k => dget k done) exec)); [now rewrite map_map|].
      unfold done. rewrite combine_dget by auto. now rewrite map_map. }
    rewrite <- E. apply Permutation_concat_map. now rewrite Hco.
  - simpl. f_equal. rewrite (Permutation_list_sum _ (map (lost gs done) exec))
      by (apply Permutation_map; now rewrite Hco).
    unfold rows_where. f_equal.
    pose proof (combine_dget exec rs Hnd Hlr) as Ed. fold done in Ed.
    pose proof (Forall2_nth_map gs gs' exec H2) as En.
    assert (length gs' = length exec) by (symmetry; eapply Forall2_len; eauto).
    clearbody done. clear -Ed En Hlr H. revert gs' rs Ed En Hlr H.
    induction exec as [|j exec IH]; intros gs' rs Ed En Hlr Hl; destruct gs' as [|[vs os] gs'], rs as [|x rs];
      simpl in *; try discriminate; auto.
    injection Ed as Ed1 Ed2. injection En as En1 En2. f_equal; [|apply IH; auto; lia].
    unfold lost. rewrite En1, Ed1. destruct x; reflexivity.
Qed.

(** A progress callback that raises loses the ids of rows that were inserted. *)
Theorem C68_raising_callback_refuted :
  exists (b : manager (list Z) Z Z) vectors metadata r exec completion e r',
    (0 < b_size b)%Z /\ length vectors = length metadata /\
    parallel_batch_insert b toy_insert exec completion vectors metadata r = (Raise e, r') /\
    r_world r = [] /\ r_world r' = vectors /\ vectors <> [].
Proof.
  exists (MkManager 2 (Some (fun _ _ => raise EType)) None), [1; 2; 3]%Z, [10; 20; 30]%Z, toy_run,
    [0; 1], [1; 0], EType, (MkRun (MkStats 3 1 0) [3]%Z [1; 2; 3]%Z).
  repeat split; vm_compute; congruence.
Qed.

(** Batches taken in the order 2, 0, 1 and completed in the order 1, 2, 0. *)
Example C68_case :
  quiet (toy_manager 2) /\
  hands_over 2 [1; 2; 13; 4; 5]%Z [1; 2; 3; 4; 5]%Z
    [([1; 2], [1; 2]); ([13; 4], [3; 4]); ([5], [5])]%Z /\
  Permutation [2; 0; 1] (seq 0 3) /\ Permutation [1; 2; 0] (seq 0 3) /\
  parallel_batch_insert (toy_manager 2) toy_insert [2; 0; 1] [1; 2; 0]
    [1; 2; 13; 4; 5]%Z [1; 2; 3; 4; 5]%Z toy_run
  = (Ok [5; 1; 2]%Z, MkRun (MkStats 5 3 2) [5; 1; 2]%Z [5; 1; 2]%Z).
Proof.
  split; [split; discriminate|]. split; [apply C67_case|].
  split; [|split; [|vm_compute; reflexivity]]; simpl.
  - apply (Permutation_cons_app [0; 1] [] 2). apply Permutation_refl.
  - symmetry. apply (Permutation_cons_app [1; 2] [] 0). apply Permutation_refl.
Qed.

(** ** C69 *)

(** Queries answered one after the other: a value or, for a failed search, [None]. *)
Inductive answered {W V H} (search : V -> Z -> M W (list H)) (k : Z)
  : W -> list V -> list (option (list H)) -> W -> Prop :=
| answered_nil w : answered search k w [] [] w
| answered_ok w w1 w2 q qs l rs :
    search q k w = (Ok l, w1) -> answered search k w1 qs rs w2 ->
    answered search k w (q :: qs) (Some l :: rs) w2
| answered_failed w w1 w2 q qs e rs :
    search q k w = (Raise e, w1) -> answered search k w1 qs rs w2 ->
    answered search k w (q :: qs) (None :: rs) w2.

Definition or_empty {A} (o : option (list A)) : list A := match o with Some l => l | None => [] end.
Definition missing {A} (l : list (option A)) : nat :=
  length (filter (fun o => match o with Some _ => false | None => true end) l).

Section Search.
  Context {W V O H : Type} (b : manager W V O) (search : V -> Z -> M W (list H)) (k : Z).
  Hypothesis Hq : quiet b.

  Lemma search_each_runs qs : forall r : run (list H),
    exists rs w,
      answered search k (r_world r) qs rs w /\ length rs = length qs /\
      search_each b search k qs r
      = (Ok (map or_empty rs), add_failed (missing rs) (MkRun (r_stats r) (r_out r) w)).
  Proof.
    induction qs as [|q qs IH]; intros r.
    - exists [], (r_world r). destruct r as [[t p f] o w]. unfold missing, add_failed. simpl.
      rewrite Nat.add_0_r. repeat split; constructor.
    - cbn [search_each]. unfold bind at 1, try_except, on_world, zoom.
      destruct (search q k (r_world r)) as [[l|e] w1] eqn:E.
      + destruct (IH (MkRun (r_stats r) (r_out r) w1)) as (rs & w & Ha & Hl & Hs).
        exists (Some l :: rs), w. split; [econstructor; eauto|]. split; [simpl; lia|].
        unfold bind. rewrite Hs. reflexivity.
      + destruct (IH (add_failed 1 (MkRun (r_stats r) (r_out r) w1))) as (rs & w & Ha & Hl & Hs).
        exists (None :: rs), w. split; [eapply answered_failed; eauto|]. split; [simpl; lia|].
        unfold bind, modify. rewrite (complain_quiet b Hq). unfold ret. rewrite Hs.
        unfold add_failed, missing. simpl. now rewrite <- Nat.add_assoc.
  Qed.

  Lemma answered_app w1 qs1 rs1 w2 qs2 rs2 w3 :
    answered search k w1 qs1 rs1 w2 -> answered search k w2 qs2 rs2 w3 ->
    answered search k w1 (qs1 ++ qs2) (rs1 ++ rs2) w3.
  Proof. induction 1; simpl; intros; auto; econstructor; eauto. Qed.

  Lemma search_batches gs : forall r : run (list H),
    exists rs w,
      answered search k (r_world r) (concat gs) rs w /\ length rs = length (concat gs) /\
      forM gs (search_batch b search k) r
      = (Ok tt, MkRun (MkStats (s_total (r_stats r)) (s_processed (r_stats r) + length (concat gs))
                               (s_failed (r_stats r) + missing rs))
                      (r_out r ++ map or_empty rs) w).
  Proof.
    induction gs as [|g gs IH]; intros r.
    - exists [], (r_world r). split; [constructor|]. split; [reflexivity|].
      destruct r as [[t p f] o w]. simpl. now rewrite !Nat.add_0_r, app_nil_r.
    - cbn [forM concat]. unfold bind at 1, search_batch at 1, bind at 1.
      destruct (search_each_runs g r) as (rs1 & w1 & Ha1 & Hl1 & Hs1). rewrite Hs1.
      unfold bind at 1, modify at 1. unfold bind at 1, modify at 1. rewrite (report_quiet b Hq).
      match goal with |- context [forM gs _ ?x] => destruct (IH x) as (rs2 & w2 & Ha2 & Hl2 & Hs2) end.
      rewrite Hs2. exists (rs1 ++ rs2), w2.
      split; [eapply answered_app; eauto|]. split; [rewrite !app_length; lia|].
      destruct r as [[t p f] o w]. simpl. unfold missing.
      rewrite !app_length, filter_app, app_length, map_app, <- !app_assoc, <- !Nat.add_assoc. reflexivity.
  Qed.
End Search.

(** [BatchManager.batch_search] gives one result per query, in query order, each what a single
    search gives at that moment, and the empty list where the search raised; the batch size does
    not matter.  The failed count is the number of failed searches, the processed count the
    number of all queries.  Partial: positive size, callbacks that return. *)
Theorem C69_batch_search_partial :
  forall (W V O H : Type) (b : manager W V O) (search : V -> Z -> M W (list H))
         (queries : list V) (k : Z) (r : run (list H)),
    quiet b -> (0 < b_size b)%Z ->
    exists rs w st,
      answered search k (r_world r) queries rs w /\ length rs = length queries /\
      batch_search b search queries k r = (Ok (map or_empty rs), MkRun st (map or_empty rs) w) /\
      s_total st = length queries /\
      s_processed st = s_processed (r_stats r) + length queries /\
      s_failed st = s_failed (r_stats r) + missing rs.
Proof.
  intros W V O H b search queries k r Hq Hs. set (s := Z.to_nat (b_size b)).
  assert (Hs' : 0 < s) by (subst s; lia).
  assert (Hc : concat (pieces s queries) = queries)
    by now apply (consecutive_concat s), pieces_consecutive.
  destruct (search_batches b search k Hq (pieces s queries) (start (length queries) r))
    as (rs & w & Ha & Hl & Hf).
  rewrite Hc in *. exists rs, w. eexists. split; [exact Ha|]. split; [exact Hl|].
  split; [|split; [|split]].
  - unfold batch_search. rewrite range_pos by auto. fold s.
    assert (E : forall x, forM (map (fun k0 => k0 * s) (seq 0 ((length queries + s - 1) / s)))
                       (fun i => search_batch b search k (batch_of (b_size b) queries i)) x
                = forM (pieces s queries) (search_batch b search k) x).
    { intros x. unfold pieces, batch_of. fold s. rewrite forM_map.
      rewrite (forM_map (fun k0 => firstn s (skipn (k0 * s) queries))). reflexivity. }
    unfold bind at 1, modify. unfold bind at 1, lift. unfold bind at 1.
    rewrite E, Hf. reflexivity.
  - reflexivity.
  - reflexivity.
  - reflexivity.
Qed.

(** When searching leaves the world as it is, every answer is that of a single search in the
    world the call found. *)
Theorem C69_same_as_single_partial :
  forall (W V O H : Type) (b : manager W V O) (search : V -> Z -> M W (list H))
         (queries : list V) (k : Z) (r : run (list H)),
    quiet b -> (0 < b_size b)%Z -> (forall q w, snd (search q k w) = w) ->
    exists st,
      batch_search b search queries k r
      = (Ok (map (fun q => match fst (search q k (r_world r)) with Ok l => l | Raise _ => [] end) queries),
         MkRun st (map (fun q => match fst (search q k (r_world r)) with Ok l => l | Raise _ => [] end) queries)
               (r_world r)).
Proof.
  intros W V O H b search queries k r Hq Hs Hro.
  destruct (C69_batch_search_partial W V O H b search queries k r Hq Hs)
    as (rs & w & st & Ha & _ & E & _).
  exists st. rewrite E.
  assert (map or_empty rs
          = map (fun q => match fst (search q k (r_world r)) with Ok l => l | Raise _ => [] end) queries
          /\ w = r_world r) as [-> ->]; auto.
  clear -Ha Hro. induction Ha as [|w w1 w2 q qs l rs E Ha IH|w w1 w2 q qs e rs E Ha IH]; auto;
    pose proof (Hro q w) as R; rewrite E in R; simpl in R; subst w1; destruct IH as [IH ->];
    simpl; rewrite E, IH; auto.
Qed.

(** A negative batch size answers no query at all. *)
Theorem C69_negative_size_refuted :
  exists (b : manager (list Z) Z Z) (search : Z -> Z -> M (list Z) (list Z)) queries k r r',
    quiet b /\ batch_search b search queries k r = (Ok [], r') /\ queries <> [].
Proof.
  exists (toy_manager (-1)), (fun q _ w => (Ok [q], w)), [1; 2]%Z, 1%Z, (MkRun no_stats [] []),
    (MkRun (MkStats 2 0 0) [] []).
  split; [split; discriminate|]. split; [vm_compute; reflexivity|discriminate].
Qed.

(** The function of the same name in helpers.py: for a positive batch size, all answers in order
    when every search succeeds, and otherwise the exception of the first search that fails. *)
Inductive first_failure {W V H} (search : V -> Z -> M W (list H)) (k : Z)
  : W -> list V -> exn -> W -> Prop :=
| fails_here w q qs e w' : search q k w = (Raise e, w') -> first_failure search k w (q :: qs) e w'
| fails_later w q qs l w1 e w' :
    search q k w = (Ok l, w1) -> first_failure search k w1 qs e w' ->
    first_failure search k w (q :: qs) e w'.

Theorem C69_helper :
  forall (W V H : Type) (search : V -> Z -> M W (list H)) (size : Z) (queries : list V) (k : Z) (w : W),
    (0 < size)%Z ->
    (exists ls w', help_search search size queries k w = (Ok ls, w') /\
                   answered search k w queries (map Some ls) w') \/
    (exists e w', help_search search size queries k w = (Raise e, w') /\
                  first_failure search k w queries e w').
Proof.
  intros W V H search size queries k w Hs. set (s := Z.to_nat size).
  assert (Hs' : 0 < s) by (subst s; lia).
  assert (Hc : concat (pieces s queries) = queries)
    by now apply (consecutive_concat s), pieces_consecutive.
  assert (One : forall qs u,
    (exists ls u', help_batch search k qs u = (Ok ls, u') /\ answered search k u qs (map Some ls) u') \/
    (exists e u', help_batch search k qs u = (Raise e, u') /\ first_failure search k u qs e u')).
  { unfold help_batch. induction qs as [|q qs IH]; intros u.
    - left. exists [], u. split; [reflexivity|constructor].
    - simpl. unfold bind. destruct (search q k u) as [[l|e] u1] eqn:E.
      + destruct (IH u1) as [(ls & u' & -> & Ha)|(e & u' & -> & Hf)].
        * left. exists (l :: ls), u'. split; [reflexivity|]. simpl. econstructor; eauto.
        * right. exists e, u'. split; [reflexivity|]. eapply fails_later; eauto.
      + right. exists e, u1. split; [reflexivity|]. now apply fails_here. }
  assert (App : forall qs1 qs2 u e u', first_failure search k u qs1 e u' ->
                  first_failure search k u (qs1 ++ qs2) e u').
  { intros qs1 qs2 u e u'. induction 1; simpl; [now apply fails_here|eapply fails_later; eauto]. }
  assert (Later : forall qs1 rs u u1, answered search k u qs1 (map Some rs) u1 ->
            forall qs2 e u', first_failure search k u1 qs2 e u' ->
            first_failure search k u (qs1 ++ qs2) e u').
  { intros qs1 rs u u1 Ha. remember (map Some rs) as ms eqn:Em. revert rs Em.
    induction Ha; intros rs0 Em qs2 e0 u' Hf; simpl; auto.
    - destruct rs0 as [|l0 rs0]; [discriminate|]. injection Em as -> ->.
      eapply fails_later; eauto.
    - destruct rs0; discriminate. }
  assert (All : forall gs u,
    (exists lss u', mapM gs (help_batch search k) u = (Ok lss, u') /\
                    answered search k u (concat gs) (map Some (concat lss)) u') \/
    (exists e u', mapM gs (help_batch search k) u = (Raise e, u') /\
                  first_failure search k u (concat gs) e u')).
  { induction gs as [|g gs IH]; intros u.
    - left. exists [], u. split; [reflexivity|constructor].
    - simpl. unfold bind. destruct (One g u) as [(ls & u1 & -> & Ha)|(e & u1 & -> & Hf)].
      + destruct (IH u1) as [(lss & u' & -> & Ha2)|(e & u' & -> & Hf)].
        * left. exists (ls :: lss), u'. split; [reflexivity|]. simpl. rewrite map_app.
          eapply answered_app; eauto.
        * right. exists e, u'. split; [reflexivity|]. eapply Later; eauto.
      + right. exists e, u1. split; [reflexivity|]. now apply App. }
  unfold help_search. rewrite range_pos by auto. fold s.
  assert (E : mapM (map (fun k0 => k0 * s) (seq 0 ((length queries + s - 1) / s)))
                   (fun i => help_batch search k (batch_of size queries i)) w
              = mapM (pieces s queries) (help_batch search k) w).
  { unfold pieces, batch_of. fold s. generalize (seq 0 ((length queries + s - 1) / s)). intros l.
    revert w. induction l as [|i l IH]; intros u; simpl; [reflexivity|].
    unfold bind. destruct (help_batch search k (firstn s (skipn (i * s) queries)) u) as [[a|e] u1]; [|reflexivity].
    now rewrite IH. }
  unfold bind at 1, lift. unfold bind. rewrite E.
  destruct (All (pieces s queries) w) as [(lss & w' & -> & Ha)|(e & w' & -> & Hf)]; rewrite Hc in *.
  - left. exists (concat lss), w'. split; [reflexivity|exact Ha].
  - right. eauto.
Qed.

(** So one query that cannot be answered costs the answers of all the others. *)
Theorem C69_helper_refuted :
  exists (search : Z -> Z -> M (list Z) (list Z)) (size : Z) queries k w e w' q l,
    (0 < size)%Z /\ help_search search size queries k w = (Raise e, w') /\
    In q queries /\ search q k w = (Ok l, w).
Proof.
  exists (fun q _ w => if Z.eqb q 13 then (Raise EIndex, w) else (Ok [q], w)), 2%Z, [1; 2; 13; 4]%Z,
    3%Z, [], EIndex, [], 1%Z, [1]%Z.
  split; [reflexivity|]. split; [vm_compute; reflexivity|]. split; [simpl; auto|reflexivity].
Qed.

(** Five queries in batches of two, the third search fails. *)
Example C69_case :
  let search := fun (q _ : Z) (w : list Z) => if Z.eqb q 13 then (Raise EIndex, w) else (Ok [q], w) in
  quiet (toy_manager 2) /\ (forall q w, snd (search q 1%Z w) = w) /\
  batch_search (toy_manager 2) search [1; 2; 13; 4; 5]%Z 1%Z (MkRun no_stats [] [])
  = (Ok [[1]; [2]; []; [4]; [5]]%Z, MkRun (MkStats 5 5 1) [[1]; [2]; []; [4]; [5]]%Z []) /\
  help_search search 2 [1; 2; 4; 5]%Z 1%Z [] = (Ok [[1]; [2]; [4]; [5]]%Z, []).
Proof.
  split; [split; discriminate|]. split; [intros q w; simpl; destruct (Z.eqb q 13); reflexivity|].
  split; vm_compute; reflexivity.
Qed.

Print Assumptions C67_batches_partial.
Print Assumptions C67_ids_aligned.
Print Assumptions C67_one_insertion.
Print Assumptions C67_flat_one_insertion.
Print Assumptions C67_negative_size_refuted.
Print Assumptions C67_raising_callback_refuted.
Print Assumptions C67_not_reset_refuted.
Print Assumptions C68_parallel_partial.
Print Assumptions C68_raising_callback_refuted.
Print Assumptions C69_batch_search_partial.
Print Assumptions C69_same_as_single_partial.
Print Assumptions C69_negative_size_refuted.
Print Assumptions C69_helper.
Print Assumptions C69_helper_refuted.
