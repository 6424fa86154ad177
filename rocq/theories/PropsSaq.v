(** Properties of the segmentation and bit allocation of SAQ: C50, C51, C83, C85. *)

From Coq Require Import List Arith ZArith Lia Bool Reals Lra.
From Verif Require Import PyBase PyMore BaseLemmas Num RealNum XReal ScalarModel ProductModel SaqModel.
Import ListNotations.
Open Scope R_scope.

(** ** Specification *)

(** Consecutive non-empty intervals from [a] to [b]. *)
Fixpoint tiles (a : nat) (segs : list (nat * nat)) (b : nat) : Prop :=
  match segs with
  | [] => a = b
  | (s, e) :: segs' => s = a /\ (s < e)%nat /\ tiles e segs' b
  end.

Fixpoint zsum (l : list Z) : Z := match l with [] => 0%Z | x :: l' => (x + zsum l')%Z end.

Fixpoint rsum (l : list R) : R := match l with [] => 0 | x :: l' => x + rsum l' end.

(** One dimension per segment, the last segment taking the rest. *)
Definition one_each (n dim : nat) : list (nat * nat) :=
  map (fun i => (i, S i)) (seq 0 (n - 1)) ++ [((n - 1)%nat, dim)].

(** ** Lemmas *)

Lemma tiles_app a l : forall c m b, tiles a l c -> tiles c m b -> tiles a (l ++ m) b.
Proof.
  revert a. induction l as [|[s e] l IH]; intros a c m b H1 H2; simpl in *; [now subst|].
  destruct H1 as (-> & Hlt & H1). split; auto. split; auto. now apply IH with c.
Qed.

Lemma reconstruct_acc backs : forall pos acc, reconstruct backs pos acc = reconstruct backs pos [] ++ acc.
Proof.
  induction backs as [|back backs IH]; intros pos acc; simpl; auto.
  rewrite (IH _ [_]), (IH _ (_ :: acc)), <- app_assoc. reflexivity.
Qed.

Section Rounded.
  Context (rnd : R -> R).

  Definition finite (x : xr) : Prop := exists r, x = Fin r.

  Lemma explained_length vs ev : explained rnd vs = Ok ev -> length ev = length vs /\ vs <> [].
  Proof.
    unfold explained. destruct (xeq0 _) eqn:E.
    - destruct vs; [discriminate|]. intros E1; injection E1 as <-. split; [apply (repeat_length _ (S _))|discriminate].
    - intros [= <-]. rewrite map_length. split; auto. intros ->. cbn in E.
      destruct (Req_EM_T 0 0); [discriminate|]. now apply n.
  Qed.

  Lemma cumsum_from_length l : forall acc, length (cumsum_from rnd acc l) = length l.
  Proof. induction l as [|x l IH]; intros acc; simpl; auto. Qed.

  Lemma cumsum_length l : length (cumsum rnd l) = length l.
  Proof. destruct l; simpl; auto. now rewrite cumsum_from_length. Qed.

  Lemma cumsum_from_finite l : Forall finite l -> forall acc, finite acc -> Forall finite (cumsum_from rnd acc l).
  Proof.
    induction 1 as [|x l [r ->] _ IH]; intros acc [a ->]; cbn; constructor; [eexists; reflexivity|].
    apply IH. eexists; reflexivity.
  Qed.

  Lemma cumsum_finite l : Forall finite l -> Forall finite (cumsum rnd l).
  Proof. destruct 1 as [|x l Hx Hl]; simpl; constructor; auto. now apply cumsum_from_finite. Qed.

  Lemma fold_finite l : Forall finite l -> forall a, finite a -> finite (fold_left (xadd rnd) l a).
  Proof.
    induction 1 as [|x l [r ->] _ IH]; intros a [b ->]; simpl; [eexists; reflexivity|].
    apply IH. eexists; reflexivity.
  Qed.

  Lemma fold_not_finite l : forall a, ~ finite a \/ ~ Forall finite l -> ~ finite (fold_left (xadd rnd) l a).
  Proof.
    induction l as [|x l IH]; intros a H; cbn [fold_left].
    - destruct H as [H|H]; [exact H|destruct H; constructor].
    - apply IH. destruct a as [a| | |]; destruct x as [x| | |];
        try (left; intros [r E]; cbn in E; discriminate).
      right. destruct H as [H|H].
      + destruct H. eexists; reflexivity.
      + intros Hl. apply H. constructor; auto. eexists; reflexivity.
  Qed.

  Lemma explained_finite vs ev : Forall finite vs -> explained rnd vs = Ok ev -> Forall finite ev.
  Proof.
    intros Hv. unfold explained.
    destruct (fold_finite vs Hv (Fin 0)) as [t Et]; [eexists; reflexivity|]. unfold xsum. rewrite Et.
    unfold xeq0. destruct (Req_EM_T t 0) as [E0|E0].
    - destruct vs as [|v0 vs0]; [discriminate|]. intros E1; injection E1 as <-. apply Forall_forall. intros x Hx.
      apply (repeat_spec (S _)) in Hx. rewrite Hx. eexists; reflexivity.
    - intros [= <-]. apply Forall_map. apply Forall_impl with (2 := Hv). intros x [r ->].
      unfold xdiv. destruct (Req_EM_T t 0); [contradiction|]. eexists; reflexivity.
  Qed.

  Lemma cumsum_from_NaN l : forall acc, acc = NaN \/ In NaN l -> last (acc :: cumsum_from rnd acc l) NaN = NaN.
  Proof.
    induction l as [|x l IH]; intros acc H; cbn [cumsum_from].
    - destruct H as [->|[]]. reflexivity.
    - change (last (xadd rnd acc x :: cumsum_from rnd (xadd rnd acc x) l) NaN = NaN). apply IH.
      destruct H as [->|[->|H]]; auto; left; destruct acc; reflexivity.
  Qed.

  Lemma explained_NaN vs ev : ~ Forall finite vs -> explained rnd vs = Ok ev -> In NaN ev.
  Proof.
    intros Hv. unfold explained, xsum. pose proof (fold_not_finite vs (Fin 0) (or_intror Hv)) as Ht.
    destruct (fold_left (xadd rnd) vs (Fin 0)) as [t| | |]; [destruct Ht; eexists; reflexivity|..];
      cbn [xeq0]; intros [= <-].
    all: assert (exists x, In x vs /\ ~ finite x) as (x & Hx & Hf) by
      (clear -Hv; induction vs as [|y vs IH]; [destruct Hv; constructor|];
       destruct y as [y| | |]; [|exists PInf|exists NInf|exists NaN];
       [destruct IH as (x & H1 & H2);
         [intros Hl; apply Hv; constructor; auto; eexists; reflexivity|exists x; split; auto; now right]
       |split; [now left|intros [r E]; discriminate]..]).
    all: apply in_map_iff; exists x; split; auto;
      destruct x as [x| | |]; try reflexivity; destruct Hf; eexists; reflexivity.
  Qed.

  Lemma cum_last vs ev : ~ Forall finite vs -> explained rnd vs = Ok ev -> last (cumsum rnd ev) NaN = NaN.
  Proof.
    intros Hv He. apply (explained_NaN vs ev Hv) in He. destruct ev as [|x ev]; [reflexivity|].
    apply cumsum_from_NaN. destruct He; auto.
  Qed.

  Lemma last_nth {A} (l : list A) d : last l d = nth (length l - 1) l d.
  Proof.
    induction l as [|x l IH]; auto. destruct l as [|y l]; auto.
    change (last (x :: y :: l) d) with (last (y :: l) d). rewrite IH. simpl. now rewrite Nat.sub_0_r.
  Qed.

  Lemma dp_len cum dim n : length (fst (dp_rows rnd cum dim n)) = (dim + 1)%nat.
  Proof.
    destruct n; cbn [dp_rows].
    - cbn. rewrite repeat_length. lia.
    - destruct (dp_rows rnd cum dim n). cbn. unfold dp_row. now rewrite !map_length, seq_length.
  Qed.

  Lemma nth_row {B} (f : xr * nat -> B) cum prev dim seg e d : (e <= dim)%nat ->
    nth e (map f (dp_row rnd cum prev dim seg)) d = f (dp_cell rnd cum prev seg e).
  Proof.
    intros He. unfold dp_row. rewrite map_map.
    erewrite nth_indep with (d' := f (dp_cell rnd cum prev seg (dim + 5))) by (rewrite map_length, seq_length; lia).
    rewrite (map_nth (fun i => f (dp_cell rnd cum prev seg i))), seq_nth by lia. reflexivity.
  Qed.

  Lemma dp_S cum dim n : dp_rows rnd cum dim (S n) =
    (map fst (dp_row rnd cum (fst (dp_rows rnd cum dim n)) dim (S n)),
     map snd (dp_row rnd cum (fst (dp_rows rnd cum dim n)) dim (S n)) :: snd (dp_rows rnd cum dim n)).
  Proof. cbn [dp_rows]. destruct (dp_rows rnd cum dim n). reflexivity. Qed.

  Section Finite.
    Context (cum : list xr) (dim : nat).
    Hypothesis Hcum : Forall finite cum.
    Hypothesis Hlen : length cum = dim.

    Lemma cum_to_finite i : (1 <= i <= dim)%nat -> finite (cum_to cum i).
    Proof.
      intros Hi. unfold cum_to. destruct (Nat.eqb_spec i 0); [lia|].
      rewrite Forall_forall in Hcum. apply Hcum, nth_In. lia.
    Qed.

    Lemma seg_variance_finite s e : (s < e <= dim)%nat -> finite (seg_variance rnd cum s e).
    Proof.
      intros Hi. unfold seg_variance. destruct (cum_to_finite e) as [x Ex]; [lia|].
      destruct (Nat.eqb_spec s 0); [eexists; eassumption|].
      destruct (cum_to_finite s) as [y Ey]; [lia|]. rewrite Ex, Ey. eexists; reflexivity.
    Qed.

    (** Row [n] of the table: finite where [n] segments fit. *)
    Definition row_ok (n : nat) (row : list xr) : Prop :=
      forall e, (e <= dim)%nat ->
        match n with
        | O => if Nat.eqb e 0 then finite (nth e row PInf) else nth e row PInf = PInf
        | _ => (n <= e)%nat -> finite (nth e row PInf)
        end.

    (** The start of the last of [S n] segments is one where [n] segments can end. *)
    Definition ends (n s : nat) : Prop := (n <= s)%nat /\ (n = 0%nat -> s = 0%nat).

    Lemma relax_finite n prev stop cell start : row_ok n prev -> (n <= start < stop)%nat -> (stop <= dim)%nat ->
      finite (fst cell) -> ends n (snd cell) -> (snd cell < stop)%nat ->
      let c := relax rnd cum prev stop cell start in
      finite (fst c) /\ ends n (snd c) /\ (snd c < stop)%nat.
    Proof.
      intros Hrow Hs Hd [r Er] Hc Hb. cbn zeta. unfold relax.
      destruct (seg_variance_finite start stop) as [v Ev]; [lia|]. rewrite Ev.
      destruct (xltb _ _) eqn:E; [|repeat split; auto; try apply Hc; eexists; eassumption].
      specialize (Hrow start ltac:(lia)). destruct n as [|n].
      - destruct (Nat.eqb_spec start 0) as [E0|Hn].
        + destruct Hrow as [p Ep]. rewrite Ep. cbn. repeat split; auto; try lia. eexists; reflexivity.
        + rewrite Hrow, Er in E. cbn in E. discriminate.
      - destruct Hrow as [p Ep]; [lia|]. rewrite Ep. cbn. repeat split; auto; try lia. eexists; reflexivity.
    Qed.

    Lemma fold_relax n prev stop l : row_ok n prev -> (stop <= dim)%nat -> Forall (fun s => (n <= s < stop)%nat) l ->
      forall cell, finite (fst cell) -> ends n (snd cell) -> (snd cell < stop)%nat ->
      let c := fold_left (relax rnd cum prev stop) l cell in
      finite (fst c) /\ ends n (snd c) /\ (snd c < stop)%nat.
    Proof.
      intros Hrow Hd Hl. induction Hl as [|s l Hs Hl IH]; intros cell H1 H2 H3; cbn [fold_left]; auto.
      destruct (relax_finite n prev stop cell s) as (K1 & K2 & K3); auto.
    Qed.

    Lemma cell_finite n prev stop : row_ok n prev -> (S n <= stop <= dim)%nat ->
      let c := dp_cell rnd cum prev (S n) stop in
      finite (fst c) /\ ends n (snd c) /\ (snd c < stop)%nat.
    Proof.
      intros Hrow Hs. cbn zeta. unfold dp_cell. destruct (Nat.ltb_spec stop (S n)); [lia|].
      replace (S n - 1)%nat with n by lia. replace (stop - n)%nat with (S (stop - n - 1)) by lia.
      cbn [seq fold_left]. apply fold_relax; auto; try lia.
      - apply Forall_forall. intros s Hin. apply in_seq in Hin. lia.
      - unfold relax. destruct (seg_variance_finite n stop) as [v ->]; [lia|].
        specialize (Hrow n ltac:(lia)).
        assert (finite (nth n prev PInf)) as [p ->] by (destruct n; auto). cbn. eexists; reflexivity.
      - unfold relax. destruct (seg_variance_finite n stop) as [v ->]; [lia|].
        specialize (Hrow n ltac:(lia)).
        assert (finite (nth n prev PInf)) as [p ->] by (destruct n; auto). cbn. split; lia.
      - unfold relax. destruct (seg_variance_finite n stop) as [v ->]; [lia|].
        specialize (Hrow n ltac:(lia)).
        assert (finite (nth n prev PInf)) as [p ->] by (destruct n; auto). cbn. lia.
    Qed.

    Lemma rows_ok n : row_ok n (fst (dp_rows rnd cum dim n)).
    Proof.
      induction n as [|n IH]; intros e He.
      - cbn [dp_rows fst]. destruct (Nat.eqb_spec e 0) as [->|Hn]; [eexists; reflexivity|].
        destruct e; [lia|]. cbn [nth]. apply nth_repeat.
      - intros Hn. rewrite dp_S. cbn [fst]. rewrite nth_row by auto. apply cell_finite; auto.
    Qed.

    Lemma reconstruct_tiles n : forall pos, (n <= pos <= dim)%nat -> (n = 0%nat -> pos = 0%nat) ->
      tiles 0 (reconstruct (snd (dp_rows rnd cum dim n)) pos []) pos /\
      length (reconstruct (snd (dp_rows rnd cum dim n)) pos []) = n.
    Proof.
      induction n as [|n IH]; intros pos Hp H0.
      - cbn. split; auto. symmetry. auto.
      - rewrite dp_S. cbn [snd reconstruct]. rewrite reconstruct_acc, nth_row by lia.
        destruct (cell_finite n (fst (dp_rows rnd cum dim n)) pos) as (_ & [H1 H2] & H3); [apply rows_ok|lia|].
        destruct (IH (snd (dp_cell rnd cum (fst (dp_rows rnd cum dim n)) (S n) pos))) as [K1 K2]; [lia|auto|].
        split; [|rewrite app_length, K2; simpl; lia].
        eapply tiles_app; [exact K1|]. simpl. auto.
    Qed.
  End Finite.

  Section NotANumber.
    Context (cum : list xr) (dim : nat).
    Hypothesis Hcum : last cum NaN = NaN.
    Hypothesis Hlen : length cum = dim.

    Lemma cum_end : cum_to cum dim = NaN.
    Proof. unfold cum_to. destruct (Nat.eqb_spec dim 0); auto. now rewrite <- Hlen, <- last_nth. Qed.

    Lemma cell_NaN prev seg : snd (dp_cell rnd cum prev seg dim) = 0%nat.
    Proof.
      unfold dp_cell. destruct (Nat.ltb dim seg); auto.
      set (c := (PInf, 0%nat)). assert (Hc : snd c = 0%nat) by reflexivity. clearbody c. revert c Hc.
      induction (seq (seg - 1) (dim - (seg - 1))) as [|s l IH]; intros c Hc; cbn [fold_left]; auto.
      apply IH. unfold relax, seg_variance. rewrite cum_end.
      destruct (Nat.eqb s 0); cbn; destruct (nth s prev PInf); cbn; auto.
    Qed.

    Lemma reconstruct_zero n : reconstruct (snd (dp_rows rnd cum dim n)) 0 [] = repeat (0%nat, 0%nat) n.
    Proof.
      induction n as [|n IH]; auto. rewrite dp_S. cbn [snd reconstruct].
      rewrite reconstruct_acc, nth_row by lia. unfold dp_cell. cbn [Nat.ltb Nat.leb snd]. rewrite IH.
      symmetry. apply repeat_cons.
    Qed.

    Lemma reconstruct_NaN n : reconstruct (snd (dp_rows rnd cum dim (S n))) dim [] = repeat (0%nat, 0%nat) n ++ [(0%nat, dim)].
    Proof.
      rewrite dp_S. cbn [snd reconstruct]. rewrite reconstruct_acc, nth_row by lia.
      now rewrite cell_NaN, reconstruct_zero.
    Qed.
  End NotANumber.

  Lemma allocate_more tb rem total v w vars : allocate rnd tb rem total (v :: w :: vars) =
    rbind (int_of (xmul rnd (Fin (IZR tb)) (xdiv rnd v total))) (fun z =>
    rbind (allocate rnd tb (rem - Z.max 1 z) total (w :: vars)) (fun rest => Ok (Z.max 1 z :: rest))).
  Proof. reflexivity. Qed.

  Lemma allocate_sum tb total vars : forall rem bits, allocate rnd tb rem total vars = Ok bits ->
    length bits = length vars /\ (vars <> [] -> zsum bits = rem) /\ Forall (fun b => (1 <= b)%Z) (removelast bits).
  Proof.
    induction vars as [|v vars IH]; intros rem bits E.
    - injection E as <-. repeat split; auto. congruence. constructor.
    - destruct vars as [|w vars].
      + injection E as <-. simpl. repeat split; auto. intros _. lia.
      + rewrite allocate_more in E. remember (w :: vars) as ws.
        destruct (int_of _) as [z|]; [|discriminate]. cbn [rbind] in E.
        destruct (allocate rnd tb _ total ws) as [rest|] eqn:Er; [|discriminate]. injection E as <-.
        destruct (IH _ _ Er) as (H1 & H2 & H3). cbn [length zsum]. split; [now rewrite H1|].
        split; [intros _; rewrite H2 by (subst; discriminate); lia|].
        cbn [removelast]. destruct rest; [subst; discriminate|]. constructor; auto. lia.
  Qed.
End Rounded.

Lemma finite_dec l : Forall finite l \/ ~ Forall finite l.
Proof.
  induction l as [|x l [IH|IH]]; [left; constructor|..].
  - destruct x as [r| | |]; [left; constructor; auto; eexists; reflexivity|..];
      right; intros K; inversion K as [|? ? [r E]]; discriminate.
  - right. intros K. now inversion K.
Qed.

Lemma allocate_NaN rnd cum tb rem total m dim bits : last cum NaN = NaN ->
  allocate rnd tb rem total
    (map (fun b => seg_variance rnd cum (fst b) (snd b)) (repeat (0%nat, 0%nat) (S m) ++ [(0%nat, dim)])) = Ok bits -> False.
Proof.
  intros HN. cbn [repeat app map fst snd]. replace (seg_variance rnd cum 0 0) with NaN by (symmetry; exact HN).
  destruct (map _ (repeat _ m ++ _)) as [|w ws] eqn:E; [destruct m; discriminate|].
  rewrite allocate_more. cbn. discriminate.
Qed.

(** ** C50 *)

(** Whatever the variances (NaN and infinities included) and however arithmetic rounds: when
    segmentation succeeds, the segments are non-empty, consecutive, cover exactly the dimensions, and
    number [n_segments], or the dimension when that is smaller. *)
Theorem C50_segments_tile rnd total_bits n variance bounds bits :
  (1 <= n)%nat -> saq_segments rnd total_bits n variance = Ok (bounds, bits) ->
  tiles 0 bounds (length variance) /\ length bounds = Nat.min n (length variance) /\ length bits = length bounds.
Proof.
  intros Hn E. unfold saq_segments in E.
  destruct (explained rnd variance) as [ev|] eqn:Ev; [|discriminate]. cbn [rbind] in E.
  destruct (explained_length rnd _ _ Ev) as [Hl Hne].
  assert (Hd : (1 <= length variance)%nat) by (destruct variance; simpl; [congruence|lia]).
  assert (Hc : length (cumsum rnd ev) = length variance) by (rewrite cumsum_length; auto).
  replace (if Nat.ltb (length variance) n then length variance else n) with (Nat.min n (length variance)) in E
    by (destruct (Nat.ltb_spec (length variance) n); lia).
  set (m := Nat.min n (length variance)) in *. assert (Hm : (1 <= m <= length variance)%nat) by lia.
  match type of E with rbind ?a _ = _ => destruct a as [bs|] eqn:Ea; [|discriminate] end.
  injection E as Eb <-. subst bounds.
  pose proof (allocate_sum rnd _ _ _ _ _ Ea) as [Hlb _]. rewrite map_length in Hlb.
  split; [|split; auto].
  all: destruct (finite_dec variance) as [Hf|Hf].
  1, 3: apply reconstruct_tiles; auto; try lia; apply cumsum_finite; eapply explained_finite; eassumption.
  all: pose proof (cum_last rnd _ _ Hf Ev) as HN.
  all: destruct m as [|m]; [lia|]; rewrite (reconstruct_NaN rnd _ _ HN Hc) in *.
  all: destruct m as [|m]; [simpl; auto; lia|exfalso].
  all: apply (allocate_NaN rnd (cumsum rnd ev)) in Ea; auto.
Qed.

(** ** Exact arithmetic *)

Definition ex (x : R) : R := x.

(** The variance of the first [i] dimensions. *)
Definition upto (ws : list R) (i : nat) : R := rsum (firstn i ws).

Lemma rsum_app l m : rsum (l ++ m) = rsum l + rsum m.
Proof. induction l as [|x l IH]; simpl; [lra|]. rewrite IH. lra. Qed.

Lemma fold_exact l : forall a, fold_left (xadd ex) (map Fin l) (Fin a) = Fin (a + rsum l).
Proof.
  induction l as [|x l IH]; intros a; simpl; [f_equal; lra|]. unfold ex at 2. rewrite IH. f_equal. lra.
Qed.

Lemma xsum_exact l : xsum ex (map Fin l) = Fin (rsum l).
Proof. unfold xsum. rewrite fold_exact. f_equal. lra. Qed.

Lemma rsum_scale k l : rsum (map (fun v => v / k) l) = rsum l / k.
Proof. induction l as [|x l IH]; simpl; [unfold Rdiv; lra|]. rewrite IH. unfold Rdiv. lra. Qed.

Lemma rsum_repeat x n : rsum (repeat x n) = INR n * x.
Proof. induction n as [|n IH]; [simpl; lra|]. rewrite S_INR. simpl. rewrite IH. lra. Qed.

Lemma map_repeat' {A B} (f : A -> B) x n : map f (repeat x n) = repeat (f x) n.
Proof. induction n as [|n IH]; simpl; auto. now rewrite IH. Qed.

Lemma explained_exact vs : vs <> [] -> exists ws, explained ex (map Fin vs) = Ok (map Fin ws) /\
  length ws = length vs /\ rsum ws = 1 /\ (rsum vs <> 0 -> ws = map (fun v => v / rsum vs) vs).
Proof.
  intros Hne. unfold explained. rewrite xsum_exact. unfold xeq0. rewrite map_length.
  assert (Hn : INR (length vs) <> 0) by (apply not_0_INR; destruct vs; [congruence|discriminate]).
  destruct (Req_EM_T (rsum vs) 0) as [E|E].
  - exists (repeat (1 / INR (length vs)) (length vs)). rewrite map_repeat', repeat_length, rsum_repeat.
    split; [destruct vs; [congruence|reflexivity]|]. split; auto. split; [field; auto|]. intros K. now destruct K.
  - exists (map (fun v => v / rsum vs) vs). rewrite !map_map, map_length, rsum_scale.
    split; [|split; [auto|split; [field; auto|auto]]]. f_equal. apply map_ext. intros v. unfold xdiv.
    destruct (Req_EM_T (rsum vs) 0); [contradiction|reflexivity].
Qed.

Lemma cumsum_from_exact l : forall a i, (i < length l)%nat ->
  nth i (cumsum_from ex (Fin a) (map Fin l)) NaN = Fin (a + upto l (S i)).
Proof.
  induction l as [|x l IH]; intros a i Hi; simpl in Hi; [lia|]. cbn [map cumsum_from]. destruct i as [|i].
  - cbn. unfold ex. f_equal. lra.
  - cbn [nth xadd]. rewrite IH by lia. unfold upto, ex. cbn [firstn rsum]. f_equal. lra.
Qed.

Lemma cum_to_exact ws i : (1 <= i <= length ws)%nat -> cum_to (cumsum ex (map Fin ws)) i = Fin (upto ws i).
Proof.
  intros Hi. unfold cum_to. destruct (Nat.eqb_spec i 0); [lia|]. destruct ws as [|x ws]; simpl in Hi; [lia|].
  cbn [map cumsum]. destruct i as [|[|i]]; [lia|cbn; unfold upto; cbn; f_equal; lra|].
  replace (S (S i) - 1)%nat with (S i) by lia. cbn [nth]. rewrite cumsum_from_exact by lia. reflexivity.
Qed.

Lemma seg_variance_exact ws s e : (s < e <= length ws)%nat ->
  seg_variance ex (cumsum ex (map Fin ws)) s e = Fin (upto ws e - upto ws s).
Proof.
  intros Hi. unfold seg_variance. destruct (Nat.eqb_spec s 0) as [->|H0].
  - rewrite cum_to_exact by lia. f_equal. unfold upto. cbn. lra.
  - rewrite !cum_to_exact by lia. reflexivity.
Qed.

Section Exact.
  Context (ws : list R).
  Let cum := cumsum ex (map Fin ws).
  Let dim := length ws.

  (** Every way of cutting the first [e] dimensions in [n] costs [n - upto e]. *)
  Definition row_exact (n : nat) (row : list xr) : Prop :=
    forall e, (n <= e <= dim)%nat ->
      nth e row PInf = match n with
                       | O => if Nat.eqb e 0 then Fin 0 else PInf
                       | _ => Fin (INR n - upto ws e)
                       end.

  Lemma relax_exact n prev stop start : row_exact n prev -> (n <= start < stop)%nat -> (stop <= dim)%nat ->
    relax ex cum prev stop (Fin (INR (S n) - upto ws stop), n) start = (Fin (INR (S n) - upto ws stop), n).
  Proof.
    intros Hrow Hs Hd. unfold relax, cum. rewrite seg_variance_exact by (unfold dim in *; lia).
    rewrite Hrow by lia. destruct n as [|n].
    - destruct (Nat.eqb_spec start 0) as [->|Hn].
      + unfold upto at 2. cbn [firstn rsum xadd xsub xneg fst]. unfold ex.
        replace (0 + (1 + - (upto ws stop - 0))) with (INR 1 - upto ws stop) by (simpl; lra).
        unfold xltb. replace (xleb _ _) with true; auto. symmetry. apply xleb_spec. simpl. lra.
      + reflexivity.
    - cbn [xadd xsub xneg fst]. unfold ex.
      replace (INR (S n) - upto ws start + (1 + - (upto ws stop - upto ws start)))
        with (INR (S (S n)) - upto ws stop) by (rewrite (S_INR (S n)); lra).
      unfold xltb. replace (xleb _ _) with true; auto. symmetry. apply xleb_spec. simpl. lra.
  Qed.

  Lemma cell_exact n prev stop : row_exact n prev -> (S n <= stop <= dim)%nat ->
    dp_cell ex cum prev (S n) stop = (Fin (INR (S n) - upto ws stop), n).
  Proof.
    intros Hrow Hs. unfold dp_cell. destruct (Nat.ltb_spec stop (S n)); [lia|].
    replace (S n - 1)%nat with n by lia. replace (stop - n)%nat with (S (stop - n - 1)) by lia.
    cbn [seq fold_left].
    replace (relax ex cum prev stop (PInf, 0%nat) n) with (Fin (INR (S n) - upto ws stop), n).
    - assert (Hl : Forall (fun s => (n <= s < stop)%nat) (seq (S n) (stop - n - 1))).
      { apply Forall_forall. intros s Hin. apply in_seq in Hin. lia. }
      induction Hl as [|s l Hin Hl IH]; cbn [fold_left]; auto. rewrite relax_exact by (auto; lia). exact IH.
    - symmetry. unfold relax, cum. rewrite seg_variance_exact by (unfold dim in *; lia).
      pose proof (Hrow n ltac:(lia)) as Hn. rewrite Hn. clear Hn. destruct n as [|n].
      + cbn. unfold ex. do 2 f_equal. unfold upto. cbn. lra.
      + cbn [xadd xsub xneg fst xltb xleb negb]. unfold ex. do 2 f_equal. rewrite (S_INR (S n)). lra.
  Qed.

  Lemma rows_exact n : row_exact n (fst (dp_rows ex cum dim n)).
  Proof.
    induction n as [|n IH]; intros e He.
    - cbn [dp_rows fst]. destruct (Nat.eqb_spec e 0) as [->|Hn]; [reflexivity|].
      destruct e; [lia|]. cbn [nth]. apply nth_repeat.
    - rewrite dp_S. cbn [fst]. rewrite nth_row by lia. rewrite cell_exact by auto. reflexivity.
  Qed.

  Lemma reconstruct_exact n : forall pos, (S n <= pos <= dim)%nat ->
    reconstruct (snd (dp_rows ex cum dim (S n))) pos [] = one_each (S n) pos.
  Proof.
    induction n as [|n IH]; intros pos Hp; rewrite dp_S; cbn [snd reconstruct];
      rewrite reconstruct_acc, nth_row, cell_exact by (auto using rows_exact; lia); cbn [snd].
    - reflexivity.
    - rewrite IH by lia. unfold one_each. cbn [Nat.sub]. rewrite Nat.sub_0_r.
      rewrite (seq_S n 0), map_app, <- !app_assoc. reflexivity.
  Qed.

  Lemma tiles_variances segs : forall a b, tiles a segs b -> (b <= dim)%nat ->
    exists us, map (fun p => seg_variance ex cum (fst p) (snd p)) segs = map Fin us /\
      rsum us = upto ws b - upto ws a /\
      Forall2 (fun p u => u = upto ws (snd p) - upto ws (fst p)) segs us.
  Proof.
    induction segs as [|[s e] segs IH]; intros a b Ht Hb; simpl in Ht.
    - subst. exists []. simpl. repeat split; auto. lra.
    - destruct Ht as (-> & Hlt & Ht). destruct (IH e b Ht Hb) as (us & H1 & H2 & H3).
      assert (Heb : (e <= b)%nat).
      { clear -Ht. revert e Ht. induction segs as [|[s1 e1] segs IH]; simpl; intros e H; [lia|].
        destruct H as (-> & H & K). specialize (IH _ K). lia. }
      exists ((upto ws e - upto ws a) :: us). cbn [map fst snd]. rewrite H1. unfold cum at 1.
      rewrite seg_variance_exact by (unfold dim in *; lia). cbn [rsum]. rewrite H2.
      split; auto. split; [lra|]. constructor; auto.
  Qed.
End Exact.

Lemma tiles_one_each n dim : (1 <= n <= dim)%nat -> tiles 0 (one_each n dim) dim.
Proof.
  intros Hn. unfold one_each. apply tiles_app with (n - 1)%nat; [|simpl; lia].
  assert (H : forall k a, tiles a (map (fun i => (i, S i)) (seq a k)) (a + k)).
  { clear. induction k as [|k IH]; intros a; simpl; [lia|]. split; auto. split; [lia|].
    replace (a + S k)%nat with (S a + k)%nat by lia. apply IH. }
  apply (H (n - 1)%nat 0%nat).
Qed.

(** The bits allocated to shares [us] of the variance, exactly. *)
Lemma allocate_exact tb total us : total <> 0 -> forall rem, exists bits,
  allocate ex tb rem (Fin total) (map Fin us) = Ok bits.
Proof.
  intros Ht. induction us as [|u us IH]; intros rem; [eexists; reflexivity|].
  destruct us as [|u' us]; [eexists; reflexivity|]. cbn [map]. rewrite allocate_more.
  unfold xdiv. destruct (Req_EM_T total 0); [contradiction|]. cbn [xmul int_of rbind].
  match goal with |- context [allocate ex tb ?r] => destruct (IH r) as [bits E] end.
  cbn [map] in E. rewrite E. eexists; reflexivity.
Qed.

Lemma Int_part_le r : 0 <= r -> IZR (Int_part r) <= r.
Proof. intros _. destruct (base_Int_part r). lra. Qed.

Lemma Int_part_ge1 r : 1 <= r -> (1 <= Int_part r)%Z.
Proof.
  intros Hr. destruct (base_Int_part r) as [_ H]. apply Z.lt_succ_r, lt_IZR. rewrite succ_IZR. lra.
Qed.

Lemma allocate_enough tb us : Forall (fun u => 1 <= IZR tb * u) us -> forall rem bits,
  IZR tb * rsum us <= IZR rem -> allocate ex tb rem (Fin 1) (map Fin us) = Ok bits ->
  Forall (fun b => (1 <= b)%Z) bits.
Proof.
  induction 1 as [|u us Hu Hus IH]; intros rem bits Hrem E.
  - injection E as <-. constructor.
  - destruct us as [|u' us].
    + injection E as <-. constructor; auto. apply le_IZR. cbn in Hrem. lra.
    + cbn [map] in E. rewrite allocate_more in E. unfold xdiv in E.
      destruct (Req_EM_T 1 0) as [K|_]; [lra|]. cbn [xmul int_of rbind] in E. unfold ex in E.
      replace (IZR tb * (u / 1)) with (IZR tb * u) in E by field. unfold trunc in E.
      destruct (Rle_dec 0 (IZR tb * u)) as [Hp|Hp]; [|lra].
      pose proof (Int_part_ge1 _ Hu) as H1. rewrite Z.max_r in E by lia.
      fold ex in E. change (fun x : R => x) with ex in E.
      match type of E with rbind ?a _ = _ => destruct a as [rest|] eqn:Er; [|discriminate] end.
      injection E as <-. constructor; auto. apply (IH (rem - Int_part (IZR tb * u))%Z); auto.
      rewrite minus_IZR. pose proof (Int_part_le _ Hp). cbn [rsum] in Hrem |- *. lra.
Qed.

Lemma saq_segments_exact tb n vs : vs <> [] -> (1 <= n)%nat -> exists ws us bits,
  saq_segments ex tb n (map Fin vs) = Ok (one_each (Nat.min n (length vs)) (length vs), bits) /\
  length ws = length vs /\ (rsum vs <> 0 -> ws = map (fun v => v / rsum vs) vs) /\
  allocate ex tb tb (Fin 1) (map Fin us) = Ok bits /\ rsum us = 1 /\
  Forall2 (fun p u => u = upto ws (snd p) - upto ws (fst p)) (one_each (Nat.min n (length vs)) (length vs)) us.
Proof.
  intros Hne Hn. destruct (explained_exact vs Hne) as (ws & He & Hl & Hs & Hw).
  assert (Hd : (1 <= length vs)%nat) by (destruct vs; [congruence|simpl; lia]).
  unfold saq_segments. rewrite He. cbn [rbind]. rewrite map_length.
  replace (if Nat.ltb (length vs) n then length vs else n) with (Nat.min n (length vs))
    by (destruct (Nat.ltb_spec (length vs) n); lia).
  set (m := Nat.min n (length vs)). assert (Hm : (1 <= m <= length vs)%nat) by lia. clearbody m.
  rewrite <- Hl in *. destruct m as [|m]; [lia|]. rewrite (reconstruct_exact ws m) by lia.
  destruct (tiles_variances ws (one_each (S m) (length ws)) 0 (length ws)) as (us & H1 & H2 & H3);
    [apply tiles_one_each; lia|lia|].
  rewrite H1. assert (Hu : rsum us = 1).
  { rewrite H2. unfold upto. rewrite firstn_all, Hs. cbn. lra. }
  rewrite xsum_exact, Hu. destruct (allocate_exact tb 1 us R1_neq_R0 tb) as [bits Eb]. rewrite Eb.
  exists ws, us, bits. repeat split; auto.
Qed.

(** ** C83: the segmentation does not depend on the data *)

(** In exact arithmetic the dynamic program returns the same segments whatever the variances: one
    dimension for each segment but the last, which takes all the others. *)
Theorem C83_segments_ignore_data total_bits n vs : vs <> [] -> (1 <= n)%nat ->
  exists bits, saq_segments ex total_bits n (map Fin vs) =
               Ok (one_each (Nat.min n (length vs)) (length vs), bits).
Proof.
  intros Hne Hn. destruct (saq_segments_exact total_bits n vs Hne Hn) as (ws & us & bits & H & _). eauto.
Qed.

Example C83_nontrivial :
  exists bits bits',
    saq_segments ex 8 2 (map Fin [1; 1; 100; 100]) = Ok ([(0, 1); (1, 4)]%nat, bits) /\
    saq_segments ex 8 2 (map Fin [100; 100; 1; 1]) = Ok ([(0, 1); (1, 4)]%nat, bits').
Proof.
  destruct (C83_segments_ignore_data 8 2 [1; 1; 100; 100]) as [b Eb]; [discriminate|lia|].
  destruct (C83_segments_ignore_data 8 2 [100; 100; 1; 1]) as [b' Eb']; [discriminate|lia|].
  exists b, b'. split; assumption.
Qed.

(** The hypotheses of C50 are met. *)
Example C50_nontrivial : exists bits,
  saq_segments ex 16 3 (map Fin [1; 2; 3; 4; 5]) = Ok ([(0, 1); (1, 2); (2, 5)]%nat, bits) /\
  tiles 0 [(0, 1); (1, 2); (2, 5)]%nat 5.
Proof.
  destruct (C83_segments_ignore_data 16 3 [1; 2; 3; 4; 5]) as [b Eb]; [discriminate|lia|].
  exists b. split; [exact Eb|]. assert (Hn : (1 <= 3)%nat) by lia.
  exact (proj1 (C50_segments_tile _ _ _ _ _ _ Hn Eb)).
Qed.

(** ** C51 *)

Lemma upto_S ws i : (i < length ws)%nat -> upto ws (S i) = upto ws i + nth i ws 0.
Proof.
  unfold upto. revert i. induction ws as [|w ws IH]; intros [|i] Hi; simpl in Hi; try lia.
  - cbn. lra.
  - cbn [firstn rsum nth]. specialize (IH i ltac:(lia)). cbn [firstn rsum] in IH. rewrite IH. lra.
Qed.

Lemma upto_share t ws s e : 0 < t -> Forall (fun w => 1 <= t * w) ws -> (s < e <= length ws)%nat ->
  1 <= t * (upto ws e - upto ws s).
Proof.
  intros Ht Hw Hse. assert (Hk : forall k, (s + S k <= length ws)%nat -> 1 <= t * (upto ws (s + S k) - upto ws s)).
  { assert (Hi : forall i, (i < length ws)%nat -> 1 <= t * nth i ws 0).
    { intros i Hi. rewrite Forall_forall in Hw. apply Hw, nth_In, Hi. }
    induction k as [|k IH]; intros Hk.
    - rewrite Nat.add_1_r, upto_S by lia. specialize (Hi s ltac:(lia)). lra.
    - replace (s + S (S k))%nat with (S (s + S k)) by lia. rewrite upto_S by lia.
      specialize (Hi (s + S k)%nat ltac:(lia)). specialize (IH ltac:(lia)). lra. }
  replace e with (s + S (e - s - 1))%nat by lia. apply Hk. lia.
Qed.

(** The budget is spent exactly and every segment but the last has a bit, whatever the variances and
    the rounding.  Missing: the bit of the last segment. *)
Theorem C51_budget_partial rnd total_bits n variance bounds bits :
  (1 <= n)%nat -> saq_segments rnd total_bits n variance = Ok (bounds, bits) ->
  zsum bits = total_bits /\ Forall (fun b => (1 <= b)%Z) (removelast bits).
Proof.
  intros Hn E. pose proof (C50_segments_tile _ _ _ _ _ _ Hn E) as (Ht & Hl & _).
  unfold saq_segments in E. destruct (explained rnd variance) as [ev|] eqn:Ev; [|discriminate]. cbn [rbind] in E.
  match type of E with rbind ?a _ = _ => destruct a as [bs|] eqn:Ea; [|discriminate] end.
  injection E as Eb <-. destruct (allocate_sum _ _ _ _ _ _ Ea) as (_ & H1 & H2). split; auto.
  apply H1. rewrite Eb. intros K. apply map_eq_nil in K. subst bounds. rewrite K in *. cbn in Hl.
  destruct (explained_length _ _ _ Ev) as [_ Hne]. destruct variance; [congruence|]. simpl in Hl. lia.
Qed.

(** In exact arithmetic, when each dimension's share of the variance is worth a bit, every segment
    has one. *)
Theorem C51_each_a_bit_partial total_bits n vs : vs <> [] -> (1 <= n)%nat ->
  0 < rsum vs -> Forall (fun v => rsum vs <= IZR total_bits * v) vs ->
  exists bounds bits, saq_segments ex total_bits n (map Fin vs) = Ok (bounds, bits) /\
    zsum bits = total_bits /\ Forall (fun b => (1 <= b)%Z) bits.
Proof.
  intros Hne Hn Hs Hv.
  destruct (saq_segments_exact total_bits n vs Hne Hn) as (ws & us & bits & E & Hl & Hw & Ha & Hu & HF).
  exists (one_each (Nat.min n (length vs)) (length vs)), bits. split; auto. split.
  { apply (C51_budget_partial _ _ _ _ _ _ Hn E). }
  assert (Ht : 0 < IZR total_bits).
  { destruct vs as [|v vs']; [congruence|]. clear -Hs Hv. set (S := rsum (v :: vs')) in *. 
    destruct (Rle_lt_dec (IZR total_bits) 0) as [K|K]; auto. exfalso.
    assert (Hneg : Forall (fun v => v <= 0) (v :: vs')).
    { apply Forall_impl with (2 := Hv). intros x Hx. destruct (Rle_lt_dec x 0); auto. exfalso.
      pose proof (Rmult_le_compat_r x _ _ (Rlt_le _ _ r) K). lra. }
    assert (S <= 0); [|lra]. unfold S. clear -Hneg. induction Hneg; simpl; lra. }
  assert (Hws : Forall (fun w => 1 <= IZR total_bits * w) ws).
  { rewrite (Hw ltac:(lra)). apply Forall_map. apply Forall_impl with (2 := Hv). intros v Hx.
    replace (IZR total_bits * (v / rsum vs)) with (IZR total_bits * v / rsum vs) by (field; lra).
    apply Rmult_le_reg_r with (rsum vs); auto. unfold Rdiv. rewrite Rmult_assoc, Rinv_l by lra. lra. }
  apply (allocate_enough total_bits us) with (rem := total_bits); [|rewrite Hu; lra|exact Ha].
  assert (Hd : (1 <= length vs)%nat) by (destruct vs; [congruence|simpl; lia]).
  pose proof (tiles_one_each (Nat.min n (length vs)) (length vs) ltac:(lia)) as Htl.
  revert HF Htl. rewrite <- Hl. generalize (one_each (Nat.min n (length ws)) (length ws)) 0%nat. clear -Ht Hws.
  intros l a HF. revert a. induction HF as [|[s e] u l us Hp HF IH]; intros a Htl; constructor.
  - cbn in Hp, Htl. destruct Htl as (-> & Hlt & Htl). rewrite Hp. apply upto_share; auto. split; auto.
    clear -Htl. revert e Htl. generalize (length ws). intros b. induction l as [|[s1 e1] l IH]; simpl; intros e H; [lia|].
    destruct H as (-> & H & K). specialize (IH _ K). lia.
  - cbn in Htl. destruct Htl as (_ & _ & Htl). eapply IH, Htl.
Qed.

(** REFUTED: with more segments than bits, some segment has no bit, for every variance profile and
    rounding; a training that goes that far exists. *)
Theorem C51_each_a_bit_refuted :
  (forall rnd total_bits n variance bounds bits, (1 <= n)%nat ->
     (total_bits < Z.of_nat (Nat.min n (length variance)))%Z ->
     saq_segments rnd total_bits n variance = Ok (bounds, bits) -> ~ Forall (fun b => (1 <= b)%Z) bits) /\
  exists total_bits n vs bounds bits, (0 < total_bits)%Z /\ (1 <= n)%nat /\
     (total_bits < Z.of_nat (Nat.min n (length vs)))%Z /\
     saq_segments ex total_bits n (map Fin vs) = Ok (bounds, bits).
Proof.
  split.
  - intros rnd tb n variance bounds bits Hn Hlt E HF.
    destruct (C51_budget_partial _ _ _ _ _ _ Hn E) as [Hs _].
    destruct (C50_segments_tile _ _ _ _ _ _ Hn E) as (_ & Hl & Hb).
    assert (Z.of_nat (length bits) <= zsum bits)%Z by (clear -HF; induction HF; simpl length; simpl zsum; lia).
    lia.
  - destruct (C83_segments_ignore_data 4 8 (repeat 1 8)) as [b Eb]; [discriminate|lia|].
    exists 4%Z, 8%nat, (repeat 1 8), (one_each 8 8), b. rewrite repeat_length. repeat split; auto; lia.
Qed.

Example C51_nontrivial : exists bounds bits,
  saq_segments ex 8 3 (map Fin [1; 1; 1; 1]) = Ok (bounds, bits) /\
  zsum bits = 8%Z /\ Forall (fun b => (1 <= b)%Z) bits.
Proof.
  apply C51_each_a_bit_partial; [discriminate|lia|simpl; lra|]. simpl. repeat constructor; lra.
Qed.

(** ** C85: which accepted configurations can be trained *)

Lemma saq_clusters_ok b n : (0 <= b)%Z -> exists k, saq_clusters b n = Ok k.
Proof.
  intros Hb. unfold saq_clusters. destruct (30 <=? b)%Z; [eauto|].
  destruct (Z.ltb_spec b 0); [lia|eauto].
Qed.

Lemma rmap_fails {A B} (f : A -> result B) l x : In x l -> (exists e, f x = Raise e) -> exists e, rmap f l = Raise e.
Proof.
  induction l as [|y l IH]; intros Hin [e He]; simpl in Hin; [easy|]. cbn [rmap].
  destruct (f y) as [b|e'] eqn:Ey; [|exists e'; reflexivity]. destruct Hin as [->|Hin]; [congruence|].
  destruct (IH Hin) as [e'' E]; [eauto|]. cbn [rbind]. rewrite E. exists e''. reflexivity.
Qed.

(** Training gets its segment quantizers when every dimension's share is worth a bit, in exact
    arithmetic.  Missing: the other configurations. *)
Theorem C85_trains_partial total_bits n n_vectors vs : vs <> [] -> (1 <= n)%nat ->
  0 < rsum vs -> Forall (fun v => rsum vs <= IZR total_bits * v) vs ->
  exists plan, saq_plan ex total_bits n n_vectors (map Fin vs) = Ok plan.
Proof.
  intros Hne Hn Hs Hv.
  destruct (C51_each_a_bit_partial total_bits n vs Hne Hn Hs Hv) as (bounds & bits & E & _ & HF).
  unfold saq_plan. rewrite E. cbn [rbind].
  assert (exists ks, rmap (fun b => saq_clusters b n_vectors) bits = Ok ks) as [ks Ek].
  { clear E. induction HF as [|b bits Hb HF [ks IH]]; [exists []; reflexivity|].
    destruct (saq_clusters_ok b n_vectors) as [k Hk]; [lia|]. exists (k :: ks). cbn [rmap]. rewrite Hk. cbn. now rewrite IH. }
  rewrite Ek. eexists; reflexivity.
Qed.

(** REFUTED: two segments too many for the bits and every training fails, whatever the data; the
    constructor accepts such numbers (saq.py 57-60). *)
Theorem C85_trains_refuted :
  (forall rnd total_bits n n_vectors variance, (1 <= n)%nat ->
     (total_bits + 1 < Z.of_nat (Nat.min n (length variance)))%Z ->
     exists e, saq_plan rnd total_bits n n_vectors variance = Raise e) /\
  exists total_bits n (variance : list xr), (0 < total_bits)%Z /\ (1 <= n)%nat /\
     (total_bits + 1 < Z.of_nat (Nat.min n (length variance)))%Z.
Proof.
  split.
  - intros rnd tb n nv variance Hn Hlt. unfold saq_plan.
    destruct (saq_segments rnd tb n variance) as [[bounds bits]|e] eqn:E; [|eexists; reflexivity]. cbn [rbind].
    destruct (C51_budget_partial _ _ _ _ _ _ Hn E) as [Hs HF].
    destruct (C50_segments_tile _ _ _ _ _ _ Hn E) as (_ & Hl & Hb).
    assert (Hne : bits <> []) by (intros ->; simpl in *; lia).
    assert (Hin : In (last bits 0%Z) bits).
    { rewrite (app_removelast_last 0%Z Hne) at 2. apply in_or_app. right. now left. }
    assert (Hneg : (last bits 0 < 0)%Z).
    { pose proof (app_removelast_last 0%Z Hne) as Ha.
      assert (Hz : forall l x, zsum (l ++ [x]) = (zsum l + x)%Z) by (clear; induction l; intros x; simpl; [lia|rewrite IHl; lia]).
      rewrite Ha, Hz in Hs.
      assert (Z.of_nat (length (removelast bits)) <= zsum (removelast bits))%Z
        by (clear -HF; induction HF; simpl length; simpl zsum; lia).
      rewrite Ha, app_length in Hb. simpl in Hb. lia. }
    destruct (rmap_fails (fun b => saq_clusters b nv) bits (last bits 0%Z) Hin) as [e Ee].
    { unfold saq_clusters. destruct (Z.leb_spec 30 (last bits 0%Z)); [lia|].
      destruct (Z.ltb_spec (last bits 0%Z) 0%Z); [eauto|lia]. }
    rewrite Ee. eexists; reflexivity.
  - exists 4%Z, 8%nat, (repeat (Fin 1) 8). rewrite repeat_length. repeat split; lia.
Qed.

Example C85_nontrivial : exists plan, saq_plan ex 8 3 100 (map Fin [1; 1; 1; 1]) = Ok plan.
Proof.
  apply C85_trains_partial; [discriminate|lia|simpl; lra|]. simpl. repeat constructor; lra.
Qed.

Print Assumptions C50_segments_tile.
Print Assumptions C51_budget_partial.
Print Assumptions C51_each_a_bit_partial.
Print Assumptions C51_each_a_bit_refuted.
Print Assumptions C83_segments_ignore_data.
Print Assumptions C85_trains_partial.
Print Assumptions C85_trains_refuted.
