(** Properties of the codes and the code adjustment of SAQ over exact reals: C52, C84. *)

From Coq Require Import List Arith ZArith Lia Bool Reals Lra Psatz.
From Verif Require Import PyBase PyMore BaseLemmas Num RealNum XReal ScalarModel ProductModel PropsProduct SaqModel PropsSaq.
Import ListNotations.
Open Scope R_scope.

(** ** Specification *)

(** Sum of squared differences of two matrices. *)
Fixpoint mat_err (a b : list (list R)) : R :=
  match a, b with x :: a', y :: b' => sq_dist x y + mat_err a' b' | _, _ => 0 end.

(** A trained segment: centroids of the segment's width. *)
Definition seg_ok (s : segment (F := R)) : Prop :=
  seg_book s <> [] /\ Forall (fun c => length c = (seg_end s - seg_start s)%nat) (seg_book s).

(** Segments of a trained quantizer of dimension [dim]. *)
Definition trained (dim : nat) (segs : list (segment (F := R))) : Prop :=
  segs <> [] /\ tiles 0 (map fst segs) dim /\ Forall seg_ok segs.

Definition matrix (n dim : nat) (xs : list (list R)) : Prop :=
  length xs = n /\ Forall (fun x => length x = dim) xs.

(** One code per vector, each the number of a centroid. *)
Definition code_ok (n : nat) (s : segment (F := R)) (c : list Z) : Prop :=
  length c = n /\ Forall (fun z => (0 <= z < Z.of_nat (length (seg_book s)))%Z) c.

(** ** Lemmas *)

Lemma rmap_Forall2 {A B} (f : A -> result B) l : forall ys, rmap f l = Ok ys <-> Forall2 (fun x y => f x = Ok y) l ys.
Proof.
  induction l as [|x l IH]; intros ys; cbn [rmap].
  - split; intros E; [injection E as <-; constructor|]. now inversion E.
  - split; intros E.
    + destruct (f x) as [y|] eqn:Ex; [|discriminate]. cbn [rbind] in E.
      destruct (rmap f l) as [ys'|]; [|discriminate]. injection E as <-. constructor; auto. now apply IH.
    + inversion E as [|? y ? ys' Hx Hl]; subst. rewrite Hx. cbn [rbind]. apply IH in Hl. now rewrite Hl.
Qed.

Lemma Forall2_len {A B} (P : A -> B -> Prop) l m : Forall2 P l m -> length l = length m.
Proof. induction 1; simpl; congruence. Qed.

Definition pick (s : segment (F := R)) (z : Z) : list R := nth (Z.to_nat z) (seg_book s) [].

Lemma pick_ok s z : (0 <= z < Z.of_nat (length (seg_book s)))%Z -> py_index (seg_book s) z = Ok (pick s z).
Proof.
  intros Hz. rewrite <- (Z2Nat.id z) at 1 by lia. rewrite py_index_nat.
  rewrite (nth_error_nth' (seg_book s) []) by lia. reflexivity.
Qed.

Lemma pick_length s z : seg_ok s -> (0 <= z < Z.of_nat (length (seg_book s)))%Z -> length (pick s z) = (seg_end s - seg_start s)%nat.
Proof. intros [_ H] Hz. rewrite Forall_forall in H. apply H, nth_In. lia. Qed.

Lemma picks_ok n s c : code_ok n s c -> rmap (py_index (seg_book s)) c = Ok (map (pick s) c).
Proof. intros [_ H]. apply rmap_Ok. intros z Hz. rewrite Forall_forall in H. now apply pick_ok, H. Qed.

Lemma seg_dequantize_ok n s c : seg_ok s -> (seg_start s < seg_end s)%nat -> code_ok n s c ->
  seg_dequantize (seg_book s) c = Ok (map (pick s) c).
Proof.
  intros Hs Hw Hc. unfold seg_dequantize. destruct (seg_book s) as [|[|r b] bs] eqn:E.
  - rewrite <- E. now apply picks_ok with n.
  - destruct Hs as [_ H]. rewrite E in H. inversion H; subst. simpl in *. lia.
  - rewrite <- E. now apply picks_ok with n.
Qed.

Lemma picks_matrix n s c : seg_ok s -> code_ok n s c -> matrix n (seg_end s - seg_start s) (map (pick s) c).
Proof.
  intros Hs [Hl HF]. split; [now rewrite map_length|]. apply Forall_map. apply Forall_impl with (2 := HF).
  intros z Hz. now apply pick_length.
Qed.

Lemma cut_length start stop (v : list R) : (stop <= length v)%nat -> length (cut start stop v) = (stop - start)%nat.
Proof. intros H. unfold cut. rewrite firstn_length, skipn_length. lia. Qed.

Lemma cols_matrix n dim s (xs : list (list R)) : matrix n dim xs -> (seg_end s <= dim)%nat ->
  matrix n (seg_end s - seg_start s) (cols (seg_start (F := R) s) (seg_end s) xs).
Proof.
  intros [Hl HF] Hd. unfold cols. split; [now rewrite map_length|]. apply Forall_map.
  apply Forall_impl with (2 := HF). intros v Hv. apply cut_length. lia.
Qed.

(** The code names a centroid nearest to the vector. *)
Definition nearest_code (s : segment (F := R)) (x : list R) (z : Z) : Prop :=
  forall c, In c (seg_book s) -> sq_dist x (pick s z) <= sq_dist x c.

Lemma expanded_ok (x c : list R) : length x = length c -> expanded_dist x c = Ok (sq_dist x c).
Proof.
  intros E. unfold expanded_dist. rewrite E, Nat.eqb_refl, !dot_inner, (sq_dist_inner x c E). cbn. f_equal. lra.
Qed.

(** Nearest centroid: the code is in range. *)
Lemma seg_quantize_ok n s xs : seg_ok s -> (seg_start s < seg_end s)%nat -> matrix n (seg_end s - seg_start s) xs ->
  exists c, seg_quantize (seg_book s) xs = Ok c /\ code_ok n s c /\ Forall2 (nearest_code s) xs c.
Proof.
  intros [Hne Hb] Hw [Hl HF]. unfold seg_quantize.
  destruct xs as [|x xs]; [exists []; split; [destruct (seg_book s) as [|[|? ?] ?]; reflexivity|split; [split; auto|constructor]]|].
  assert (Hx : length x = (seg_end s - seg_start s)%nat) by now inversion HF.
  destruct x as [|x0 x]; [simpl in Hx; lia|].
  destruct (seg_book s) as [|[|b0 b] bs] eqn:E; [congruence|inversion Hb; subst; simpl in *; lia|].
  rewrite <- E in *. clear E.
  set (g := fun y => rbind (rmap (expanded_dist y) (seg_book s)) (fun ds => rbind (argmin ds) (fun c => Ok (Z.of_nat c)))).
  revert Hl HF. generalize ((x0 :: x) :: xs). clear x0 x xs Hx. intros xs. revert n.
  induction xs as [|x xs IH]; intros n Hl HF.
  - exists []. split; auto. split; [split; auto|constructor].
  - inversion HF as [|? ? Hx HF']; subst. destruct (IH (length xs) eq_refl HF') as (c & Ec & [Hc1 Hc2] & Hc3).
    assert (Hg : exists z, g x = Ok z /\ (0 <= z < Z.of_nat (length (seg_book s)))%Z /\ nearest_code s x z).
    { unfold g. rewrite (rmap_Ok (expanded_dist x) (sq_dist x)).
      2:{ intros c' Hin. apply expanded_ok. rewrite Forall_forall in Hb. rewrite (Hb _ Hin). exact Hx. }
      cbn [rbind]. destruct (argmin_spec (map (sq_dist x) (seg_book s))) as (k & Ek & Hk & Hmin).
      { destruct (seg_book s); [congruence|discriminate]. }
      rewrite map_length in Hk, Hmin.
      rewrite Ek. cbn [rbind]. exists (Z.of_nat k). split; [reflexivity|]. split; [lia|].
      intros c' Hin. destruct (In_nth _ _ [] Hin) as (j & Hj & <-). specialize (Hmin j Hj).
      unfold pick. rewrite Nat2Z.id.
      rewrite !(nth_indep (map (sq_dist x) (seg_book s)) 0 (sq_dist x [])) in Hmin by (now rewrite map_length).
      rewrite !map_nth in Hmin. exact Hmin. }
    destruct Hg as (z & Ez & Hz & Hzn). exists (z :: c). cbn [rmap]. rewrite Ez. cbn [rbind]. rewrite Ec.
    split; auto. split; [split; [simpl; lia|]|]; constructor; auto.
Qed.

Lemma zip_sub_add (r : list R) : forall x, length x = length r -> zip_with nadd r (zip_with nsub x r) = x.
Proof.
  induction r as [|a r IH]; intros [|b x] E; simpl in *; try discriminate; auto.
  rewrite IH by lia. f_equal. lra.
Qed.

(** [rec + (x - rec)] is [x]. *)
Lemma candidate_input n w (xs rs : list (list R)) : matrix n w xs -> matrix n w rs ->
  map (fun p => zip_with nadd (fst p) (snd p))
    (combine rs (map (fun p => zip_with nsub (fst p) (snd p)) (combine xs rs))) = xs.
Proof.
  intros [<- Hx] [E Hr]. revert rs E Hr. induction Hx as [|x xs Ex Hx IH]; intros [|r rs] E Hr; simpl in *; try discriminate; auto.
  inversion Hr; subst. rewrite IH by auto. rewrite zip_sub_add by congruence. reflexivity.
Qed.

Lemma same_shape_ok n w (a b : list (list R)) : matrix n w a -> matrix n w b -> same_shape a b = true.
Proof.
  intros [Ha Fa] [Hb Fb]. unfold same_shape. rewrite Ha, Hb, Nat.eqb_refl. cbn [andb]. apply forallb_forall.
  intros [x y] Hin. rewrite Forall_forall in Fa, Fb. cbn. apply Nat.eqb_eq.
  rewrite (Fa x), (Fb y); auto; [eapply in_combine_r|eapply in_combine_l]; eassumption.
Qed.

Lemma fold_sum_app (l m : list R) : fold_right Rplus 0 (l ++ m) = fold_right Rplus 0 l + fold_right Rplus 0 m.
Proof. induction l as [|x l IH]; simpl; [lra|]. rewrite IH. lra. Qed.

Lemma sum_sq_diff (x : list R) : forall y, fold_right Rplus 0 (zip_with (fun a b => nmul (nsub a b) (nsub a b)) x y) = sq_dist x y.
Proof. induction x as [|a x IH]; intros [|b y]; simpl; auto. rewrite IH. simpl. lra. Qed.

Lemma zip_with_length {A} `{Num A} (f : A -> A -> A) x : forall y, length x = length y -> length (zip_with f x y) = length x.
Proof. induction x as [|a x IH]; intros [|b y] E; simpl in *; try discriminate; auto. Qed.

(** The mean is the sum over the number of entries. *)
Lemma mean_sq_ok n w (a b : list (list R)) : (1 <= n)%nat -> (1 <= w)%nat -> matrix n w a -> matrix n w b ->
  mean_sq INR a b = Some (mat_err a b / INR (n * w)).
Proof.
  intros Hn Hw Ha Hb. unfold mean_sq. set (d := concat _).
  assert (Hd : length d = (n * w)%nat /\ fold_right Rplus 0 d = mat_err a b).
  { unfold d. clear d Hn. destruct Ha as [<- Fa], Hb as [E Fb]. revert b E Fb.
    induction Fa as [|x a Hx Fa IH]; intros [|y b] E Fb; simpl in *; try discriminate; auto.
    inversion Fb; subst. destruct (IH b) as [I1 I2]; auto. rewrite app_length, fold_sum_app, I1, I2, sum_sq_diff.
    rewrite zip_with_length by congruence. auto. }
  destruct Hd as [H1 H2]. assert (0 < n * w)%nat by (apply Nat.mul_pos_pos; lia).
  destruct d as [|d0 d]; [simpl in H1; lia|]. rewrite H1, nsum_R, H2. reflexivity.
Qed.

Lemma mean_sq_nil : mean_sq INR [] [] = None.
Proof. reflexivity. Qed.

(** Assigning columns changes these columns and no others. *)
Lemma assign_cut_ok start stop (v out : list R) : (start <= stop <= length out)%nat -> length v = (stop - start)%nat ->
  assign_cut start stop v out = Ok (firstn start out ++ v ++ skipn stop out).
Proof.
  intros H1 H2. unfold assign_cut. rewrite Nat.min_l by lia. rewrite Nat.min_l by lia. rewrite Nat.max_r by lia.
  now rewrite H2, Nat.eqb_refl.
Qed.

Lemma cut_assigned start stop (v out : list R) : (start <= stop <= length out)%nat -> length v = (stop - start)%nat ->
  cut start stop (firstn start out ++ v ++ skipn stop out) = v.
Proof.
  intros H1 H2. unfold cut. rewrite skipn_app, firstn_length, Nat.min_l by lia.
  rewrite skipn_all2 by (rewrite firstn_length; lia). rewrite Nat.sub_diag. cbn [skipn app].
  rewrite firstn_app, <- H2, firstn_all, Nat.sub_diag, firstn_O, app_nil_r. reflexivity.
Qed.

Lemma cut_prefix s e (p q : list R) : (s <= e <= length p)%nat -> cut s e (p ++ q) = cut s e p.
Proof.
  intros H. unfold cut. rewrite skipn_app, firstn_app, skipn_length.
  replace (e - s - (length p - s))%nat with 0%nat by lia. cbn [firstn]. apply app_nil_r.
Qed.

Lemma cut_other start stop s e (v out : list R) : (start <= stop <= length out)%nat -> length v = (stop - start)%nat ->
  (stop <= s \/ e <= start)%nat -> (s <= e)%nat ->
  cut s e (firstn start out ++ v ++ skipn stop out) = cut s e out.
Proof.
  intros H1 H2 H3 H4. unfold cut. destruct H3 as [H3|H3].
  - f_equal. rewrite app_assoc, skipn_app. rewrite skipn_all2 by (rewrite app_length, firstn_length; lia).
    rewrite app_length, firstn_length, Nat.min_l by lia. cbn [app]. rewrite skipn_add. f_equal. lia.
  - fold (cut s e out). rewrite <- (firstn_skipn start out) at 3.
    fold (cut s e (firstn start out ++ v ++ skipn stop out)).
    rewrite !cut_prefix by (rewrite firstn_length; lia). reflexivity.
Qed.

Lemma assign_cols_ok n dim start stop (rows mat : list (list R)) :
  (start <= stop <= dim)%nat -> matrix n (stop - start) rows -> matrix n dim mat ->
  exists mat', assign_cols start stop rows mat = Ok mat' /\ matrix n dim mat' /\ cols start stop mat' = rows /\
    forall s e, (stop <= s \/ e <= start)%nat -> (s <= e)%nat -> cols s e mat' = cols s e mat.
Proof.
  intros Hs [Hr Fr] [Hm Fm]. unfold assign_cols. rewrite Hr, Hm, Nat.eqb_refl.
  exists (map (fun p => firstn start (snd p) ++ fst p ++ skipn stop (snd p)) (combine rows mat)).
  revert n rows Hr Fr Hm. induction Fm as [|m mat Em Fm IH]; intros n [|r rows] Hr Fr Hm; simpl in Hr, Hm; subst n; try discriminate.
  - cbn. repeat split; auto.
  - inversion Fr as [|? ? Er Fr']; subst.
    destruct (IH (length mat) rows) as (H1 & [H2 H3] & H4 & H5); auto; try lia.
    cbn [combine rmap map fst snd]. rewrite assign_cut_ok by lia. cbn [rbind]. rewrite H1. cbn [rbind].
    split; auto. split; [|split].
    + split; [simpl; now rewrite H2|]. constructor; auto. rewrite !app_length, firstn_length, skipn_length. lia.
    + unfold cols in *. cbn [map]. rewrite H4, cut_assigned by lia. reflexivity.
    + intros s e Ho Hse. unfold cols in *. cbn [map]. rewrite H5 by auto. rewrite cut_other by (auto; lia). reflexivity.
Qed.

(** The matrix shows, in each segment, the centroids of the codes. *)
Definition shows (rec : list (list R)) (s : segment (F := R)) (c : list Z) : Prop :=
  cols (seg_start s) (seg_end s) rec = map (pick s) c.

Lemma tiles_le a l b : tiles a l b -> (a <= b)%nat.
Proof.
  revert a. induction l as [|[s e] l IH]; simpl; intros a H; [lia|]. destruct H as (-> & H & K). apply IH in K. lia.
Qed.

Lemma tiles_after a l b p : tiles a l b -> In p l -> (a <= fst p < snd p)%nat /\ (snd p <= b)%nat.
Proof.
  revert a. induction l as [|[s e] l IH]; simpl; intros a H Hin; [easy|]. destruct H as (-> & H & K).
  destruct Hin as [<-|Hin]; cbn; [apply tiles_le in K; lia|]. apply (IH _ K) in Hin. lia.
Qed.

Lemma deq_ok n dim segs : forall a codes mat, tiles a (map fst segs) dim -> Forall seg_ok segs ->
  Forall2 (code_ok n) segs codes -> matrix n dim mat ->
  exists rec, deq_segments segs codes mat = Ok rec /\ matrix n dim rec /\ Forall2 (shows rec) segs codes /\
    forall s e, (e <= a)%nat -> (s <= e)%nat -> cols s e rec = cols s e mat.
Proof.
  induction segs as [|sg segs IH]; intros a codes mat Ht Hs Hc Hm; inversion Hc as [|? c ? codes' Hc1 Hc2]; subst.
  - exists mat. cbn. repeat split; auto; apply Hm.
  - inversion Hs as [|? ? Hs1 Hs2]; subst. destruct sg as [[s e] book]. cbn [map fst tiles] in Ht.
    destruct Ht as (-> & Hlt & Ht). pose proof (tiles_le _ _ _ Ht) as Hle.
    cbn [deq_segments]. set (sg := (a, e, book)) in *.
    rewrite (seg_dequantize_ok n) by (auto; exact Hlt). cbn [rbind].
    pose proof (picks_matrix _ _ _ Hs1 Hc1) as Hp. cbn [seg_start seg_end sg fst snd] in Hp.
    replace (match map (pick sg) c with [] :: _ => false | _ => Nat.ltb (seg_start sg) (seg_end sg) end) with true.
    2:{ symmetry. assert (El : Nat.ltb (seg_start sg) (seg_end sg) = true) by (now apply Nat.ltb_lt).
        destruct (map (pick sg) c) as [|[|r0 r] rs]; auto. destruct Hp as [_ Hp]. inversion Hp; subst. simpl in *. lia. }
    destruct (assign_cols_ok n dim a e (map (pick sg) c) mat) as (mat' & E1 & M1 & C1 & O1); auto; try lia.
    change (seg_start sg) with a. change (seg_end sg) with e. rewrite E1. cbn [rbind].
    destruct (IH e codes' mat' Ht Hs2 Hc2 M1) as (rec & E2 & M2 & S2 & O2).
    exists rec. split; auto. split; auto. split.
    + constructor; auto. unfold shows. change (seg_start sg) with a. change (seg_end sg) with e.
      rewrite O2 by lia. exact C1.
    + intros s0 e0 H1 H2. rewrite O2 by lia. apply O1; auto.
Qed.

Lemma dequantize_ok n dim segs codes : trained dim segs -> Forall2 (code_ok n) segs codes ->
  exists rec, dequantize_segments dim segs codes = Ok rec /\ matrix n dim rec /\ Forall2 (shows rec) segs codes.
Proof.
  intros (Hne & Ht & Hs) Hc. unfold dequantize_segments.
  assert (Hn : match codes with [] => 0%nat | c :: _ => length c end = n).
  { destruct Hc as [|? c ? ? [H _]]; [congruence|exact H]. }
  rewrite Hn. destruct (deq_ok n dim segs 0 codes (repeat (repeat nzero dim) n) Ht Hs Hc) as (rec & E & M & S & _).
  - split; [apply repeat_length|]. apply Forall_forall. intros x Hx. apply repeat_spec in Hx. subst. apply repeat_length.
  - exists rec. auto.
Qed.

(** Total error, segment by segment. *)
Lemma sq_dist_skipn (x y : list R) a e : length x = length y -> (a <= e <= length x)%nat ->
  sq_dist (skipn a x) (skipn a y) = sq_dist (cut a e x) (cut a e y) + sq_dist (skipn e x) (skipn e y).
Proof.
  intros E H. unfold cut. replace e with (a + (e - a))%nat at 3 4 by lia. rewrite <- !skipn_add.
  rewrite <- sq_dist_app by (rewrite !firstn_length, !skipn_length; lia). now rewrite !firstn_skipn.
Qed.

Fixpoint tiles_err (segs : list (nat * nat)) (a b : list (list R)) : R :=
  match segs with [] => 0 | (s, e) :: segs' => mat_err (cols s e a) (cols s e b) + tiles_err segs' a b end.

Lemma mat_err_split n dim a e (xs ys : list (list R)) : matrix n dim xs -> matrix n dim ys -> (a <= e <= dim)%nat ->
  mat_err (map (skipn a) xs) (map (skipn a) ys) =
  mat_err (cols a e xs) (cols a e ys) + mat_err (map (skipn e) xs) (map (skipn e) ys).
Proof.
  intros [<- Fx] [E Fy] H. revert ys E Fy. induction Fx as [|x xs Ex Fx IH]; intros [|y ys] E Fy; simpl in *; try discriminate; [lra|].
  inversion Fy; subst. specialize (IH ys ltac:(lia) ltac:(auto)). unfold cols in IH. rewrite IH.
  rewrite (sq_dist_skipn x y a e) by lia. unfold cols. lra.
Qed.

Lemma mat_err_tiles n dim xs ys : matrix n dim xs -> matrix n dim ys -> forall segs a, tiles a segs dim ->
  mat_err (map (skipn a) xs) (map (skipn a) ys) = tiles_err segs xs ys.
Proof.
  intros Hx Hy. induction segs as [|[s e] segs IH]; intros a Ht; cbn [tiles tiles_err] in *.
  - subst a. destruct Hx as [<- Fx], Hy as [E Fy]. revert ys E Fy.
    induction Fx as [|x xs Ex Fx IH]; intros [|y ys] E Fy; simpl in *; try discriminate; auto.
    inversion Fy; subst. rewrite IH by auto. rewrite skipn_all. simpl. lra.
  - destruct Ht as (-> & Hlt & Ht). pose proof (tiles_le _ _ _ Ht).
    rewrite (mat_err_split n dim a e) by (auto; lia). now rewrite (IH e).
Qed.

(** ** One segment *)

Section Adjust.
  Context (n dim : nat) (xs : list (list R)).
  Hypothesis Hxs : matrix n dim xs.

  Definition seg_err (s : segment (F := R)) (c : list Z) : R :=
    mat_err (cols (seg_start s) (seg_end s) xs) (map (pick s) c).

  Lemma nearest_err s xss k : Forall2 (nearest_code s) xss k -> forall c2, code_ok (length xss) s c2 ->
    mat_err xss (map (pick s) k) <= mat_err xss (map (pick s) c2).
  Proof.
    clear Hxs. induction 1 as [|x z xss k Hz Hk IH]; intros [|z2 c2] [Hl HF]; simpl in Hl; try discriminate; simpl; [lra|].
    inversion HF as [|? ? Hz2 HF2]; subst. injection Hl as Hl. specialize (IH c2 (conj Hl HF2)).
    assert (sq_dist x (pick s z) <= sq_dist x (pick s z2)) by (apply Hz, nth_In; lia). lra.
  Qed.

  Lemma adjust_seg_ok s c rec imp : seg_ok s -> (seg_start s < seg_end s <= dim)%nat -> code_ok n s c ->
    matrix n dim rec -> shows rec s c ->
    exists c' rec' imp', adjust_seg INR xs s c rec imp = Ok (c', rec', imp') /\
      code_ok n s c' /\ matrix n dim rec' /\ seg_err s c' <= seg_err s c /\
      (forall c2, code_ok n s c2 -> seg_err s c' <= seg_err s c2) /\
      (forall a e, (seg_end s <= a)%nat -> (a <= e)%nat -> cols a e rec' = cols a e rec) /\
      (seg_quantize (seg_book s) (cols (seg_start s) (seg_end s) xs) = Ok c -> c' = c /\ rec' = rec /\ imp' = imp).
  Proof.
    intros Hs Hw Hc Hr Hsh. unfold adjust_seg.
    pose proof (cols_matrix n dim s xs Hxs ltac:(lia)) as Mx.
    pose proof (cols_matrix n dim s rec Hr ltac:(lia)) as Mr.
    rewrite (candidate_input n _ _ _ Mx Mr).
    destruct (seg_quantize_ok n s _ Hs (proj1 Hw) Mx) as (k & Ek & Hk & Hkn). rewrite Ek.
    rewrite (seg_dequantize_ok n) by (auto; lia). cbn [rbind].
    pose proof (picks_matrix _ _ _ Hs Hk) as Mk.
    rewrite (same_shape_ok n _ _ _ Mx Mk), (same_shape_ok n _ _ _ Mx Mr). cbn [andb negb].
    assert (Hopt : forall c2, code_ok n s c2 -> seg_err s k <= seg_err s c2).
    { intros c2 H2. apply (nearest_err s _ _ Hkn). rewrite (proj1 Mx). exact H2. }
    destruct n as [|n0] eqn:En.
    - assert (Enil : cols (seg_start s) (seg_end s) xs = []) by (apply length_zero_iff_nil, Mx).
      unfold seg_err in *. rewrite Enil in *.
      assert (map (pick s) k = []) as -> by (apply length_zero_iff_nil, Mk).
      cbn [mean_sq combine map concat]. exists c, rec, imp. repeat split; auto; try apply Hr; try apply Hc; intros; simpl; lra.
    - rewrite <- En in *. rewrite (mean_sq_ok n (seg_end s - seg_start s) _ _ ltac:(lia) ltac:(lia) Mx Mk).
      rewrite (mean_sq_ok n (seg_end s - seg_start s) _ _ ltac:(lia) ltac:(lia) Mx Mr).
      assert (HN : 0 < INR (n * (seg_end s - seg_start s))).
      { apply lt_0_INR. apply Nat.mul_pos_pos; lia. }
      unfold nltb. destruct (nleb _ _) eqn:El; cbn [negb].
      + apply nleb_R in El.
        assert (Hle : seg_err s c <= seg_err s k).
        { unfold seg_err. unfold shows in Hsh. rewrite Hsh in El.
          apply Rmult_le_reg_r with (/ INR (n * (seg_end s - seg_start s))); [now apply Rinv_0_lt_compat|exact El]. }
        exists c, rec, imp. repeat split; auto; try apply Hr; try apply Hc; [lra|].
        intros c2 H2. specialize (Hopt c2 H2). lra.
      + apply nleb_R_false in El.
        assert (Hlt : seg_err s k < seg_err s c).
        { unfold seg_err. unfold shows in Hsh. rewrite Hsh in El.
          apply Rmult_lt_reg_r with (/ INR (n * (seg_end s - seg_start s))); [now apply Rinv_0_lt_compat|exact El]. }
        destruct (assign_cols_ok n dim (seg_start s) (seg_end s) (map (pick s) k) rec) as (rec' & E1 & M1 & _ & O1); auto; try lia.
        rewrite E1. cbn [rbind]. do 3 eexists. split; [reflexivity|]. split; auto. split; auto. split; [lra|].
        split; auto. split; [intros a e Ha He; apply O1; auto|].
        intros E. injection E as ->. lra.
  Qed.

  Lemma adjust_segs_ok segs : forall a codes rec imp, tiles a (map fst segs) dim -> Forall seg_ok segs ->
    Forall2 (code_ok n) segs codes -> matrix n dim rec -> Forall2 (shows rec) segs codes ->
    exists codes' imp', adjust_segs INR xs segs codes rec imp = Ok (codes', imp') /\
      Forall2 (code_ok n) segs codes' /\
      Forall2 (fun s cc => seg_err s (snd cc) <= seg_err s (fst cc)) segs (combine codes codes') /\
      Forall2 (fun s c => forall c2, code_ok n s c2 -> seg_err s c <= seg_err s c2) segs codes' /\
      (initial_codes segs xs = Ok codes -> codes' = codes /\ imp' = imp).
  Proof.
    induction segs as [|sg segs IH]; intros a codes rec imp Ht Hs Hc Hr Hsh; inversion Hc as [|? c ? codes0 Hc1 Hc2]; subst.
    - exists [], imp. cbn. repeat split; auto.
    - inversion Hs as [|? ? Hs1 Hs2]; subst. inversion Hsh as [|? ? ? ? Hsh1 Hsh2]; subst.
      destruct sg as [[s e] book]. cbn [map fst tiles] in Ht. destruct Ht as (-> & Hlt & Ht).
      pose proof (tiles_le _ _ _ Ht) as Hle. set (sg := (a, e, book)) in *.
      cbn [adjust_segs].
      destruct (adjust_seg_ok sg c rec imp) as (c' & rec' & imp' & E1 & K1 & M1 & L1 & P1 & O1 & N1); auto.
      rewrite E1. cbn [rbind].
      destruct (IH e codes0 rec' imp') as (codes' & imp2 & E2 & K2 & L2 & P2 & N2); auto.
      { clear -Hsh2 O1 Ht. assert (Hin : forall s, In s segs -> (e <= seg_start s <= seg_end s)%nat).
        { intros s Hin. apply (in_map fst) in Hin. pose proof (tiles_after _ _ _ _ Ht Hin) as H.
          unfold seg_start, seg_end. lia. }
        clear Ht. induction Hsh2 as [|s c segs codes H1 H2 IH]; constructor; auto.
        - unfold shows in *. rewrite O1; auto; apply (Hin s); now left.
        - apply IH. intros s0 H0. apply Hin. now right. }
      rewrite E2. cbn [rbind]. exists (c' :: codes'), imp2. split; auto. split; [constructor; auto|].
      split; [constructor; auto|]. split; [constructor; auto|]. unfold initial_codes. cbn [rmap]. intros E.
      destruct (seg_quantize (seg_book sg) _) as [q|] eqn:Eq; [|discriminate]. cbn [rbind] in E.
      match type of E with rbind ?r _ = _ => destruct r as [qs|] eqn:Eqs; [|discriminate] end. injection E as -> ->.
      destruct (N1 eq_refl) as (-> & -> & ->). destruct (N2 Eqs) as (-> & ->). auto.
  Qed.

  Lemma shows_err rec segs codes : Forall2 (shows rec) segs codes ->
    tiles_err (map fst segs) xs rec = rsum (map (fun p => seg_err (fst p) (snd p)) (combine segs codes)).
  Proof.
    induction 1 as [|s c segs codes H1 H2 IH]; cbn [map tiles_err combine rsum fst snd]; auto.
    destruct s as [[s e] book]. cbn [fst]. rewrite IH. unfold seg_err. unfold shows in H1. cbn in H1 |- *. rewrite H1. reflexivity.
  Qed.

  Lemma total_le segs codes codes' : length codes = length codes' ->
    Forall2 (fun s cc => seg_err s (snd cc) <= seg_err s (fst cc)) segs (combine codes codes') ->
    rsum (map (fun p => seg_err (fst p) (snd p)) (combine segs codes')) <=
    rsum (map (fun p => seg_err (fst p) (snd p)) (combine segs codes)).
  Proof.
    revert segs codes'. induction codes as [|c codes IH]; intros segs [|c' codes'] E H; simpl in E; try discriminate.
    - destruct segs; simpl; lra.
    - cbn [combine] in H. inversion H as [|s ? segs' ? H1 H2]; subst. specialize (IH segs' codes' ltac:(lia) H2).
      cbn [combine map rsum fst snd] in *. lra.
  Qed.

  Lemma adjust_ok tol segs : trained dim segs -> forall iters codes, Forall2 (code_ok n) segs codes ->
    exists codes', adjust INR tol iters dim segs xs codes = Ok codes' /\ Forall2 (code_ok n) segs codes' /\
      rsum (map (fun p => seg_err (fst p) (snd p)) (combine segs codes')) <=
      rsum (map (fun p => seg_err (fst p) (snd p)) (combine segs codes)) /\
      ((0 < iters)%nat -> Forall2 (fun s c => forall c2, code_ok n s c2 -> seg_err s c <= seg_err s c2) segs codes') /\
      (initial_codes segs xs = Ok codes -> codes' = codes).
  Proof.
    intros Htr. induction iters as [|iters IH]; intros codes Hc; cbn [adjust].
    - exists codes. repeat split; auto; [lra|lia].
    - destruct (dequantize_ok n dim segs codes Htr Hc) as (rec & E & M & S). rewrite E. cbn [rbind].
      destruct Htr as (Hne & Ht & Hs).
      destruct (adjust_segs_ok segs 0 codes rec nzero Ht Hs Hc M S) as (codes1 & imp & E1 & K1 & L1 & P1 & N1).
      rewrite E1. cbn [rbind].
      assert (Hl : length codes = length codes1) by (apply Forall2_len in Hc, K1; congruence).
      pose proof (total_le segs codes codes1 Hl L1) as Hle.
      destruct (nltb imp tol).
      + exists codes1. repeat split; auto. intros Hi. now apply N1.
      + destruct (IH codes1 K1) as (codes2 & E2 & K2 & L2 & P2 & N2). exists codes2. repeat split; auto; [lra| |].
        { intros _. destruct iters as [|iters]; [injection E2 as <-; exact P1|apply P2; lia]. }
        intros Hi. destruct (N1 Hi) as [-> _]. auto.
  Qed.
End Adjust.

Lemma skipn_0_map {A} (l : list (list A)) : map (skipn 0) l = l.
Proof. induction l as [|x l IH]; simpl; f_equal; auto. Qed.

(** ** C52 *)

(** Code adjustment never increases the reconstruction error, whatever the trained centroids, the
    initial codes, the tolerance and the number of iterations; and it never fails. *)
Theorem C52_never_worse n dim segs xs codes iters tol :
  trained dim segs -> matrix n dim xs -> Forall2 (code_ok n) segs codes ->
  exists codes' rec rec', adjust INR tol iters dim segs xs codes = Ok codes' /\
    dequantize_segments dim segs codes = Ok rec /\ dequantize_segments dim segs codes' = Ok rec' /\
    mat_err xs rec' <= mat_err xs rec.
Proof.
  intros Htr Hx Hc. destruct (adjust_ok n dim xs Hx tol segs Htr iters codes Hc) as (codes' & E & Hc' & Hle & _ & _).
  destruct (dequantize_ok n dim segs codes Htr Hc) as (rec & E1 & M1 & S1).
  destruct (dequantize_ok n dim segs codes' Htr Hc') as (rec' & E2 & M2 & S2).
  exists codes', rec, rec'. repeat split; auto. destruct Htr as (_ & Ht & _).
  rewrite <- (skipn_0_map xs), <- (skipn_0_map rec), <- (skipn_0_map rec').
  rewrite !(mat_err_tiles n dim xs _ Hx) with (segs := map fst segs) by auto.
  rewrite (shows_err xs rec segs codes S1), (shows_err xs rec' segs codes' S2). exact Hle.
Qed.

(** One iteration is enough to reach the least error any codes have. *)
Theorem C52_reaches_optimum n dim segs xs codes iters tol other rec2 :
  trained dim segs -> matrix n dim xs -> Forall2 (code_ok n) segs codes -> (0 < iters)%nat ->
  Forall2 (code_ok n) segs other -> dequantize_segments dim segs other = Ok rec2 ->
  exists codes' rec', adjust INR tol iters dim segs xs codes = Ok codes' /\
    dequantize_segments dim segs codes' = Ok rec' /\ mat_err xs rec' <= mat_err xs rec2.
Proof.
  intros Htr Hx Hc Hi Ho E2. destruct (adjust_ok n dim xs Hx tol segs Htr iters codes Hc) as (codes' & E & Hc' & _ & Hopt & _).
  destruct (dequantize_ok n dim segs other Htr Ho) as (rec & E1 & M1 & S1).
  rewrite E2 in E1. injection E1 as <-.
  destruct (dequantize_ok n dim segs codes' Htr Hc') as (rec' & E3 & M3 & S3).
  exists codes', rec'. repeat split; auto. destruct Htr as (_ & Ht & _).
  rewrite <- (skipn_0_map xs), <- (skipn_0_map rec2), <- (skipn_0_map rec').
  rewrite !(mat_err_tiles n dim xs _ Hx) with (segs := map fst segs) by auto.
  rewrite (shows_err xs rec2 segs other S1), (shows_err xs rec' segs codes' S3).
  specialize (Hopt Hi). clear -Hopt Ho. revert other Ho.
  induction Hopt as [|s c segs codes H1 H2 IH]; intros other Ho; inversion Ho as [|? o ? os Ho1 Ho2]; subst; simpl; [lra|].
  specialize (IH os Ho2). specialize (H1 o Ho1). lra.
Qed.

(** ** C84 *)

Lemma initial_ok n dim segs xs : trained dim segs -> matrix n dim xs ->
  exists codes, initial_codes segs xs = Ok codes /\ Forall2 (code_ok n) segs codes /\
    Forall2 (fun s c => Forall2 (nearest_code s) (cols (seg_start s) (seg_end s) xs) c) segs codes.
Proof.
  intros (_ & Ht & Hs) Hx. revert Ht. generalize 0%nat. induction Hs as [|sg segs Hs1 Hs2 IH]; intros a Ht.
  - exists []. split; [reflexivity|split; constructor].
  - destruct sg as [[s e] book]. cbn [map fst tiles] in Ht. destruct Ht as (-> & Hlt & Ht).
    pose proof (tiles_le _ _ _ Ht) as Hle. destruct (IH e Ht) as (codes & E & Hc & Hcn).
    destruct (seg_quantize_ok n (a, e, book) (cols a e xs)) as (c & Ec & Hk & Hkn); auto.
    { apply (cols_matrix n dim (a, e, book) xs Hx Hle). }
    exists (c :: codes). unfold initial_codes in *. cbn [rmap]. unfold seg_start, seg_end. cbn [fst snd].
    rewrite Ec. cbn [rbind]. unfold seg_start, seg_end in E. rewrite E. split; [reflexivity|split; constructor; auto].
Qed.

(** The adjustment returns the codes it is given: [quantize] answers the same for every number of
    iterations and every tolerance. *)
Theorem C84_adjustment_no_op n dim segs xs iters tol :
  trained dim segs -> matrix n dim xs ->
  exists codes, saq_encode INR tol iters dim segs xs = Ok codes /\
                saq_encode INR tol 0 dim segs xs = Ok codes /\ length codes = n.
Proof.
  intros Htr Hx. destruct (initial_ok n dim segs xs Htr Hx) as (codes & Ei & Hc & _).
  destruct (adjust_ok n dim xs Hx tol segs Htr iters codes Hc) as (codes' & Ea & _ & _ & _ & Hn).
  rewrite (Hn Ei) in Ea. unfold saq_encode. rewrite Ei. cbn [rbind]. rewrite Ea. cbn [adjust rbind].
  destruct Htr as (Hne & _). destruct Hc as [|s c segs codes]; [congruence|].
  eexists. split; [reflexivity|]. split; [reflexivity|]. rewrite map_length, seq_length. apply Hx.
Qed.

(** ** C86 *)

(** [quantize] gives each vector, for each segment, the number of a centroid nearest to the vector's
    part in that segment. *)
Theorem C86_nearest_in_each_segment n dim segs xs iters tol :
  trained dim segs -> matrix n dim xs ->
  exists codes, saq_encode INR tol iters dim segs xs = Ok codes /\
    Forall2 (fun x row => Forall2 (fun s z =>
      (0 <= z < Z.of_nat (length (seg_book s)))%Z /\
      forall c, In c (seg_book s) ->
        sq_dist (cut (seg_start s) (seg_end s) x) (nth (Z.to_nat z) (seg_book s) []) <=
        sq_dist (cut (seg_start s) (seg_end s) x) c) segs row) xs codes.
Proof.
  intros Htr Hx. destruct (initial_ok n dim segs xs Htr Hx) as (codes & Ei & Hc & Hcn).
  destruct (adjust_ok n dim xs Hx tol segs Htr iters codes Hc) as (codes' & Ea & _ & _ & _ & Hn).
  rewrite (Hn Ei) in Ea. unfold saq_encode. rewrite Ei. cbn [rbind]. rewrite Ea. cbn [rbind].
  destruct Htr as (Hne & _ & _).
  assert (Hrow : forall r x, nth_error xs r = Some x -> Forall2 (fun s z =>
      (0 <= z < Z.of_nat (length (seg_book s)))%Z /\
      forall c, In c (seg_book s) ->
        sq_dist (cut (seg_start s) (seg_end s) x) (nth (Z.to_nat z) (seg_book s) []) <=
        sq_dist (cut (seg_start s) (seg_end s) x) c) segs (map (fun c => nth r c 0%Z) codes)).
  { intros r x Er. assert (Hr : (r < n)%nat) by (rewrite <- (proj1 Hx); apply nth_error_Some; congruence).
    clear Ei Ea Hn Hne. induction Hcn as [|s c segs codes H1 H2 IH]; [constructor|].
    inversion Hc as [|? ? ? ? [Hl Hk] Hc2]; subst. cbn [map]. constructor; auto. split.
    - rewrite Forall_forall in Hk. apply Hk, nth_In. lia.
    - clear -H1 Er. unfold cols in H1. revert r c Er H1. induction xs as [|y xs IH]; intros [|r] c Er H1; try discriminate.
      + injection Er as ->. inversion H1; subst. simpl nth at 1. assumption.
      + inversion H1; subst. cbn [nth]. now apply IH. }
  destruct codes as [|c0 codes]; [inversion Hc; congruence|]. cbn [by_vector].
  eexists. split; [reflexivity|]. revert Hrow. generalize (c0 :: codes). clear. intros codes Hrow.
  assert (G : forall ys a, (forall r x, nth_error ys r = Some x -> nth_error xs (a + r) = Some x) ->
    Forall2 (fun x row => Forall2 (fun s z =>
      (0 <= z < Z.of_nat (length (seg_book s)))%Z /\
      forall c, In c (seg_book s) ->
        sq_dist (cut (seg_start s) (seg_end s) x) (nth (Z.to_nat z) (seg_book s) []) <=
        sq_dist (cut (seg_start s) (seg_end s) x) c) segs row) ys
      (map (fun r => map (fun c => nth r c 0%Z) codes) (seq a (length ys)))).
  { induction ys as [|y ys IH]; intros a Hy; simpl; constructor.
    - apply Hrow. rewrite <- (Nat.add_0_r a). apply Hy. reflexivity.
    - apply IH. intros r x Er. rewrite Nat.add_succ_comm. apply Hy. exact Er. }
  apply (G xs 0%nat). auto.
Qed.

(** ** The exact distance of C77 *)

(** The distance used for rescoring is one minus the cosine of the angle, or one for a zero vector. *)
Theorem C77_distance_is_cosine (q v : list R) : length q = length v ->
  cosine_of q v = Ok (if Req_EM_T (len q) 0 then 1 else if Req_EM_T (len v) 0 then 1
                      else 1 - inner q v / (len q * len v)).
Proof.
  intros E. unfold cosine_of. rewrite E, Nat.eqb_refl. cbn [negb]. rewrite !norm_len, dot_inner.
  cbn [neqb num_R nzero none nsub ndiv nmul].
  destruct (Req_EM_T (len q) 0); [reflexivity|]. destruct (Req_EM_T (len v) 0); reflexivity.
Qed.

(** ** Examples *)

(** Two segments of widths 1 and 2, and codes that are not the nearest. *)
Definition demo_segs : list (segment (F := R)) := [(0%nat, 1%nat, [[0]; [1]]); (1%nat, 3%nat, [[0; 0]; [2; 2]])].
Definition demo_xs : list (list R) := [[1; 2; 2]; [0; 0; 1]].

Lemma demo_trained : trained 3 demo_segs.
Proof.
  split; [discriminate|]. split; [simpl; repeat split; auto; lia|].
  apply Forall_cons; [|apply Forall_cons; [|constructor]]; (split; [discriminate|]);
    (apply Forall_cons; [reflexivity|apply Forall_cons; [reflexivity|constructor]]).
Qed.

Lemma demo_matrix : matrix 2 3 demo_xs.
Proof. split; auto. apply Forall_cons; [reflexivity|apply Forall_cons; [reflexivity|constructor]]. Qed.

Lemma demo_codes : Forall2 (code_ok 2) demo_segs [[0%Z; 1%Z]; [0%Z; 1%Z]].
Proof.
  constructor; [|constructor; [|constructor]]; (split; [reflexivity|]);
    (apply Forall_cons; [simpl; lia|apply Forall_cons; [simpl; lia|constructor]]).
Qed.

(** The codes of the example have an error to reduce. *)
Example C52_nontrivial : exists codes' rec rec',
  adjust INR (1 / 1000000) 3 3 demo_segs demo_xs [[0%Z; 1%Z]; [0%Z; 1%Z]] = Ok codes' /\
  dequantize_segments 3 demo_segs [[0%Z; 1%Z]; [0%Z; 1%Z]] = Ok rec /\
  dequantize_segments 3 demo_segs codes' = Ok rec' /\
  mat_err demo_xs rec = 15 /\ mat_err demo_xs rec' <= 15.
Proof.
  destruct (C52_never_worse 2 3 demo_segs demo_xs _ 3 (1 / 1000000) demo_trained demo_matrix demo_codes)
    as (codes' & rec & rec' & E1 & E2 & E3 & H).
  exists codes', rec, rec'. repeat split; auto.
  - cbn in E2. injection E2 as <-. cbn. lra.
  - cbn in E2. injection E2 as <-. cbn in H |- *. lra.
Qed.

Example C84_nontrivial : exists codes,
  saq_encode INR (1 / 1000000) 5 3 demo_segs demo_xs = Ok codes /\
  saq_encode INR (1 / 1000000) 0 3 demo_segs demo_xs = Ok codes /\ length codes = 2%nat.
Proof. exact (C84_adjustment_no_op 2 3 demo_segs demo_xs 5 (1 / 1000000) demo_trained demo_matrix). Qed.

(** Other codes of the example, which the adjusted ones are not worse than. *)
Example C52_optimum_nontrivial : exists codes' rec rec',
  adjust INR (1 / 1000000) 1 3 demo_segs demo_xs [[0%Z; 1%Z]; [0%Z; 1%Z]] = Ok codes' /\
  dequantize_segments 3 demo_segs codes' = Ok rec' /\
  dequantize_segments 3 demo_segs [[1%Z; 0%Z]; [1%Z; 0%Z]] = Ok rec /\
  mat_err demo_xs rec = 1 /\ mat_err demo_xs rec' <= 1.
Proof.
  assert (Ho : Forall2 (code_ok 2) demo_segs [[1%Z; 0%Z]; [1%Z; 0%Z]]).
  { constructor; [|constructor; [|constructor]]; (split; [reflexivity|]);
    (apply Forall_cons; [simpl; lia|apply Forall_cons; [simpl; lia|constructor]]). }
  destruct (C52_reaches_optimum 2 3 demo_segs demo_xs _ 1 (1 / 1000000) _ _ demo_trained demo_matrix demo_codes
              ltac:(lia) Ho eq_refl) as (codes' & rec' & E1 & E2 & H).
  do 3 eexists. split; [exact E1|]. split; [exact E2|]. split; [reflexivity|].
  cbn in H |- *. split; lra.
Qed.

Example C86_nontrivial : exists codes,
  saq_encode INR (1 / 1000000) 3 3 demo_segs demo_xs = Ok codes /\ length codes = 2%nat.
Proof.
  destruct (C86_nearest_in_each_segment 2 3 demo_segs demo_xs 3 (1 / 1000000) demo_trained demo_matrix) as (codes & E & HF).
  exists codes. split; auto. apply Forall2_len in HF. now rewrite <- HF.
Qed.

Print Assumptions C86_nearest_in_each_segment.
Print Assumptions C52_reaches_optimum.
Print Assumptions C77_distance_is_cosine.
Print Assumptions C52_never_worse.
Print Assumptions C84_adjustment_no_op.
