(** Properties of the production wrapper (examples/production_setup.py): C163 its histories, C164
    its health report, C165 its backups. *)

From Coq Require Import List Arith ZArith NArith Lia Bool Permutation Sorted ZifyBool ZifyNat ZifyN.
From Coq Require String.
Import (notations) Coq.Strings.String.
From Verif Require Import PyBase BaseLemmas Payload StorageModel StorageSpec StorageRun StorageProofs
  StorageThms StorageOk Num ClientModel DbSpec ClientRun ClientProofs FlatProofs IvfProofs
  HnswModel HnswProofs Demo DemoIndex PropsHnsw ProdModel.
Import ListNotations.

(** ** Specification *)

(** What there is to know of a wrapper: whether it holds a client, and the database (in service or
    not, with its records). *)
Record wstate (F Mt : Type) : Type := MkW { ws_live : bool; ws_db : sstate (list F) Mt }.
Arguments MkW {F Mt} _ _.
Arguments ws_live {F Mt} _.
Arguments ws_db {F Mt} _.

(** The data calls are calls on the database. *)
Definition data_call {F Mt} (o : pop F Mt) : option (cop F Mt hnsw_rand) :=
  match o with
  | PInsert o fresh arr meta => Some (CInsert o fresh arr meta)
  | PSearch o q k => Some (CSearch o q k)
  | PUpdate o id v md => Some (CUpdate o id v md)
  | PDelete ids => Some (CDelete ids)
  | _ => None
  end.

(** How the wrapper's user sees an answer of the database. *)
Definition shown {F Mt} (a : cret F Mt) : pret F Mt :=
  match a with
  | AIds l => PIds l
  | AHits l => PHits l
  | ABool b => PBool b
  | AExn e => PExn e
  | _ => PUnit
  end.

(** The required sections are in the configuration. *)
Definition usable (c : prod_config) : bool := pc_storage c && pc_index c.

Section Spec.
  Context {F Mt : Type} `{Payload (list F) Mt}.
  Context (limit : Z) (c : prod_config).
  (** The sizes of the files of a vector and of a metadata object. *)
  Context (vec_file : list F -> N) (meta_file : Mt -> N).
  Context (search_ok : list (entry (list F) Mt) -> list F -> Z -> cret F Mt -> Prop).

  (** The wrapper after a call: records survive closing, initialising again, a failed
      initialisation and a new process. *)
  Definition w_next (w : wstate F Mt) (o : pop F Mt) : wstate F Mt :=
    let recs := s_recs (ws_db w) in
    match o with
    | PInit (Ok _) _ extra =>
        if usable c
        then MkW true (MkS (match first_exn extra with None => true | Some _ => false end) recs)
        else w
    | PInit (Raise _) _ _ => w
    | PNew => MkW false (MkS false recs)
    | PClose extra =>
        match first_exn extra with
        | None => MkW (ws_live w) (MkS false recs)
        | Some _ => w
        end
    | _ => match data_call o with
           | Some d => if ws_live w then MkW true (db_next true (ws_db w) d) else w
           | None => w
           end
    end.

  (** One file for the vector, one for the metadata if there is any. *)
  Definition files_of (x : list F * option Mt) : N :=
    (vec_file (fst x) + match snd x with Some md => meta_file md | None => 0 end)%N.

  (** The report of a database in service: the number of records; the bytes of some of the records,
      no more than the limit allows; the files of all records; a warning exactly above 1000
      megabytes. *)
  Definition report_ok (recs : list (entry (list F) Mt)) (h : health) : Prop :=
    match h with
    | Healthy n mem dsk trained quant pers warnings =>
        n = Z.of_nat (length recs) /\ trained = true /\ quant = pc_quant c /\ pers = pc_pers c /\
        (exists cached, NoDup (map fst cached) /\ incl cached recs /\
           (Z.of_nat (length cached) <= Z.max 1 limit)%Z /\ mem = total_bytes rec_size cached) /\
        (mem <= total_bytes rec_size recs)%N /\
        dsk = total_bytes files_of recs /\
        warnings = (if (mem <=? 1048576000)%N then [] else [py "High memory usage"])
    | Unhealthy _ => False
    end.

  (** Answers a call may give. *)
  Definition w_ans (w : wstate F Mt) (o : pop F Mt) (r : pret F Mt) : Prop :=
    match o with
    | PInit (Raise e) _ _ => r = PExn e
    | PInit (Ok _) _ extra =>
        r = if usable c
            then match first_exn extra with None => PUnit | Some _ => PExn EValori end
            else PExn EKey
    | PNew | PClose _ => r = PUnit
    | PHealth =>
        exists h, r = PReport h /\
          if s_open (ws_db w) then report_ok (s_recs (ws_db w)) h
          else h = Unhealthy (if ws_live w then EValori else EAttr)
    | PBackup _ written =>
        r = PBool (s_open (ws_db w) && match written with Ok _ => true | Raise _ => false end)
    | _ => match data_call o with
           | Some d => if ws_live w then exists a, r = shown a /\ db_ans search_ok (ws_db w) d a
                       else r = PExn EAttr
           | None => False
           end
    end.

  (** All answers of a history are allowed. *)
  Fixpoint w_conforms (w : wstate F Mt) (ops : list (pop F Mt)) (rets : list (pret F Mt)) : Prop :=
    match ops, rets with
    | [], [] => True
    | o :: ops', r :: rets' => w_ans w o r /\ w_conforms (w_next w o) ops' rets'
    | _, _ => False
    end.

  (** The state after a history. *)
  Definition w_after (w : wstate F Mt) (ops : list (pop F Mt)) : wstate F Mt := fold_left w_next ops w.

  (** Admissible calls: fresh uuids, metadata dictionaries of plain data, possible draws. *)
  Fixpoint w_fit (w : wstate F Mt) (ops : list (pop F Mt)) : Prop :=
    match ops with
    | [] => True
    | o :: ops' =>
        match o with
        | PInit _ rnd _ => sample_ok rnd
        | _ => match data_call o with
               | Some d => ws_live w = true -> fits false any_row sample_ok (ws_db w) d
               | None => True
               end
        end /\ w_fit (w_next w o) ops'
    end.
End Spec.

(** A new wrapper over an empty data directory. *)
Notation fresh_w := (MkW false (MkS false [])).

Section Props.
  Context {F Mt : Type} `{Num F} `{!NumOrder F} `{Payload (list F) Mt} `{Unicode}.
  Context (dirorder : list pystr -> list pystr) (Hdir : forall l, Permutation (dirorder l) l).
  Context (limit m ef : Z) (Hm : (0 <= m)%Z) (mt : metric).
  Context (vec_file : list F -> N) (meta_file : Mt -> N).

  Notation IC := (pindex dirorder m ef mt).
  Notation C := (pstore (F := F) (Mt := Mt) dirorder).
  Notation step := (prod_step dirorder m ef mt vec_file meta_file).
  Notation run := (prod_run dirorder m ef mt vec_file meta_file).

  (** No stray metadata files. *)
  Definition tidy (d : disk (list F) Mt) : Prop :=
    NoDup (dkeys (d_metadata d)) /\ forall k, In k (dkeys (d_metadata d)) -> exists j, k = pkl_name j.

  Lemma tidy_set d j f c b vs : tidy d -> tidy (MkDisk vs (dset (pkl_name j) f (d_metadata d)) c b).
  Proof.
    intros [Hn Hk]. split; cbn [d_metadata]; [now apply NoDup_dkeys_dset|].
    intros k Hin. apply In_dkeys_dset in Hin as [->|Hin]; eauto.
  Qed.

  Lemma tidy_del d j c b vs : tidy d -> tidy (MkDisk vs (ddel j (d_metadata d)) c b).
  Proof.
    intros [Hn Hk]. split; cbn [d_metadata]; [now apply NoDup_dkeys_ddel|].
    intros k Hin. apply In_dkeys_ddel in Hin as [_ Hin]; eauto.
  Qed.

  Lemma tidy_same d c b vs : tidy d -> tidy (MkDisk vs (d_metadata d) c b).
  Proof. intros T. exact T. Qed.

  Lemma tidy_write d j md : tidy d -> tidy (snd (disk_write_meta (V := list F) (Mt := Mt) j md d)).
  Proof.
    intros T. destruct md as [md|]; cbn [disk_write_meta].
    - unfold bind, modify. destruct (picklable md); cbn [snd raise];
        repeat first [apply (tidy_set (MkDisk _ _ _ _)) | apply tidy_set]; exact T.
    - unfold modify. cbn [snd]. now apply tidy_del.
  Qed.

  Lemma tidy_step d o : tidy d -> tidy (snd (sc_step (disk_class (V := list F) (Mt := Mt) dirorder) d o)).
  Proof.
    intros T.
    assert (Hobs : forall A (f : A -> sret (list F) Mt) (x : result A * disk (list F) Mt), snd (obs f x) = snd x)
      by (intros A f [[a|e] y]; reflexivity).
    assert (Hwrap : forall A e (k : M (disk (list F) Mt) A) y, snd (wrap e k y) = snd (k y))
      by (intros A e k y; unfold wrap; destruct (k y) as [[a|x] z]; reflexivity).
    destruct o as [|id v md|id|id|id v md|l| | |]; cbn [sc_step disk_class sc_init sc_store sc_retrieve
      sc_delete sc_update sc_list sc_stats sc_close sc_reopen]; rewrite ?Hobs.
    - unfold disk_initialize. rewrite ?Hwrap. exact T.
    - destruct id as [|ch id]; [exact T|]. cbn [disk_store]. unfold bind at 1, get at 1.
      destruct (negb (d_init d)); [exact T|]. rewrite Hwrap. unfold disk_write_vec, bind at 1, modify at 1.
      unfold bind. pose proof (tidy_write (MkDisk (dset (npy_name (sanitize_id (ch :: id))) (FGood v) (d_vectors d))
                                 (d_metadata d) (d_count d) (d_init d)) (sanitize_id (ch :: id)) md (tidy_same d _ _ _ T)) as Tw.
      destruct (disk_write_meta (sanitize_id (ch :: id)) md _) as [[a|e] d2]; exact Tw.
    - unfold disk_retrieve, bind, get. destruct (negb (d_init d)); [exact T|]. rewrite Hwrap.
      destruct (dget _ (d_vectors d)) as [[v|]|]; try exact T.
      destruct (dget _ (d_metadata d)) as [[md|]|]; exact T.
    - unfold disk_delete, bind at 1, get. destruct (negb (d_init d)); [exact T|]. rewrite Hwrap.
      unfold bind, modify. cbn [d_vectors d_metadata d_count d_init].
      destruct (dmem _ (d_vectors d)); cbn; now apply tidy_del.
    - unfold disk_update, bind at 1, get. destruct (negb (d_init d)); [exact T|]. rewrite Hwrap.
      destruct (negb (dmem _ (d_vectors d))); [exact T|]. unfold disk_write_vec, bind at 1, modify at 1.
      unfold bind. pose proof (tidy_write (MkDisk (dset (npy_name (sanitize_id id)) (FGood v) (d_vectors d))
                                 (d_metadata d) (d_count d) (d_init d)) (sanitize_id id) md (tidy_same d _ _ _ T)) as Tw.
      destruct (disk_write_meta (sanitize_id id) md _) as [[a|e] d2]; exact Tw.
    - unfold disk_list, bind, get. destruct (negb (d_init d)); [exact T|]. destruct l; exact T.
    - unfold disk_get_stats, bind, get. destruct (negb (d_init d)); exact T.
    - exact T.
    - exact T.
  Qed.

  Lemma pkl_inj a b : pkl_name a = pkl_name b -> a = b.
  Proof. unfold pkl_name. apply app_inv_tail. Qed.

  (** The files are those of the records. *)
  Lemma disk_bytes_recs recs d : Rdisk recs d -> tidy d ->
    disk_bytes vec_file meta_file d = total_bytes (files_of vec_file meta_file) recs.
  Proof.
    intros R [Hn Hk]. unfold disk_bytes.
    set (recs' := map (fun e : entry (list F) Mt =>
                         (pkl_name (fst e), (fst (snd e), option_map FGood (snd (snd e))))) recs).
    assert (Hg : forall k, dget (pkl_name k) recs' =
                   option_map (fun x : list F * option Mt => (fst x, option_map FGood (snd x))) (dget k recs)).
    { intros k. unfold recs'. clear. induction recs as [|[k' x] recs IH]; [reflexivity|]. cbn [map fst snd dget].
      destruct (eqb_spec k k').
      - subst k'. destruct (eqb_spec (pkl_name k) (pkl_name k)); [reflexivity|contradiction].
      - destruct (eqb_spec (pkl_name k) (pkl_name k')) as [E|]; [apply pkl_inj in E; contradiction|exact IH]. }
    pose proof (meta_sum (file_bytes meta_file) recs' (d_metadata d)) as E. unfold dsum in E.
    rewrite E; clear E; auto.
    - rewrite (rd_vec _ _ R). unfold recs', dvals. clear. induction recs as [|[k [v md]] recs IH]; [reflexivity|].
      cbn [map fold_right fst snd] in *. unfold total_bytes in *. cbn [fold_right snd]. rewrite <- IH.
      unfold files_of. destruct md; cbn [file_bytes option_map fst snd]; lia.
    - unfold recs', dkeys. rewrite map_map. cbn [fst]. rewrite <- (map_map fst pkl_name).
      apply FinFun.Injective_map_NoDup; [exact pkl_inj|]. exact (rd_nd _ _ R).
    - intros id. destruct (dget id (d_metadata d)) as [f|] eqn:Eid.
      + assert (Hin : In id (dkeys (d_metadata d))) by (apply dget_In; eauto).
        destruct (Hk id Hin) as [j ->]. rewrite Hg. rewrite (rd_meta _ _ R) in Eid.
        destruct (dget j recs) as [[v [md|]]|]; cbn [option_map snd]; congruence.
      + destruct (dget id recs') as [[v md]|] eqn:E2; [|reflexivity].
        assert (Hj : exists j, id = pkl_name j).
        { assert (Hin : In id (dkeys recs')) by (apply dget_In; eauto). unfold recs', dkeys in Hin.
          rewrite map_map in Hin. apply in_map_iff in Hin as (e & <- & _). eexists. reflexivity. }
        destruct Hj as [j ->]. rewrite Hg in E2. rewrite (rd_meta _ _ R) in Eid.
        destruct (dget j recs) as [[v' [md'|]]|]; cbn [option_map snd] in *; congruence.
  Qed.

  (** Hybrid storage, with its limit and no stray files. *)
  Definition Alim (a : sstate (list F) Mt) (s : hybrid (list F) Mt) : Prop :=
    Ahyb_u a s /\ h_limit s = limit /\ tidy (h_disk s).

  Lemma Alim_ok : storage_ok C true false None Alim.
  Proof.
    destruct (hybrid_ok (V := list F) (Mt := Mt) dirorder Hdir) as [Hn1 Hs1]. split.
    - intros a s [HA _]. now apply (Hn1 a s).
    - intros a s o (HA & El & T) Ho Hu. pose proof (Hs1 a s o HA Ho Hu) as Hs.
      assert (exists x, op_id_in (plus x) o) as [x Hx].
      { destruct o as [|id v md|id|id|id v md|l| | |];
          try (exists id; right; reflexivity); exists []; simpl; auto. }
      pose proof (hybrid_step_refines dirorder Hdir (plus x) a s o (Ahyb_grow x a s (proj1 HA)) Ho Hx) as Hl.
      unfold pstore in *. destruct (sc_step (hybrid_class dirorder) s o) as [r s'].
      destruct Hs as [Ha Hn]. destruct Hl as (_ & _ & Hl & Hd). split; auto. split; auto. split; [congruence|].
      specialize (Hd (separated_plus x)). pose proof (tidy_step (h_disk s) o T) as T'. now rewrite Hd in T'.
  Qed.

  Lemma Alim_new : Alim (MkS false []) (hybrid_new limit [] []).
  Proof.
    split; [|split; [reflexivity|]].
    - split; [apply Ahyb_new; auto | constructor].
    - split; [constructor|]. intros k [].
  Qed.

  Lemma HI : index_ok IC Alim false any_row sample_ok (hnsw_ok mt) hopen hclosed.
  Proof. exact (hnsw_index_ok C m ef mt true false None Alim Alim_ok Hm any_row). Qed.

  (** The wrapper's client represents the database; out of service nothing is known of its
      index. *)
  Definition Rc (d : sstate (list F) Mt) (cl : pclient) : Prop :=
    c_init cl = s_open d /\
    (exists op, Alim (MkS op (s_recs d)) (c_storage cl) /\ (s_open d = true -> op = true)) /\
    (s_open d = true -> hopen (s_recs d) (c_index cl)).

  Definition Rw (c : prod_config) (w : wstate F Mt) (pw : pwrap F Mt) : Prop :=
    w_config pw = c /\
    match w_client pw with
    | Some cl => ws_live w = true /\ Rc (ws_db w) cl
    | None => ws_live w = false /\ s_open (ws_db w) = false /\
              exists op, Alim (MkS op (s_recs (ws_db w))) (w_files pw)
    end.

  Lemma fit_any recs : fit_recs (Mt := Mt) (F := F) any_row recs.
  Proof. unfold fit_recs. rewrite Forall_forall. auto. Qed.

  Lemma Rc_open d cl : Rc d cl -> s_open d = true -> Rcl Alim any_row hopen hclosed d cl.
  Proof.
    intros (E & HA & Ho) Eo. split; auto. split; [apply fit_any|]. split; auto. rewrite Eo. auto.
  Qed.

  Lemma Rcl_Rc d cl : Rcl Alim any_row hopen hclosed d cl -> Rc d cl.
  Proof.
    intros (E & _ & HA & Ho). split; auto. split; auto. intros Eo. now rewrite Eo in Ho.
  Qed.

  (** A data call on the client. *)
  Lemma data_step d cl o k : Rc d cl -> data_call (F := F) (Mt := Mt) o = Some k ->
    fits false any_row sample_ok d k ->
    let (r, cl') := cl_step C IC cl k in
    db_ans (hnsw_ok mt) d k r /\ Rc (db_next true d k) cl'.
  Proof.
    intros HR Ek Hf. destruct (s_open d) eqn:Eo.
    - pose proof (Rcl_step C IC true false None Alim Alim_ok false any_row sample_ok (hnsw_ok mt)
                    hopen hclosed HI d cl k (Rc_open d cl HR Eo) Hf) as Hs.
      destruct (cl_step C IC cl k) as [r cl']. destruct Hs. split; auto. now apply Rcl_Rc.
    - destruct HR as (E & HA & Ho). rewrite Eo in E.
      destruct o; try discriminate; injection Ek as <-; cbn [cl_step];
        unfold cl_insert, cl_search, cl_update, cl_delete, guarded, bind, get; rewrite E; cbn [negb raise cobs];
        (split; [cbn [db_ans]; rewrite Eo; reflexivity|]);
        cbn [db_next]; rewrite ?Eo; try (destruct arr); (split; [congruence|auto]).
  Qed.

  (** The fresh client is initialised. *)
  Lemma init_step recs s op o extra : Alim (MkS op recs) s -> sample_ok o ->
    exists cl, cl_initialize C IC o extra (MkClient (ix_new IC) (sc_reopen C s) false) =
                 (match first_exn extra with None => Ok tt | Some _ => Raise EValori end, cl) /\
               Rc (MkS (match first_exn extra with None => true | Some _ => false end) recs) cl.
  Proof.
    intros HA Ho. pose proof (so_reopen C true false None Alim Alim_ok op recs s HA) as A0.
    destruct (so_init C true false None Alim Alim_ok _ recs _ A0) as (s1 & E1 & A1).
    destruct (io_init _ _ _ _ _ _ _ _ HI o recs (ix_new IC) s1 Ho (fit_any recs)
                (io_new _ _ _ _ _ _ _ _ HI recs) A1) as (x2 & s2 & E2 & I2 & A2).
    unfold cl_initialize, on_storage, on_index, wrap, bind, zoom. cbn [c_storage c_index c_init fst snd].
    rewrite E1. cbn [c_storage c_index c_init fst snd]. rewrite E2.
    cbn [c_storage c_index c_init fst snd]. rewrite forM_lift.
    destruct (first_exn extra); eexists; (split; [reflexivity|]); (split; [reflexivity|]);
      (split; [exists true; split; [exact A2|auto]|]); cbn; auto; discriminate.
  Qed.

  (** Cached records are records. *)
  Lemma total_incl (l l' : list (entry (list F) Mt)) : NoDup (map fst l) -> incl l l' ->
    (total_bytes rec_size l <= total_bytes rec_size l')%N.
  Proof.
    revert l'. induction l as [|e l IH]; intros l' Hnd Hi; cbn; [lia|].
    assert (He : In e l') by (apply Hi; now left). apply in_split in He as (l1 & l2 & ->).
    inversion Hnd as [|k ks Hn Hnd' Ek]; subst.
    assert (Hi' : incl l (l1 ++ l2)).
    { intros x Hx. pose proof (Hi x (or_intror Hx)) as Hx'. apply in_app_or in Hx' as [Hx'|[Hx'|Hx']].
      - apply in_or_app. auto.
      - subst x. exfalso. apply Hn. now apply in_map.
      - apply in_or_app. auto. }
    specialize (IH _ Hnd' Hi').
    assert (E : forall a b, total_bytes (V := list F) (Mt := Mt) rec_size (a ++ b) =
                  (total_bytes rec_size a + total_bytes rec_size b)%N).
    { induction a as [|y a IHa]; intros b; [reflexivity|]. specialize (IHa b).
      change ((rec_size (snd y) + total_bytes rec_size (a ++ b))%N =
              (rec_size (snd y) + total_bytes rec_size a + total_bytes rec_size b)%N). lia. }
    rewrite E in *.
    change (rec_size (snd e) + total_bytes rec_size l <=
            total_bytes rec_size l1 + (rec_size (snd e) + total_bytes rec_size l2))%N. lia.
  Qed.

  Lemma open_stats recs (s : hybrid (list F) Mt) : Alim (MkS true recs) s ->
    exists cached, NoDup (map fst cached) /\ incl cached recs /\
      (Z.of_nat (length cached) <= Z.max 1 limit)%Z /\
      hybrid_get_stats s =
        (Ok (Some (Some {| ms_count := Z.of_nat (length cached); ms_bytes := total_bytes rec_size cached |},
                   Some (Z.of_nat (length recs)))), s).
  Proof.
    intros [[[_ HA] HK] [El _]]. cbn [s_open s_recs] in HA. destruct HA as [mr R]. exists mr.
    pose proof (rm_nd _ _ (rh_mem _ _ _ _ R)) as Hnd.
    split; [exact Hnd|]. split; [|split].
    - intros [id x] Hin. destruct (rh_coh _ _ _ _ R separated_uuid id x) as [Hu Hd].
      + apply In_dget; auto.
      + rewrite uuid_sanitize in Hd by auto. now apply dget_Some_In in Hd.
    - rewrite <- El. exact (rh_lim _ _ _ _ R).
    - unfold hybrid_get_stats, mem_get_stats, disk_get_stats, on_mem, on_disk, zoom, bind, get.
      rewrite (rh_init _ _ _ _ R). cbn [negb]. rewrite (rh_minit _ _ _ _ R). cbn [negb ret].
      cbn [h_disk]. rewrite (rh_dinit _ _ _ _ R). cbn [negb ret].
      rewrite (rm_count _ _ (rh_mem _ _ _ _ R)), (rm_usage _ _ (rh_mem _ _ _ _ R)), (rh_dcount _ _ _ _ R).
      destruct s. reflexivity.
  Qed.

  (** What the statistics of a client are. *)
  Lemma stats_step d cl : Rc d cl ->
    exists r, client_stats dirorder m ef mt vec_file meta_file cl = (r, cl) /\
      if s_open d
      then exists levels bytes cached, NoDup (map fst cached) /\ incl cached (s_recs d) /\
             (Z.of_nat (length cached) <= Z.max 1 limit)%Z /\
             bytes = total_bytes (files_of vec_file meta_file) (s_recs d) /\
             r = Ok (MkPStats (Some (Z.of_nat (length (s_recs d)), levels))
                       (Some (Some {| ms_count := Z.of_nat (length cached);
                                      ms_bytes := total_bytes rec_size cached |},
                              Some (Z.of_nat (length (s_recs d)), bytes))))
      else r = Raise EValori.
  Proof.
    intros (E & (op & HA & Hop) & Ho). unfold client_stats, guarded, bind at 1, get at 1. rewrite E.
    destruct (s_open d) eqn:Eo; cbn [negb]; [|eexists; split; reflexivity].
    rewrite (Hop eq_refl) in HA. specialize (Ho eq_refl).
    destruct (open_stats _ _ HA) as (cached & Hnd & Hi & Hl & Es).
    unfold on_storage, zoom, bind, get. rewrite Es. cbn [c_index c_storage c_init ret].
    rewrite (io_count _ _ _ _ _ _ _ _ HI _ _ Ho). cbn [option_map fst snd].
    eexists. split; [destruct cl; reflexivity|].
    exists (length (h_levels (c_index cl))), (disk_bytes vec_file meta_file (h_disk (c_storage cl))), cached.
    repeat (split; [assumption|]). split; [|reflexivity].
    destruct HA as [[[_ HA] _] [_ T]]. cbn [s_open s_recs] in HA. destruct HA as [mr R].
    exact (disk_bytes_recs _ _ (rh_disk _ _ _ _ R) T).
  Qed.

  Lemma Rw_step c w pw o : Rw c w pw -> w_fit c w [o] ->
    let (r, pw') := step pw o in
    w_ans limit c vec_file meta_file (hnsw_ok mt) w o r /\ Rw c (w_next c w o) pw'.
  Proof.
    intros (Ec & HR) [Hf _].
    destruct (data_call o) as [k|] eqn:Ek.
    { assert (Hs : step pw o =
        match w_client pw with
        | None => (PExn EAttr, pw)
        | Some cl => let (r, cl') := cl_step C IC cl k in
                     (shown r, MkProd (w_config pw) (Some cl') (w_files pw) (w_backups pw))
        end).
      { destruct o; try discriminate; injection Ek as <-; cbn [prod_step cl_step];
          unfold prod_insert, prod_search, prod_update, prod_delete, on_client;
          destruct (w_client pw) as [cl|]; try reflexivity.
        - destruct (cl_insert IC o fresh arr meta cl) as [[]]; reflexivity.
        - destruct (cl_search IC o q k0 cl) as [[]]; reflexivity.
        - destruct (cl_update IC o id v md cl) as [[]]; reflexivity.
        - destruct (cl_delete IC ids cl) as [[]]; reflexivity. }
      rewrite Hs. clear Hs.
      assert (Hw : w_ans limit c vec_file meta_file (hnsw_ok mt) w o =
                   fun r => if ws_live w then exists a, r = shown a /\ db_ans (hnsw_ok mt) (ws_db w) k a
                            else r = PExn EAttr).
      { destruct o; try discriminate; injection Ek as <-; reflexivity. }
      assert (Hn : w_next c w o = if ws_live w then MkW true (db_next true (ws_db w) k) else w).
      { destruct o; try discriminate; injection Ek as <-; reflexivity. }
      assert (Hf' : ws_live w = true -> fits false any_row sample_ok (ws_db w) k).
      { destruct o; try discriminate; injection Ek as <-; exact Hf. }
      rewrite Hw, Hn. destruct (w_client pw) as [cl|] eqn:Ew.
      - destruct HR as [El HR]. rewrite El. specialize (Hf' El).
        pose proof (data_step _ _ o k HR Ek Hf') as Hs. destruct (cl_step C IC cl k) as [r cl'].
        destruct Hs as [Ha HR']. split; [eauto|]. split; [exact Ec|]. cbn [w_client]. auto.
      - destruct HR as [El HR]. rewrite El. split; auto. split; auto. rewrite Ew. auto. }
    destruct o as [setup o extra|o fresh arr meta|o q k|o id v md|ids| |path written|extra|]; try discriminate.
    - (* initialize *)
      cbn [prod_step w_ans w_next]. cbn in Hf.
      unfold prod_initialize, bind. destruct setup as [[]|e]; cbn [lift].
      2:{ split; auto. split; auto. }
      unfold get. rewrite Ec. unfold usable.
      destruct (pc_storage c); cbn [negb andb]; [|split; auto; split; auto].
      destruct (pc_index c); cbn [negb]; [|split; auto; split; auto].
      unfold modify, on_client. cbn [w_client].
      assert (HA : exists op, Alim (MkS op (s_recs (ws_db w))) (last_storage pw)).
      { unfold last_storage. destruct (w_client pw) as [cl|].
        - destruct HR as (_ & _ & (op & HA & _) & _). eauto.
        - destruct HR as (_ & _ & HA). exact HA. }
      destruct HA as [op HA]. destruct (init_step _ _ op o extra HA Hf) as (cl & Ei & HRc).
      rewrite Ei. destruct (first_exn extra); cbn [pobs]; (split; [reflexivity|]);
        (split; [exact Ec|]); cbn [w_client]; auto.
    - (* health *)
      cbn [prod_step w_ans w_next data_call]. unfold prod_health, bind, on_client.
      destruct (w_client pw) as [cl|] eqn:Ew.
      + destruct HR as [El HR]. destruct (stats_step _ _ HR) as (r & Es & Hr). rewrite Es.
        destruct (s_open (ws_db w)) eqn:Eo.
        * destruct Hr as (levels & bytes & cached & Hnd & Hi & Hl & Eb & ->). cbn [lift read_health ps_index ps_storage pobs].
          split.
          -- eexists. split; [reflexivity|]. cbn [report_ok ms_bytes]. rewrite Ec.
             repeat (split; [reflexivity|]). split; [exists cached; auto|]. split; [now apply total_incl|]. split; [exact Eb|].
             change (1000 * 1048576)%N with 1048576000%N. rewrite N.ltb_antisym.
             destruct (total_bytes rec_size cached <=? 1048576000)%N; reflexivity.
          -- split; [exact Ec|]. cbn [w_client]. split; auto.
        * rewrite Hr. cbn [pobs]. split.
          -- eexists. split; [reflexivity|]. now rewrite El.
          -- split; [exact Ec|]. cbn [w_client]. split; auto.
      + destruct HR as (El & Eo & HA). cbn [pobs]. split.
        * eexists. split; [reflexivity|]. now rewrite Eo, El.
        * split; auto. rewrite Ew. auto.
    - (* backup *)
      cbn [prod_step w_ans w_next data_call]. unfold prod_backup, bind, on_client.
      destruct (w_client pw) as [cl|] eqn:Ew.
      + destruct HR as [El HR]. destruct (stats_step _ _ HR) as (r & Es & Hr). rewrite Es.
        destruct (s_open (ws_db w)) eqn:Eo.
        * destruct Hr as (levels & bytes & cached & _ & _ & _ & Eb & ->). destruct written as [[]|e]; cbn [lift ret pobs];
            (split; [reflexivity|]); (split; [exact Ec|]); cbn [w_client]; split; auto.
        * rewrite Hr. cbn [pobs]. split; [reflexivity|]. split; [exact Ec|]. cbn [w_client]. split; auto.
      + destruct HR as (El & Eo & HA). cbn [pobs]. rewrite Eo. split; [reflexivity|]. split; auto. rewrite Ew. auto.
    - (* close *)
      cbn [prod_step w_ans w_next]. unfold prod_close, on_client.
      destruct (w_client pw) as [cl|] eqn:Ew.
      + destruct HR as [El (Ei & (op & HA & Hop) & Ho)]. cbn [pobs].
        unfold cl_close. unfold bind at 1. rewrite forM_lift.
        destruct (first_exn extra) as [e|]; cbn [snd].
        * split; [reflexivity|]. split; [exact Ec|]. cbn [w_client]. split; [exact El|]. split; auto. split; eauto.
        * destruct (io_close _ _ _ _ _ _ _ _ HI (c_index cl) (c_storage cl)) as (x' & E & _).
          unfold on_index, on_storage, bind, zoom. rewrite E. cbn [c_storage c_index c_init fst snd].
          destruct (so_close C true false None Alim Alim_ok op _ _ HA) as (s1 & E1 & A1). rewrite E1.
          cbn. split; [reflexivity|]. split; [exact Ec|]. cbn. split; [exact El|].
          split; [reflexivity|]. split; [|discriminate]. exists false. split; [exact A1|discriminate].
      + destruct HR as (El & Eo & HA). cbn [pobs]. split; [reflexivity|]. split; auto. rewrite Ew.
        destruct (first_exn extra); cbn [ws_live ws_db s_open s_recs]; auto.
    - (* a new process *)
      cbn [prod_step w_ans w_next]. split; [reflexivity|]. split; [exact Ec|].
      cbn [prod_reopen w_client w_files ws_live ws_db s_open s_recs]. split; auto. split; auto.
      unfold last_storage. destruct (w_client pw) as [cl|].
      + destruct HR as (_ & _ & (op & HA & _) & _). eauto.
      + destruct HR as (_ & _ & HA). exact HA.
  Qed.

  Lemma Rw_run c ops : forall w pw, Rw c w pw -> w_fit c w ops ->
    w_conforms limit c vec_file meta_file (hnsw_ok mt) w ops (fst (run pw ops)) /\ Rw c (w_after c w ops) (snd (run pw ops)).
  Proof.
    induction ops as [|o ops IH]; intros w pw HR Hf; [split; [exact I|exact HR]|].
    destruct Hf as [Hf1 Hf2]. pose proof (Rw_step c w pw o HR (conj Hf1 I)) as Hs.
    cbn [prod_run]. destruct (step pw o) as [r pw']. destruct Hs as [Ha HR'].
    destruct (IH _ _ HR' Hf2) as [Hc HR'']. destruct (run pw' ops) as [rs pw'']. cbn [fst snd] in *.
    split; [split; auto|exact HR''].
  Qed.

  Lemma Rw_new c : Rw c fresh_w (prod_new limit c).
  Proof.
    split; [reflexivity|]. cbn. split; auto. split; auto. exists false. apply Alim_new.
  Qed.

  (** *** C163 *)

  (** Whatever the calls (initialising again, closing, failing initialisations, new processes):
      the wrapper answers as one database whose records survive. *)
  Theorem C163_histories c ops : w_fit c fresh_w ops ->
    w_conforms limit c vec_file meta_file (hnsw_ok mt) fresh_w ops (fst (run (prod_new limit c) ops)).
  Proof. intros Hf. exact (proj1 (Rw_run c ops _ _ (Rw_new c) Hf)). Qed.

  (** *** C164 *)

  (** After every history: the report is healthy exactly while the database is in service, with the
      number of records, the bytes of the records held by the memory tier, the bytes of the records'
      files, and a warning exactly
      when these exceed 1000 megabytes; asking changes nothing. *)
  Theorem C164_health_partial c ops : w_fit c fresh_w ops ->
    let w := w_after c fresh_w ops in
    let pw := snd (run (prod_new limit c) ops) in
    exists h, step pw PHealth = (PReport h, pw) /\
      if s_open (ws_db w) then report_ok limit c vec_file meta_file (s_recs (ws_db w)) h
      else h = Unhealthy (if ws_live w then EValori else EAttr).
  Proof.
    intros Hf w pw. destruct (Rw_run c ops _ _ (Rw_new c) Hf) as [_ HR]. fold w pw in HR.
    pose proof (Rw_step c w pw PHealth HR (conj I I)) as Hs.
    destruct (step pw PHealth) as [r pw'] eqn:E. destruct Hs as [(h & -> & Hh) _].
    exists h. split; [|exact Hh]. f_equal.
    cbn [prod_step] in E. unfold prod_health, bind, on_client in E. destruct HR as (Ec & HR).
    destruct pw as [cf [cl|] fs bks]; cbn [w_client w_config w_files w_backups] in *.
    - destruct HR as [_ HR]. destruct (stats_step _ _ HR) as (r & Es & _). rewrite Es in E.
      destruct r as [st|e]; cbn [lift pobs] in E; [destruct (read_health cf st)|]; cbn [pobs] in E;
        injection E as _ <-; reflexivity.
    - injection E as _ <-. reflexivity.
  Qed.

  (** *** C165 *)

  (** After every history: a backup is reported done exactly when the database is in service and
      the file could be written; it changes nothing but the file, which then holds the
      configuration and counts. *)
  Theorem C165_backup_partial c ops path written : w_fit c fresh_w ops ->
    let w := w_after c fresh_w ops in
    let pw := snd (run (prod_new limit c) ops) in
    let done := s_open (ws_db w) && match written with Ok _ => true | Raise _ => false end in
    exists pw', step pw (PBackup path written) = (PBool done, pw') /\
      w_client pw' = w_client pw /\ w_files pw' = w_files pw /\ w_config pw' = w_config pw /\
      if done
      then exists levels cached used,
             w_backups pw' = dset path
               (MkBackup (MkPStats (Some (Z.of_nat (length (s_recs (ws_db w))), levels))
                            (Some (Some {| ms_count := cached; ms_bytes := used |},
                                   Some (Z.of_nat (length (s_recs (ws_db w))),
                                         total_bytes (files_of vec_file meta_file) (s_recs (ws_db w)))))) c)
               (w_backups pw)
      else w_backups pw' = w_backups pw.
  Proof.
    intros Hf w pw done. destruct (Rw_run c ops _ _ (Rw_new c) Hf) as [_ (Ec & HR)]. fold w pw in Ec, HR.
    cbn [prod_step]. unfold prod_backup, bind, on_client, done.
    destruct pw as [cf [cl|] fs bks]; cbn [w_client w_config w_files w_backups] in *; subst cf.
    - destruct HR as [_ HR]. destruct (stats_step _ _ HR) as (r & Es & Hr). rewrite Es.
      destruct (s_open (ws_db w)).
      + destruct Hr as (levels & bytes & cached & _ & _ & _ & Eb & ->).
        destruct written as [[]|e]; cbn [lift ret pobs andb]; eexists; (split; [reflexivity|]);
          repeat (split; [reflexivity|]); [|reflexivity]. cbn [w_backups w_config].
        subst bytes. eexists _, _, _. reflexivity.
      + rewrite Hr. cbn [pobs andb]. eexists. split; [reflexivity|]. auto.
    - destruct HR as (_ & Eo & _). rewrite Eo. cbn [pobs andb]. eexists. split; [reflexivity|]. auto.
  Qed.
End Props.

(** ** Concrete cases *)

(** A configuration with all sections but persistence. *)
Definition demo_pconf : prod_config := MkPConf true true true false.

(** The size of a numpy file of doubles; disk.py:195-197. *)
Definition npy_size (v : list Z) : N := (128 + 8 * N.of_nat (length v))%N.
Definition pkl_size (_ : Z) : N := 20%N.

Definition demo_rows (rows : list (list Z)) : list (pop Z Z) :=
  [PInit (Ok tt) low []; PInsert low (demo_ids 97) (Mat rows) None].

(** A life: calls before initialising, two batches, an update, a delete, a health report, a
    failing close, a close, a call out of service, initialising again with a failure and then
    without, a new process, a search. *)
Definition demo_life : list (pop Z Z) :=
  [PSearch low (Vec [0; 0]%Z) 1; PHealth;
   PInit (Ok tt) low [];
   PInsert low (demo_ids 97) (Mat [[0; 0]; [3; 4]; [6; 8]]%Z) (Some [Some 7]%Z);
   PUpdate low (demo_ids 97 0) [1; 0]%Z (Some 8%Z);
   PDelete [demo_ids 97 2];
   PHealth;
   PBackup (py "b.json") (Ok tt);
   PClose [Raise EOs]; PClose [];
   PSearch low (Vec [0; 0]%Z) 1;
   PInit (Ok tt) low [Raise EOs];
   PDelete [demo_ids 97 0];
   PInit (Ok tt) low [];
   PNew; PInit (Ok tt) low [];
   PSearch low (Vec [0; 0]%Z) 5].

Lemma demo_life_fit : w_fit demo_pconf fresh_w demo_life.
Proof.
  unfold demo_life. cbn [w_fit data_call w_next usable demo_pconf pc_storage pc_index andb first_exn
                         ws_live ws_db s_open s_recs].
  repeat match goal with |- _ /\ _ => split end;
    try (intros El; try discriminate El; clear El); cbn [fits]; auto;
    repeat match goal with |- _ /\ _ => split end; try apply demo_rand_ok; auto.
  - intros _. split; [|split].
    + split; [intros i j _ _; apply demo_ids_inj|]. intros i Hi. split; [apply demo_ids_uuid; cbn in Hi; lia|].
      cbn. auto.
    + repeat constructor.
    + intros l md E Hin. injection E as <-. cbn in Hin. destruct Hin as [<-|[]]. split; reflexivity.
  - split; reflexivity.
Qed.

Example C163_example :
  fst (prod_run (fun l => l) 16 50 MEuclidean npy_size pkl_size (prod_new 2 demo_pconf) demo_life) =
  [PExn EAttr; PReport (Unhealthy EAttr);
   PUnit; PIds [demo_ids 97 0; demo_ids 97 1; demo_ids 97 2];
   PBool true; PBool true;
   PReport (Healthy 2 8 308 true true false []);
   PBool true;
   PUnit; PUnit;
   PExn EValori;
   PExn EValori;
   PExn EValori;
   PUnit;
   PUnit; PUnit;
   PHits [MkHit (demo_ids 97 0) 1%Z (Some 8%Z); MkHit (demo_ids 97 1) 5%Z None]].
Proof. vm_compute. reflexivity. Qed.

(** The hypotheses of C164 and C165 are met in service, with records. *)
Example C164_C165_hypotheses_met :
  let w := w_after demo_pconf fresh_w demo_life in
  w_fit demo_pconf fresh_w demo_life /\ s_open (ws_db w) = true /\ length (s_recs (ws_db w)) = 2.
Proof. split; [exact demo_life_fit|]. vm_compute. auto. Qed.

Lemma demo_rows_fit {P : Payload (list Z) Z} rows : length rows <= 10 -> w_fit demo_pconf fresh_w (demo_rows rows).
Proof.
  intros Hl. unfold demo_rows. cbn [w_fit data_call w_next usable demo_pconf pc_storage pc_index andb first_exn
                         ws_live ws_db s_open s_recs fits].
  split; [apply demo_rand_ok|]. split; [|exact I]. intros _. split; [apply demo_rand_ok|].
  intros _. split; [|split].
  - split; [intros i j _ _; apply demo_ids_inj|]. intros i Hi. split; [apply demo_ids_uuid; lia|].
    cbn. auto.
  - rewrite Forall_forall. auto.
  - discriminate.
Qed.

(** Vectors of 600 megabytes. *)
Definition big_payload : Payload (list Z) Z := {|
  nbytes _ := 629145600%N; strbytes _ := 5%N; copyable _ := true; picklable _ := true |}.

(** C164 is false of the memory the database really holds: the graph index keeps its own copy of
    every vector, which no figure counts.  Here the index holds 1.8 gigabytes and the report is
    healthy without a warning. *)
Theorem C164_refuted :
  exists (P : Payload (list Z) Z) (ops : list (pop Z Z)),
    w_fit demo_pconf fresh_w ops /\
    let pw := snd (prod_run (fun l => l) 16 50 MEuclidean npy_size pkl_size (prod_new 1 demo_pconf) ops) in
    (exists n mem dsk tr q p,
       fst (prod_step (fun l => l) 16 50 MEuclidean npy_size pkl_size pw PHealth) =
       PReport (Healthy n mem dsk tr q p [])) /\
    exists cl, w_client pw = Some cl /\
      (1048576000 < fold_right (fun v a => nbytes v + a) 0 (dvals (h_vectors (c_index cl))))%N.
Proof.
  exists big_payload, (demo_rows [[0; 0]; [3; 4]; [6; 8]]%Z).
  split; [apply demo_rows_fit; cbn; lia|]. cbv zeta. split.
  - exists 3%Z, 629145600%N, 432%N, true, true, false. vm_compute. reflexivity.
  - eexists. split; [vm_compute; reflexivity|]. vm_compute. reflexivity.
Qed.

(** C165 is false of a backup: two databases with different vectors write the same backup, both
    reported done, and answer the same search differently.  Nothing can restore from it. *)
Theorem C165_refuted :
  exists ops1 ops2 : list (pop Z Z),
    w_fit demo_pconf fresh_w ops1 /\ w_fit demo_pconf fresh_w ops2 /\
    let after := fun ops => snd (prod_run (fun l => l) 16 50 MEuclidean npy_size pkl_size (prod_new 10 demo_pconf) ops) in
    let backed := fun ops => prod_step (fun l => l) 16 50 MEuclidean npy_size pkl_size (after ops)
                               (PBackup (py "b.json") (Ok tt)) in
    fst (backed ops1) = PBool true /\ fst (backed ops2) = PBool true /\
    w_backups (snd (backed ops1)) = w_backups (snd (backed ops2)) /\
    fst (prod_step (fun l => l) 16 50 MEuclidean npy_size pkl_size (after ops1) (PSearch low (Vec [0; 0]%Z) 1)) <>
    fst (prod_step (fun l => l) 16 50 MEuclidean npy_size pkl_size (after ops2) (PSearch low (Vec [0; 0]%Z) 1)).
Proof.
  exists (demo_rows [[3; 4]]%Z), (demo_rows [[6; 8]]%Z).
  split; [apply demo_rows_fit; cbn; lia|]. split; [apply demo_rows_fit; cbn; lia|].
  cbv zeta. split; [|split; [|split]]; vm_compute; try reflexivity. discriminate.
Qed.

Print Assumptions C163_histories.
Print Assumptions C164_health_partial.
Print Assumptions C164_refuted.
Print Assumptions C165_backup_partial.
Print Assumptions C165_refuted.
