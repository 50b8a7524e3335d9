(* Properties of documents *)
From Coq Require Import String.
From Verif Require Import PyBase Model_Filters Model_Objects Model_Filestruct Model_Text Model_Docstruct Model_Api.
From Verif Require Import Spec_Filters Spec_Objects Spec_Filestruct Spec_Docstruct Spec_Api Facts_Doc Facts_Commit Facts_Write Cases_Docstruct.

(* ---- C25 ---- *)
(* an object outside object streams, that is not an object stream holding live objects,
   in a document whose object streams are coherent with its index *)
Theorem C25_read_your_writes_partial : forall {ZL : Zlib} d n v d1 l d2,
  0 < n -> coherent d -> (exists p, provider d p) ->
  (forall row e, open_row d row -> cell row n (SDict e) -> n_env e = None) ->
  (forall row k e, open_row d row -> cell row k (SDict e) -> n_del e = false -> n_env e <> Some n) ->
  update_object d n v = Ok d1 -> doc_reads d1 l d2 ->
  value d2 n = Ok v /\ forall k, 0 <= k -> k <> n -> value d2 k = value d k.
Proof.
  intros ZL d n v d1 l d2 N C P H1 H2 U R. apply (update_reads d n v d1 l d2); auto.
  exact (update_coherent d n v d1 N U C H1 H2).
Qed.
Print Assumptions C25_read_your_writes_partial.
(* a file with an object stream: the update of an object of the stream is lost when
   another one is read *)
Theorem C25_refuted : exists (f : bytes) d d1 v2 d2,
  @loads store_codec 10 f = Ok d /\ @update_object d 3 (PInt 7) = Ok d1 /\
  @value store_codec d1 3 = Ok (PInt 7) /\
  @get_object store_codec d1 (PRef 0 2) = Ok (v2, d2) /\ @value store_codec d2 3 <> Ok (PInt 7).
Proof.
  exists packed_file, packed_doc. do 3 eexists. split; [vm_compute; reflexivity|]. split; [vm_compute; reflexivity|].
  split; [vm_compute; reflexivity|]. split; [vm_compute; reflexivity|]. vm_compute. discriminate.
Qed.
Print Assumptions C25_refuted.
Example C25_case : exists p d1, provider packed_doc p /\ @coherent store_codec packed_doc /\
  (forall row e, open_row packed_doc row -> cell row 4 (SDict e) -> n_env e = None) /\
  (forall row k e, open_row packed_doc row -> cell row k (SDict e) -> n_del e = false -> n_env e <> Some 4) /\
  update_object packed_doc 4 (PInt 7) = Ok d1.
Proof.
  eexists. eexists. split; [apply fdata_provider; vm_compute; reflexivity|]. split; [apply coherentb_ok; vm_compute; reflexivity|].
  split; [|split; [|vm_compute; reflexivity]].
  - intros row e O C. apply open_last in O. vm_compute in O. injection O as <-. destruct C as [_ C]. vm_compute in C. now injection C as <-.
  - intros row k e O C _ E. apply open_last in O. vm_compute in O. injection O as <-. destruct C as [_ C]. apply nth_error_In in C.
    repeat (destruct C as [C|C]; [injection C as <-; discriminate E|]). destruct C.
Qed.

(* ---- C26 ---- *)
Theorem C26_reads_independent_partial : forall {ZL : Zlib} d l d', coherent d -> doc_reads d l d' ->
  forall k, 0 <= k -> value d' k = value d k.
Proof. intros ZL d l d' C R. exact (proj2 (reads_stable d l d' C R)). Qed.
Print Assumptions C26_reads_independent_partial.
(* documents without object streams are coherent *)
Theorem C26_plain : forall {ZL : Zlib} d l d', plain d -> doc_reads d l d' ->
  forall k, 0 <= k -> value d' k = value d k.
Proof. intros ZL d l d' C R. exact (proj2 (reads_stable d l d' (plain_coherent d C) R)). Qed.
Print Assumptions C26_plain.
Theorem C26_refuted : exists (f : bytes) d v2 d2,
  @loads store_codec 10 f = Ok d /\ @get_object store_codec d (PRef 0 2) = Ok (v2, d2) /\
  @value store_codec d 3 = Ok (PInt 7) /\ @value store_codec d2 3 <> Ok (PInt 7).
Proof.
  exists updated_file, updated_doc. do 2 eexists. split; [vm_compute; reflexivity|]. split; [vm_compute; reflexivity|].
  split; [vm_compute; reflexivity|]. vm_compute. discriminate.
Qed.
Print Assumptions C26_refuted.
Example C26_case : exists p v d1 v' d2, provider packed_doc p /\ @coherent store_codec packed_doc /\
  @get_object store_codec packed_doc (PRef 0 2) = Ok (v, d1) /\ @get_object store_codec d1 (PRef 0 3) = Ok (v', d2) /\
  d_cache d2 <> d_cache packed_doc.
Proof.
  do 5 eexists. split; [apply fdata_provider; vm_compute; reflexivity|]. split; [apply coherentb_ok; vm_compute; reflexivity|].
  split; [vm_compute; reflexivity|]. split; [vm_compute; reflexivity|]. vm_compute. discriminate.
Qed.

(* ---- C27 ---- *)
Theorem C27_changes_exact_partial : forall d rev previous current,
  0 < rev -> cell (d_index d) rev current -> cell (d_index d) (rev - 1) previous ->
  tidy current -> tidy previous -> (exists s0, cell current 0 s0 /\ s0 <> SNone) ->
  exists chg, changes_at d rev = Ok chg /\ lists_differences previous current chg.
Proof. exact changes_at_spec. Qed.
Print Assumptions C27_changes_exact_partial.
Theorem C27_pending_changes : forall d l previous current, d_index d = l ++ [previous; current] ->
  tidy current -> tidy previous -> (exists s0, cell current 0 s0 /\ s0 <> SNone) ->
  exists chg, changes d = Ok chg /\ lists_differences previous current chg.
Proof. exact changes_spec. Qed.
Print Assumptions C27_pending_changes.
Theorem C27_first_revision : forall d current, d_index d = [current] -> tidy current -> (exists s0, cell current 0 s0 /\ s0 <> SNone) ->
  exists chg, changes d = Ok chg /\ NoDup (map chg_num chg) /\
  forall i a g, In ((g, i), a) chg <-> a = Add /\ 0 < i /\ exists e, at_num current i = SDict e /\ g = n_gen e /\ ~ xref_object current i.
Proof. exact changes_single. Qed.
Print Assumptions C27_first_revision.
(* revision 0 of a document with several revisions is compared with the last one *)
Theorem C27_refuted : exists d current e, @blank store_codec (B "A4") = Ok d /\ cell (d_index d) 0 current /\
  cell current 1 (SDict e) /\ ~ xref_object current 1 /\ changes_at d 0 = Ok [].
Proof.
  exists blank_doc. do 2 eexists. split; [vm_compute; reflexivity|]. split; [split; [lia|vm_compute; reflexivity]|].
  split; [split; [lia|vm_compute; reflexivity]|]. split; [|vm_compute; reflexivity].
  intros (e & [_ C] & X). vm_compute in C. injection C as <-. discriminate X.
Qed.
Print Assumptions C27_refuted.
Example C27_case : exists d1 d2 r l previous current, update_object blank_doc 3 PNone = Ok d1 /\ add_object d1 (PInt 7) = Ok (d2, r) /\
  d_index d2 = l ++ [previous; current] /\ tidy current /\ tidy previous /\ (exists s0, cell current 0 s0 /\ s0 <> SNone) /\
  changes d2 = Ok [((0, 3), Del); ((0, 4), Add)].
Proof.
  do 3 eexists. exists []. do 2 eexists. split; [vm_compute; reflexivity|]. split; [vm_compute; reflexivity|].
  split; [vm_compute; reflexivity|].
  split; [|split; [|split; [|vm_compute; reflexivity]]].
  1, 2: intros n s _ [_ C] l E; apply nth_error_In in C; subst s; repeat (destruct C as [C|C]; [discriminate C|]); destruct C.
  eexists. split; [split; [lia|reflexivity]|discriminate].
Qed.

(* ---- C29 ---- *)
Theorem C29_add_fresh_partial : forall {ZL : Zlib} d l d2 row, open_row d row -> length (d_cache d) = length row ->
  (exists p, provider d p) -> coherent d -> Forall (fun x => fst x <> PNone) l -> additions d l d2 ->
  map snd l = map (fun k => (0, Z.of_nat (length row) + Z.of_nat k)) (seq 0 (length l)) /\
  Forall (fun x => value d2 (snd (snd x)) = Ok (fst x)) l /\
  (forall k, 0 <= k < Z.of_nat (length row) -> value d2 k = value d k) /\
  removelast (d_index d2) = removelast (d_index d) /\ d_data d2 = d_data d.
Proof.
  intros ZL d l d2 row O L P C F A. destruct (additions_ok d l d2 A row O L P C F) as (H1 & H2 & H3 & H4 & H5 & _).
  repeat (split; [assumption|]). exact H5.
Qed.
Print Assumptions C29_add_fresh_partial.
(* None cannot be read back *)
Theorem C29_none_refuted : exists d d1 r, @blank store_codec (B "A4") = Ok d /\ add_object d PNone = Ok (d1, r) /\
  @value store_codec d1 (snd r) = Exc EKeyError.
Proof. exists blank_doc. do 2 eexists. split; [vm_compute; reflexivity|]. split; [vm_compute; reflexivity|]. vm_compute. reflexivity. Qed.
Print Assumptions C29_none_refuted.
(* after compress, the index has one cell more than the cache *)
Theorem C29_refuted : exists d d1, @blank store_codec (B "A4") = Ok d /\ @compress store_codec d = Ok d1 /\
  forall v, add_object d1 v = Exc EIndexError.
Proof. exists blank_doc, compressed_doc. split; [vm_compute; reflexivity|]. split; [vm_compute; reflexivity|]. intro v. vm_compute. reflexivity. Qed.
Print Assumptions C29_refuted.
Example C29_case : exists p row d1 r1 d2 r2, provider packed_doc p /\ open_row packed_doc row /\ length (d_cache packed_doc) = length row /\
  @coherent store_codec packed_doc /\ add_object packed_doc (PInt 7) = Ok (d1, r1) /\ add_object d1 (PList [PRef 0 6]) = Ok (d2, r2) /\
  additions packed_doc [(PInt 7, r1); (PList [PRef 0 6], r2)] d2 /\ r2 = (0, 7).
Proof.
  do 6 eexists. split; [apply fdata_provider; vm_compute; reflexivity|]. split; [apply last_open; vm_compute; reflexivity|].
  split; [vm_compute; reflexivity|]. split; [apply coherentb_ok; vm_compute; reflexivity|].
  split; [vm_compute; reflexivity|]. split; [vm_compute; reflexivity|]. split; [|reflexivity].
  eapply Ad_cons; [vm_compute; reflexivity|]. eapply Ad_cons; [vm_compute; reflexivity|]. constructor.
Qed.

(* ---- C28 ---- *)
Theorem C28_nothing_pending : forall {ZL : Zlib} d, changes d = Ok [] -> commit d = Ok d.
Proof. intros ZL d H. unfold commit. rewrite H. reflexivity. Qed.
Print Assumptions C28_nothing_pending.
(* except for the trailer (0) and the xref stream, whose content changes by design *)
Theorem C28_commit_partial : forall {ZL : Zlib} d chg d', ready d -> (exists p, provider d p) -> changes d = Ok chg -> chg <> [] -> commit d = Ok d' ->
  (exists lx row row' last, d_index d = lx ++ [row] /\ d_index d' = lx ++ [row'; last]) /\
  changes d' = Ok [] /\ commit d' = Ok d' /\ ready d' /\ (exists p, provider d' p) /\
  forall row k, open_row d row -> 0 < k < Z.of_nat (length row) -> first_xsn d <> Ok (Some k) -> value d' k = value d k.
Proof. exact @commit_ready. Qed.
Print Assumptions C28_commit_partial.
(* every document made from blank by reads, updates, deletions, additions and commits *)
Theorem C28_sessions : forall {ZL : Zlib} size d0 d chg d', blank size = Ok d0 -> session d0 d -> changes d = Ok chg -> chg <> [] -> commit d = Ok d' ->
  (exists lx row row' last, d_index d = lx ++ [row] /\ d_index d' = lx ++ [row'; last]) /\
  changes d' = Ok [] /\ commit d' = Ok d' /\
  forall row k, open_row d row -> 0 < k < Z.of_nat (length row) -> first_xsn d <> Ok (Some k) -> value d' k = value d k.
Proof.
  intros ZL size d0 d chg d' HB S C N H. destruct (blank_ready size d0 HB) as [R0 S0]. destruct (session_ready d0 d S R0 S0) as [R (_ & P & _)].
  destruct (commit_ready d chg d' R P C N H) as (H1 & H2 & H3 & _ & _ & H4). auto.
Qed.
Print Assumptions C28_sessions.
(* the same from any document that satisfies the invariant, e.g. a loaded one *)
Theorem C28_sessions_partial : forall {ZL : Zlib} d0 d, session d0 d -> ready d0 -> simple d0 -> ready d /\ simple d.
Proof. exact @session_ready. Qed.
Print Assumptions C28_sessions_partial.
Example C28_case : exists d1 d2 r d3, update_object loaded_doc 3 PNone = Ok d1 /\ add_object d1 (PInt 7) = Ok (d2, r) /\ @commit store_codec d2 = Ok d3 /\
  @ready store_codec loaded_doc /\ simple loaded_doc /\ @session store_codec loaded_doc d2 /\
  changes d2 = Ok [((0, 3), Del); ((0, 4), Add)] /\ length (d_index d2) = 2%nat /\ length (d_index d3) = 3%nat /\ @value store_codec d3 4 = Ok (PInt 7).
Proof.
  do 4 eexists. split; [vm_compute; reflexivity|]. split; [vm_compute; reflexivity|]. split; [vm_compute; reflexivity|].
  split; [apply readyb_ok; vm_compute; reflexivity|]. split; [apply simpleb_ok; vm_compute; reflexivity|].
  split; [|split; [vm_compute; reflexivity|split; [vm_compute; reflexivity|split; vm_compute; reflexivity]]].
  eapply Ss_cons; [eapply (Ed_update _ 3 PNone); [lia|vm_compute; reflexivity]|].
  eapply Ss_cons; [eapply (Ed_add _ (PInt 7)); [discriminate|vm_compute; reflexivity]|]. constructor.
Qed.
(* a document with object streams *)
Example C28_packed_case : exists d1 d2 r, update_object packed_doc 5 (PInt 7) = Ok d1 /\ add_object packed_doc (PInt 7) = Ok (d2, r) /\
  @ready store_codec packed_doc /\ @ready store_codec d2 /\ changes d2 = Ok [((0, 6), Add)].
Proof.
  do 3 eexists. split; [vm_compute; reflexivity|]. split; [vm_compute; reflexivity|].
  split; [apply readyb_ok; vm_compute; reflexivity|]. split; [apply readyb_ok; vm_compute; reflexivity|vm_compute; reflexivity].
Qed.

(* ---- C30 ---- *)
Theorem C30_original_bytes_partial : forall {ZL : Zlib} fuel f d xi tr t body l tail d2 out d3, loads fuel f = Ok d ->
  last_section f = Ok (xi, tr, t) -> dget K_XRefStm tr = None -> last_marker f body l tail ->
  (length f <= length body + 100)%nat -> (100 <= length f)%nat ->
  operations d d2 -> writefile d2 = Ok (out, d3) -> starts_with out (body ++ B "%%EOF" ++ l).
Proof. exact @original_prefix. Qed.
Print Assumptions C30_original_bytes_partial.
Theorem C30_written_bytes : forall {ZL : Zlib} d0 d d1 d2 out out2 d3,
  (exists fuel p, doc_constructor fuel p = Ok d0) \/ (exists size, blank size = Ok d0) -> operations d0 d ->
  writefile d = Ok (out, d1) -> operations d1 d2 -> writefile d2 = Ok (out2, d3) -> starts_with out2 out.
Proof.
  intros ZL d0 d d1 d2 out out2 d3 S O W O2 W2.
  assert (SH : exists cuts frags tl, shaped d0 cuts frags tl).
  { destruct S as [(fuel & p & E)|(size & E)]; [exact (loaded_shape fuel p d0 E)|exact (blank_shape size d0 E)]. }
  destruct SH as (cuts & frags & tl & SH). destruct (operations_shape d0 d O cuts frags tl SH) as (c1 & f1 & t1 & S1 & _).
  exact (written_prefix d c1 f1 t1 out d1 d2 out2 d3 S1 W O2 W2).
Qed.
Print Assumptions C30_written_bytes.
(* the end of a revision with /XRefStm is taken from the section it names: the last revision
   of this file is not written *)
Theorem C30_refuted : exists d out d1, @loads store_codec 10 hybrid_file = Ok d /\ @writefile store_codec d = Ok (out, d1) /\
  (length out < length hybrid_file)%nat /\ exists body, hybrid_file = body ++ B "%%EOF" ++ [10].
Proof.
  do 3 eexists. split; [vm_compute; reflexivity|]. split; [vm_compute; reflexivity|]. split; [vm_compute; lia|].
  exists (firstn (length hybrid_file - 6) hybrid_file). vm_compute. reflexivity.
Qed.
Print Assumptions C30_refuted.
Example C30_case : exists body l xi tr t d1 out d2, @loads store_codec 10 updated_file = Ok updated_doc /\
  @last_section store_codec updated_file = Ok (xi, tr, t) /\ dget K_XRefStm tr = None /\
  updated_file = body ++ B "%%EOF" ++ l /\ last_marker updated_file body l [] /\
  (length updated_file <= length body + 100)%nat /\ (100 <= length updated_file)%nat /\
  update_object updated_doc 2 (PList [PRef 0 1; PInt 9]) = Ok d1 /\ @operations store_codec updated_doc d1 /\
  @writefile store_codec d1 = Ok (out, d2) /\ length out <> length updated_file.
Proof.
  exists (firstn (length updated_file - 6) updated_file), [10]. do 6 eexists.
  split; [vm_compute; reflexivity|]. split; [vm_compute; reflexivity|]. split; [vm_compute; reflexivity|]. split; [vm_compute; reflexivity|].
  split. { split; [vm_compute; reflexivity|]. split; [constructor; [left; reflexivity|constructor]|]. split; [exact Logic.I|].
    intros b r E. assert (L : length updated_file = length (b ++ B "%%EOF" ++ r)) by (rewrite E at 1; reflexivity). rewrite !app_length in L.
    change (length (B "%%EOF")) with 5%nat in L. rewrite firstn_length.
    destruct r as [|c r]; [|cbn [length] in L; lia]. exfalso. rewrite app_nil_r in E. apply (f_equal (@rev Z)) in E. rewrite rev_app_distr in E. vm_compute in E. discriminate E. }
  split; [vm_compute; lia|]. split; [vm_compute; lia|]. split; [vm_compute; reflexivity|].
  split; [eapply Os_cons; [eapply (Op_update _ 2 (PList [PRef 0 1; PInt 9])); vm_compute; reflexivity|constructor]|].
  split; [vm_compute; reflexivity|]. vm_compute. lia.
Qed.

(* ---- C33 ---- *)
Theorem C33_rewind_commit : forall {ZL : Zlib} d chg d1 d2, changes d = Ok chg -> chg <> [] -> commit d = Ok d1 -> rewind d1 = Ok d2 ->
  exists lx row row' last, d_index d = lx ++ [row] /\ d_index d1 = lx ++ [row'; last] /\ d_index d2 = lx ++ [row'] /\ tl last = tl row'.
Proof. exact @rewind_commit. Qed.
Print Assumptions C33_rewind_commit.
Theorem C33_rewinds : forall {ZL : Zlib} n d d1, rewinds n d d1 -> (1 <= length (d_index d))%nat ->
  d_index d1 = firstn (Nat.max 1 (length (d_index d) - n)) (d_index d) /\ ((length (d_index d) <= S n)%nat -> rewind d1 = Ok d1).
Proof. exact @rewinds_index. Qed.
Print Assumptions C33_rewinds.
Example C33_case : exists d1 d2 d3 d4, update_object updated_doc 3 (PInt 9) = Ok d1 /\ @commit store_codec d1 = Ok d2 /\ @rewind store_codec d2 = Ok d3 /\
  @rewinds store_codec 5 d2 d4 /\ length (d_index d2) = 4%nat /\ length (d_index d3) = 3%nat /\ length (d_index d4) = 1%nat.
Proof.
  do 4 eexists. split; [vm_compute; reflexivity|]. split; [vm_compute; reflexivity|]. split; [vm_compute; reflexivity|].
  split; [|split; [vm_compute; reflexivity|split; [vm_compute; reflexivity|]]].
  - do 5 (eapply Rw_more; [vm_compute; reflexivity|]). constructor.
  - vm_compute. reflexivity.
Qed.
