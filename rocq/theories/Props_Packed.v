(* Properties of documents saved with object streams, and of compress *)
From Coq Require Import String.
From Verif Require Import PyBase Model_Filters Model_Objects Model_Filestruct Model_Text Model_Docstruct Model_Api.
From Verif Require Import Spec_Filters Spec_Objects Spec_Filestruct Spec_Docstruct Spec_Pages Spec_Squash Spec_Calls Spec_Save Spec_Packed.
From Verif Require Import Facts_Base Facts_Xstm Facts_Revision Facts_Doc Facts_Edit Facts_Checks Facts_Concat Facts_Packed Facts_Compress Facts_PackCheck.
From Verif Require Import Cases_Docstruct Cases_Pages Cases_Squash Cases_Packed.
From Coq Require Import ZifyBool ZifyNat.

Lemma store_ok : @zlib_ok store_codec.
Proof. intros b H. reflexivity. Qed.

(* ---- C89 ---- *)
(* full statement: any document with objects to be put in object streams is read again with the
   same values after it is saved.  Missing below: revisions after the first one, several object
   streams in a revision, real numbers and strings that the parser does not read again (wf_top) *)
Theorem C89_packed_partial : forall {ZL : Zlib} d env d1, packable d env -> commit d = Ok d1 ->
  exists F, writefile d = Ok (F, d1) /\ writefile d1 = Ok (F, d1) /\ forall fuel, zlib_ok ->
  (100 <= length F)%nat -> blen F < 10 ^ 10 -> (forall o, cell (d_cache d1) env o -> completes_clean o) -> xref_clean d1 F ->
  exists d2, loads fuel F = Ok d2 /\ coherent d2 /\
    (forall n o, 0 < n -> n <> env -> value d n = Ok o -> exists v, value d2 n = Ok v /\ peq o v) /\
    (exists t t1 t2, cell (d_cache d) 0 (PDict t) /\ cell (d_cache d1) 0 (PDict t1) /\ cell (d_cache d2) 0 (PDict t2) /\
       (forall k, ~ xref_entry k -> dget k t1 = dget k t) /\ forall k0, same_entries k0 t1 t2).
Proof. intros ZL. exact (@packed_commit ZL). Qed.
Print Assumptions C89_packed_partial.
Example C89_case : @packable store_codec packed_doc 12 /\ @commit store_codec packed_doc = Ok compressed_doc /\ @zlib_ok store_codec /\
  @writefile store_codec packed_doc = Ok (compressed_file, compressed_doc) /\
  (100 <= length compressed_file)%nat /\ blen compressed_file < 10 ^ 10 /\
  (forall o, cell (d_cache compressed_doc) 12 o -> @completes_clean store_codec o) /\ xref_clean compressed_doc compressed_file /\
  @loads store_codec 10 compressed_file = Ok reloaded_doc /\
  @value store_codec reloaded_doc 7 = Ok (PDict [(K_Type, PStr K_Page); (K_Parent, PRef 0 6); (B "/Annots", PList [PRef 0 9])]) /\
  @value store_codec reloaded_doc 11 = Ok (PStream [(K_Filter, PStr V_Flate); (B "/X", PInt 3)] (Some (B "BT ET")) (Some (B "BT ET"))).
Proof.
  split; [apply packableb_ok; vm_compute; reflexivity|]. split; [vm_compute; reflexivity|]. split; [exact store_ok|]. split; [vm_compute; reflexivity|]. split; [apply Nat.leb_le; vm_compute; reflexivity|]. split; [vm_compute; reflexivity|].
  split; [|split; [apply xref_cleanb_ok; vm_compute; reflexivity|split; [vm_compute; reflexivity|split; vm_compute; reflexivity]]].
  intros o [_ C]. apply completesb_ok. vm_compute in C. injection C as <-. vm_compute. reflexivity.
Qed.

(* when the file has a table, the objects that are grouped are listed in it at their rank in the
   object stream: a page of a blank document is lost *)
Theorem C89_table_refuted : exists F d d1 d2 d3 F3 d4 v, @loads store_codec 10 F = Ok d /\ update_object d 3 v = Ok d1 /\
  @group_obj_into_stream store_codec d1 None [] = Ok d2 /\ @value store_codec d2 3 = Ok v /\ @writefile store_codec d2 = Ok (F3, d3) /\
  @loads store_codec 10 F3 = Ok d4 /\ @value store_codec d4 3 = Ok (PStr (B "obj")) /\ v <> PStr (B "obj").
Proof.
  exists blank_file, loaded_doc. eexists. eexists. eexists. eexists. eexists. exists (PDict [(K_Type, PStr K_Page); (K_Parent, PRef 0 2); (B "/X", PInt 5)]).
  split; [vm_compute; reflexivity|]. split; [vm_compute; reflexivity|]. split; [vm_compute; reflexivity|]. split; [vm_compute; reflexivity|]. split; [vm_compute; reflexivity|]. split; [vm_compute; reflexivity|]. split; [vm_compute; reflexivity|discriminate].
Qed.
Print Assumptions C89_table_refuted.

(* ---- C28 ---- *)
(* a revision of deletions only cannot be committed when the file has an xref stream: block, the
   local variable of the last object written, is read without having been assigned *)
Theorem C28_deletions_refuted : exists F d d1 n, @loads store_codec 10 F = Ok d /\ update_object d n PNone = Ok d1 /\ changes d1 = Ok [((0, n), Del)] /\
  @commit store_codec d1 = Exc EUnboundLocal /\ @writefile store_codec d1 = Exc EUnboundLocal.
Proof.
  exists compressed_file, reloaded_doc, (get_ok no_doc (update_object reloaded_doc 10 PNone)), 10.
  split; [vm_compute; reflexivity|]. split; [vm_compute; reflexivity|]. split; [vm_compute; reflexivity|]. split; vm_compute; reflexivity.
Qed.
Print Assumptions C28_deletions_refuted.

(* ---- C88 ---- *)
(* full statement: the file made from compress d holds the live objects of d, renumbered from 1,
   with deflated streams, and says version 1.5 at least.  Missing below: documents with object
   streams or an xref stream (see the two refutations), streams with other filters or with
   parameters, references in the dictionaries of streams (see C35_streams_refuted) *)
Theorem C88_compress_partial : forall {ZL : Zlib} d c cat d1 fuel, zlib_ok -> compressible d c cat -> compress d = Ok d1 ->
  exists l f ver dv i, live_numbers d l /\ renumbering d 1 l f /\ version d = Ok (ver, dv) /\ nth_error l i = Some c /\
  (stored_clean d1 (Z.of_nat (length l)) -> exists F, writefile d1 = Ok (F, d1) /\
   ((100 <= length F)%nat -> blen F < 10 ^ 10 -> (forall o, cell (d_cache d1) (Z.of_nat (length l) + 1) o -> completes_clean o) -> xref_clean d1 F ->
    exists d2, loads fuel F = Ok d2 /\ coherent d2 /\
      (forall k n, nth_error l k = Some n -> exists v w u v', value d n = Ok v /\ carried f v w /\ compressed_as ver (n = c) w u /\ value d2 (Z.of_nat k + 1) = Ok v' /\ peq u v') /\
      exists t2, cell (d_cache d2) 0 (PDict t2) /\ dget K_Root t2 = Some (PRef 0 (Z.of_nat i + 1)))).
Proof. intros ZL. exact (@compress_saves ZL). Qed.
Print Assumptions C88_compress_partial.
Example C88_case : exists c cat, @compressible store_codec stream_doc c cat /\ @compress store_codec stream_doc = Ok compressed_doc /\
  in_use stream_doc (-1) = Ok (map (fun n => (0, n)) [1; 2; 3; 4; 5; 7; 8; 9; 11; 12; 13]) /\
  stored_clean compressed_doc 11 /\ @writefile store_codec compressed_doc = Ok (compressed_file, compressed_doc) /\
  (forall o, cell (d_cache compressed_doc) 12 o -> @completes_clean store_codec o) /\ xref_clean compressed_doc compressed_file /\
  (exists dv, @version store_codec stream_doc = Ok (B "1.4", dv)) /\
  @value store_codec stream_doc 12 = Ok (PStream [(K_Filter, PStr (B "/ASCIIHexDecode"))] (Some (B "q Q")) (Some (B "712051"))) /\
  @value store_codec reloaded_doc 10 = Ok (PStream [(K_Filter, PStr V_Flate)] (Some (B "q Q")) (Some (B "q Q"))) /\
  @value store_codec reloaded_doc 1 = Ok (PDict [(K_Version, PStr (B "/1.5")); (K_Type, PStr (B "/Catalog")); (K_Pages, PRef 0 2)]).
Proof.
  destruct (@catalog_of store_codec stream_doc) as [[c cat]|] eqn:E; [|vm_compute in E; discriminate]. exists c, cat.
  split; [apply compressibleb_ok; [vm_compute; reflexivity|apply (catalog_of_ok _ _ _ E)]|]. split; [vm_compute; reflexivity|]. split; [vm_compute; reflexivity|]. split; [apply (stored_cleanb_ok compressed_doc 11); vm_compute; reflexivity|]. split; [vm_compute; reflexivity|].
  split; [|split; [apply xref_cleanb_ok; vm_compute; reflexivity|split; [eexists; vm_compute; reflexivity|split; [vm_compute; reflexivity|split; vm_compute; reflexivity]]]].
  intros o [_ C]. apply completesb_ok. vm_compute in C. injection C as <-. vm_compute. reflexivity.
Qed.
(* a compressed file from which a page was removed: compress fails *)
Theorem C88_shrunk_refuted : exists F d0 p d, @loads store_codec 10 F = Ok d0 /\ @remove_pages store_codec (@rev _) 30 d0 [] [1] = Ok (d, p) /\
  @compress store_codec d = Exc EIndexError.
Proof.
  exists compressed_file, reloaded_doc. do 2 eexists. split; [vm_compute; reflexivity|]. split; [vm_compute; reflexivity|]. vm_compute. reflexivity.
Qed.
Print Assumptions C88_shrunk_refuted.
(* with two streams more, compress does not fail, but the file has neither of them: their new
   numbers are the old ones of the object stream and of the xref stream *)
Theorem C88_overwrites_refuted : exists d d1 F d2, @compress store_codec d = Ok d1 /\ @writefile store_codec d1 = Ok (F, d1) /\ @loads store_codec 10 F = Ok d2 /\
  @value store_codec d 14 = Ok (PStream [] (Some (B "first")) (Some (B "first"))) /\
  forall n x e, 0 <= n -> @value store_codec d2 n <> Ok (PStream x (Some (B "first")) e).
Proof.
  exists extended_doc, (get_ok no_doc (@compress store_codec extended_doc)), (match @writefile store_codec (get_ok no_doc (@compress store_codec extended_doc)) with Ok (b, _) => b | _ => [] end), overwritten_doc.
  split; [vm_compute; reflexivity|]. split; [vm_compute; reflexivity|]. split; [vm_compute; reflexivity|]. split; [vm_compute; reflexivity|].
  intros n x e N V. assert (O : open_row overwritten_doc (match last_row overwritten_doc with Ok r => r | _ => [] end)) by (apply last_open; vm_compute; reflexivity).
  pose proof (@value_range store_codec _ _ _ N V _ O) as R. replace (length _) with 14%nat in R by (vm_compute; reflexivity).
  assert (CH : forallb (fun k => match @value store_codec overwritten_doc (Z.of_nat k) with Ok (PStream _ (Some b) _) => negb (beqb b (B "first")) | _ => true end) (seq 0 14) = true) by (vm_compute; reflexivity).
  rewrite forallb_forall in CH. specialize (CH (Z.to_nat n) ltac:(apply in_seq; lia)). rewrite Z2Nat.id in CH by auto. rewrite V in CH. rewrite beqb_refl in CH. discriminate.
Qed.
Print Assumptions C88_overwrites_refuted.
