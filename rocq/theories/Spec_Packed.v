(* Specification vocabulary for documents written with an xref stream and an object stream. *)
From Coq Require Import String.
From Verif Require Import PyBase Model_Filters Model_Objects Model_Filestruct Model_Docstruct Model_Api.
From Verif Require Import Spec_Objects Spec_Filestruct Spec_Docstruct Spec_Pages Spec_Squash Spec_Calls Spec_Save.

Section WithZlib.
Context {ZL : Zlib}.

(* stored bytes that end where the keyword endstream says they do *)
Definition clean (e : bytes) : Prop := e <> [] /\ ~ occurs W_endstream e /\ last e 0 <> 13.
(* an object stream is completed when it is written: its content is then made of bytes, and
   stored as clean bytes *)
Definition completes_clean (o : obj) : Prop :=
  forall d s e, finalize_stream o = Ok (PStream d (Some s) (Some e)) -> Forall (fun c => 0 <= c < 256) s /\ clean e.
(* no filter, or one of the supported filters, without parameters *)
Definition simply_filtered (d : dict) : Prop :=
  dget K_DecodeParms d = None /\
  (dget K_Filter d = None \/ dget K_Filter d = Some (PStr (B "/FlateDecode")) \/ dget K_Filter d = Some (PStr (B "/ASCIIHexDecode")) \/ dget K_Filter d = Some (PStr (B "/ASCII85Decode"))).

(* a new document whose next revision will be written with an xref stream, with objects
   grouped in the object stream env *)
Record packable (d : doc) (env : Z) : Prop := mk_packable {
  pk_shape : exists row p, d_index d = [row] /\ d_data d = [mk_datum None None (Some p)] /\
    length (d_cache d) = length row /\
    (exists e0, cell row 0 (SDict e0) /\ n_env e0 = None /\ n_xsn e0 = Some (-1) /\ n_del e0 = false /\ n_xt e0 = None) /\
    (exists n e, cell row n (SDict e) /\ n_env e = Some env) /\
    forall n s, 0 < n -> cell row n s -> exists e o, s = SDict e /\ n_gen e = 0 /\ n_del e = false /\ cell (d_cache d) n o /\
      (n_env e = None /\ (n = env \/ savable o) \/ n <> env /\ n_env e = Some env /\ wf_top o);
  pk_stream : exists sd en, 0 < env /\ cell (d_cache d) env (PStream sd (Some []) en) /\ wfv (PDict sd) /\
    dget K_Type sd = Some (PStr V_ObjStm) /\ dget K_First sd = None /\ dget K_N sd = None /\
    dget K_FirstLine sd = None /\ simply_filtered sd;
  pk_trailer : exists t, cell (d_cache d) 0 (PDict t) /\ wfv (PDict t) /\
    dget K_Prev t = None /\ dget K_XRefStm t = None /\ simply_filtered t
}.

(* the bytes stored by the xref stream, between its dictionary and the end of the file, are
   clean: /Length counts them and the end of line after them *)
Definition file_end (x : Z) : bytes :=
  [10] ++ W_endstream ++ [10] ++ B "endobj" ++ [10] ++ B "startxref" ++ [10] ++ dec x ++ [10] ++ B "%%EOF" ++ [10].
Definition xref_clean (d : doc) (F : bytes) : Prop :=
  forall t x l, cell (d_cache d) 0 (PDict t) -> dget K_Prev t = Some (PInt x) -> dget K_Length t = Some (PInt l) ->
    l <> 1 /\ forall a e, F = a ++ e ++ file_end x -> l = blen e + 1 -> clean e.
(* the entries that an xref stream adds to the trailer *)
Definition xref_entry (k : bytes) : Prop :=
  k = K_Type \/ k = K_Length \/ k = K_W \/ k = K_Index \/ k = K_Size \/ k = K_Prev.

(* ---- compress ---- *)
(* a stream whose stored bytes decode to its content *)
Definition sound_stream (v : obj) : Prop :=
  exists x c e, v = PStream x (Some c) (Some e) /\ wfv (PDict x) /\ Forall (fun z => 0 <= z < 256) c /\ simply_filtered x /\
    decode_stream (Some e) x = Ok (Some c).
(* a document without object streams nor xref streams, with the catalog cat at c, whose
   live objects are well-formed values or sound streams *)
Record compressible (d : doc) (c : Z) (cat : dict) : Prop := mk_compressible {
  cp_editable : editable d;
  cp_numbers : self_numbered d;
  cp_catalog : catalog_at d c cat;
  cp_root : exact_root d;
  cp_table : first_xsn d = Ok None;
  cp_values : forall r n v, names d r n -> value d n = Ok v -> wf_top v \/ sound_stream v /\ is_objstm v = false
}.
(* what becomes of an object of a document of version ver: a stream is deflated, the catalog
   asks for version 1.5 when ver is sooner, the rest is kept *)
Inductive compressed_as (ver : bytes) (is_cat : Prop) : obj -> obj -> Prop :=
| Co_stream w u : refiltered (B "/FlateDecode") w u -> compressed_as ver is_cat w u
| Co_raised c : is_cat -> sooner ver (B "1.5") ->
    compressed_as ver is_cat (PDict c) (PDict (dset K_Version (PStr (B "/1.5")) c))
| Co_same w : (forall x s e, w <> PStream x s e) -> (is_cat -> ~ sooner ver (B "1.5")) -> compressed_as ver is_cat w w.
(* the streams numbered up to m are stored as clean bytes *)
Definition stored_clean (d : doc) (m : Z) : Prop :=
  forall n x s e, 0 < n <= m -> cell (d_cache d) n (PStream x s (Some e)) -> clean e.

End WithZlib.
