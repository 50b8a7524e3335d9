(* Specification vocabulary for files made by other programs, edited and saved by appending. *)
From Coq Require Import String.
From Verif Require Import PyBase Model_Filters Model_Objects Model_Filestruct Model_Docstruct Model_Api.
From Verif Require Import Spec_Objects Spec_Filestruct Spec_Docstruct Spec_Api Spec_Save Spec_Packed.

Section WithZlib.
Context {ZL : Zlib}.

(* the object found at position p of a file, after its number, its generation and obj *)
Definition object_read (F : bytes) (p : nat) : res obj :=
  let '(_, j1, _) := next_token F p in
  let '(_, j2, _) := next_token F j1 in
  let '(_, j3, _) := next_token F j2 in
  let '(i4, _, _) := next_token F j3 in
  parse_obj F i4.
(* the dictionary found at position p of a file, after trailer or as the one of a stream *)
Definition trailer_read (F : bytes) (p : nat) : res dict :=
  let '(i, j, _) := next_token F p in
  let i' := if beqb (sub F i j) W_trailer then let '(i1, _, _) := next_token F j in i1
            else let '(_, j1, _) := next_token F j in
                 let '(_, j2, _) := next_token F j1 in
                 let '(i3, _, _) := next_token F j2 in i3 in
  let* o := parse_obj F i' in
  match o with PDict d => Ok d | PStream d _ _ => Ok d | _ => Exc ETypeError end.

(* an entry that is not in an object stream, at position p *)
Definition direct_at (e : ient) (p : Z) : Prop := n_env e = None /\ n_pos e = Some (AInt p).

(* the xref sections of a file (newest first) are in the order of their positions, all they
   list is in the file, and object streams are listed before the objects they hold *)
Record sectioned (F : bytes) (cs : list (list ient)) : Prop := mk_sectioned {
  sc_order : increasing 0 (rev cs);
  sc_entry : forall s e, In s cs -> In e s -> n_next e = None /\ n_del e = false /\
    ((exists p, direct_at e p /\ 0 <= p < blen F) \/ exists env off, n_env e = Some env /\ n_pos e = Some (ATup env off));
  sc_head : forall s, In s cs -> exists t es, s = t :: es /\ n_num t = 0 /\ n_env t = None;
  sc_numbers : forall s e, In s cs -> In e (tl s) ->
    (n_num e = -1 /\ n_env e = None) \/
    (1 <= n_num e /\ exists s' e', In s' cs /\ In e' (tl s') /\ n_env e' = None /\ n_num e <= n_num e');
  sc_eof : forall s, In s cs -> exists e, In e (tl s) /\ n_num e = -1;
  sc_inside : forall j s e env, nth_error (rev cs) j = Some s -> In e (tl s) -> n_env e = Some env ->
    0 < env /\ exists i s' e', (i <= j)%nat /\ nth_error (rev cs) i = Some s' /\ In e' (tl s') /\ n_num e' = env;
  sc_container : forall j s e env i s' e', nth_error (rev cs) j = Some s -> In e (tl s) -> n_env e = Some env ->
    (i <= j)%nat -> nth_error (rev cs) i = Some s' -> In e' (tl s') -> n_num e' = env -> n_env e' = None
}.

(* the number of the xref stream of the first revision *)
Definition oldest_xsn (cs : list (list ient)) : option Z :=
  match rev cs with (h :: _) :: _ => n_xsn h | _ => None end.

(* a file that is read as the sections cs: x is the position of its last section, t its
   trailer; it ends by an end of file marker, and its last section brings something new *)
Record readable (fuel : nat) (F : bytes) (cs : list (list ient)) (x : Z) (t : dict) : Prop := mk_readable {
  rb_read : xref_chrono fuel (PvSingle F) = Ok cs;
  rb_secs : sectioned F cs;
  rb_start : 0 < x /\ exists h es older p, cs = (h :: es) :: older /\ section_pos (h :: es) = Some x /\
    n_pos h = Some (AInt p) /\ trailer_read F (Z.to_nat p) = Ok t;
  rb_trailer : wfv (PDict t) /\ dget K_XRefStm t = None;
  rb_end : exists b l c older, F = b ++ B "%%EOF" ++ l /\ Forall eol l /\ cs = c :: older /\
    forall e, In e (tl c) -> n_num e = -1 -> n_pos e = Some (AInt (blen b));
  rb_news : exists h es older e, cs = (h :: es) :: older /\ In e es /\ 0 < n_num e /\ n_xsn h <> Some (n_num e) /\
    forall s e', In s older -> In e' (tl s) -> n_num e' = n_num e -> n_pos e' <> n_pos e
}.
(* sections that list the same objects *)
Definition alike (s s' : list ient) : Prop :=
  filter (fun e => 0 <? n_num e) (tl s) = filter (fun e => 0 <? n_num e) (tl s') /\
  exists h es h' es', s = h :: es /\ s' = h' :: es' /\ n_xsn h = n_xsn h'.
(* a file that stays as it is read when something is appended: the sections found from x are
   alike, and the objects are the same *)
Record lasting (fuel : nat) (F : bytes) (cs cs' : list (list ient)) (x : Z) (t : dict) : Prop := mk_lasting {
  la_readable : readable fuel F cs x t;
  la_alike : Forall2 alike cs cs' /\ sectioned F cs';
  la_again : forall X, xref_chain (S fuel) (PvSingle (F ++ X)) (F ++ X) x 0 = Ok cs';
  la_objects : forall s e p X, In s cs -> In e (tl s) -> 0 < n_num e -> direct_at e p ->
    object_read (F ++ X) (Z.to_nat p) = object_read F (Z.to_nat p)
}.

(* reads, additions, and updates of objects of generation 0 that are not in an object stream
   and are not object streams nor the xref stream of the first revision *)
Inductive revised (d0 : doc) : doc -> Prop :=
| Re_none : revised d0 d0
| Re_read d g n v d1 : revised d0 d -> 0 <= n -> get_object d (PRef g n) = Ok (v, d1) -> revised d0 d1
| Re_update d n o row e d1 : revised d0 d -> 0 < n -> first_xsn d <> Ok (Some n) -> savable o -> open_row d row -> cell row n (SDict e) -> n_gen e = 0 -> n_env e = None ->
    (forall k ek, cell row k (SDict ek) -> n_env ek <> Some n) -> update_object d n o = Ok d1 -> revised d0 d1
| Re_add d o d1 r : revised d0 d -> savable o -> add_object d o = Ok (d1, r) -> revised d0 d1.

(* the xref stream of an update is written over the one of the first revision, numbered k: this
   number is listed, it is not the one of an object stream nor of an object inside one, and the
   trailer has no filter or one of the supported ones *)
Definition one_filter (t : dict) : Prop :=
  (dget K_DecodeParms t = None \/ exists v, dget K_DecodeParms t = Some v /\ obj_truthy v = true) /\
  (dget K_Filter t = None \/ exists n, (dget K_Filter t = Some (PStr n) \/ dget K_Filter t = Some (PList [PStr n])) /\
     In n [B "/FlateDecode"; B "/ASCIIHexDecode"; B "/ASCII85Decode"]).
Definition reusable (F : bytes) (cs : list (list ient)) (t : dict) : Prop :=
  forall k, oldest_xsn cs = Some k -> 0 < k /\ 100 <= blen F /\ one_filter t /\
    (exists s e, In s cs /\ In e (tl s) /\ n_num e = k) /\
    forall s e, In s cs -> In e (tl s) -> n_env e <> Some k /\ (n_num e = k -> n_env e = None).
(* saved without an xref stream, or with one whose content does not hold the word that ends it *)
Definition plainly_saved (d d2 : doc) (F : bytes) : Prop := first_xsn d = Ok None \/ xref_clean d2 F.
(* the same entries, except the ones that describe the section *)
Definition same_trailer (ta tb : dict) : Prop :=
  forall k, ~ xref_entry k -> (dget k ta = None <-> dget k tb = None) /\ forall a b, dget k ta = Some a -> dget k tb = Some b -> peq a b.

(* the file F is opened, edited and saved, then opened again, and so on: G is the file after
   the last save and d the document opened from it *)
Inductive maintained (f : nat) (F : bytes) : nat -> bytes -> doc -> Prop :=
| Ma_open d : loads f F = Ok d -> maintained f F f F d
| Ma_save n G d d1 out d2 d3 : maintained f F n G d -> revised d d1 -> writefile d1 = Ok (out, d2) -> blen out < 10 ^ 10 ->
    plainly_saved d1 d2 out -> loads (S n) out = Ok d3 -> maintained f F (S n) out d3.

End WithZlib.
