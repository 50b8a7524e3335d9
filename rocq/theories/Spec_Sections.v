(* Files made by other programs: xref tables and xref streams linked by /Prev, objects in the
   file or in object streams (ISO 32000, 7.5) *)
From Coq Require Import String.
From Verif Require Import PyBase Model_Filters Model_Objects Spec_Objects Spec_Api Spec_Syntax Spec_Files Spec_Streams.

(* where an object is: nowhere, at an offset, in an object stream *)
Inductive place := Free | At (off gen : Z) | Inside (env idx : Z).
(* a table or a stream: its position, the place of each object it lists, its trailer
   dictionary, its text, the object number of the stream *)
Record fsection := mk_fsection { fs_pos : nat; fs_list : list (Z * place); fs_trailer : dict; fs_text : bytes; fs_num : option Z }.

Definition entry_place (x : tabent) : place := if te_use x then At (te_off x) (te_gen x) else Free.
Fixpoint entry_places (n : Z) (l : list tabent) : list (Z * place) :=
  match l with [] => [] | x :: r => (n, entry_place x) :: entry_places (n + 1) r end.
Definition table_places (l : list (Z * list tabent)) : list (Z * place) := flat_map (fun p => entry_places (fst p) (snd p)) l.
Definition row_place (x : xrow) : place :=
  if xr_type x =? 1 then At (xr_two x) (xr_three x) else if xr_type x =? 2 then Inside (xr_two x) (xr_three x) else Free.

Section WithZlib.
Context {ZL : Zlib}.

Inductive section_text : fsection -> Prop :=
| st_table pos l d txt : table_text l d txt -> section_text (mk_fsection pos (table_places l) d txt None)
| st_stream pos nums rows k g d data enc txt : object_text k g (PStream d (Some data) enc) txt -> xstream_text d nums rows data ->
    section_text (mk_fsection pos (map (fun p => (fst p, row_place (snd p))) (combine nums rows)) d txt (Some k)).
(* the section is in the file, before a startxref *)
Definition section_in (F : bytes) (s : fsection) : Prop :=
  section_text s /\ (0 < fs_pos s)%nat /\
  exists pre g post, F = pre ++ fs_text s ++ g ++ B "startxref" ++ post /\ length pre = fs_pos s /\ gap g.
(* sections, newest first: each is after the one that /Prev gives *)
Inductive joined : list fsection -> Prop :=
| jn_first s : dget (B "/Prev") (fs_trailer s) = None -> joined [s]
| jn_next s s' r : dget (B "/Prev") (fs_trailer s) = Some (PInt (Z.of_nat (fs_pos s'))) ->
    (fs_pos s' + length (fs_text s') <= fs_pos s)%nat -> joined (s' :: r) -> joined (s :: s' :: r).
(* the place of object n in the newest section that has it in use *)
Inductive current : list fsection -> Z -> place -> Prop :=
| cu_here s r n p : In (n, p) (fs_list s) -> p <> Free -> current (s :: r) n p
| cu_older s r n p : (forall q, In (n, q) (fs_list s) -> q = Free) -> current r n p -> current (s :: r) n p.
(* the object written at an offset *)
Definition object_at (F : bytes) (n off gen : Z) (o : obj) : Prop :=
  exists pre txt post, F = pre ++ txt ++ post /\ Z.of_nat (length pre) = off /\ object_text n gen o txt.
(* the object stream env, at an offset, and its members *)
Definition objstm_at (F : bytes) (env off gen : Z) (l : list (Z * obj)) : Prop :=
  exists d data enc first, object_at F env off gen (PStream d (Some data) enc) /\ objects_text l first data /\ l <> [] /\ NoDup (map fst l) /\
    dget (B "/First") d = Some (PInt first) /\ (exists z, dget (B "/N") d = Some (PInt z)).
(* places at the same position *)
Definition place_key (p : place) : Z * Z := match p with Free => (0, 0) | At off _ => (0, off) | Inside env idx => (env, idx) end.

Record sections_file (F : bytes) (ts : list fsection) : Prop := mk_sections_file {
  sf_sections : Forall (section_in F) ts;
  sf_joined : joined ts;
  sf_trailers : Forall (fun s => dget (B "/XRefStm") (fs_trailer s) = None /\ wfv (PDict (fs_trailer s))) ts;
  sf_once : forall s n p q, In s ts -> In (n, p) (fs_list s) -> In (n, q) (fs_list s) -> p <> Free -> q <> Free -> p = q;
  sf_objects : forall s n off gen, In s ts -> In (n, At off gen) (fs_list s) -> n <> 0 -> exists o, object_at F n off gen o;
  (* an object stream is listed by the same section or an older one, where it is not itself in an object stream *)
  sf_inside : forall newer s older n env idx, ts = newer ++ s :: older -> In (n, Inside env idx) (fs_list s) ->
    env <> 0 /\ (n <> 0 -> 0 < n /\ 0 < env /\
    (exists s' off gen, In s' (s :: older) /\ In (env, At off gen) (fs_list s')) /\
    forall s' env' idx', In s' (s :: older) -> ~ In (env, Inside env' idx') (fs_list s'));
  (* the highest number is not that of a member of an object stream *)
  sf_highest : forall s n env idx, In s ts -> In (n, Inside env idx) (fs_list s) -> exists s' m off gen, In s' ts /\ In (m, At off gen) (fs_list s') /\ n <= m /\ m <> 0;
  (* no member of a current object stream has another current place *)
  sf_streams : forall n env idx, 0 < n -> current ts n (Inside env idx) ->
    exists off gen l, current ts env (At off gen) /\ objstm_at F env off gen l /\ In n (map fst l) /\
      forall m, In m (map fst l) -> 0 < m /\ exists i, current ts m (Inside env i);
  sf_end : exists s r, ts = s :: r /\ file_end F (fs_pos s);
  (* the newest section gives some object, other than itself, a new place *)
  sf_news : exists s r n p, ts = s :: r /\ In (n, p) (fs_list s) /\ p <> Free /\ n <> 0 /\ fs_num s <> Some n /\
    forall s' p', In s' r -> In (n, p') (fs_list s') -> p' <> Free -> place_key p' <> place_key p
}.

(* the number of the oldest section when it is a stream *)
Definition oldest_num (ts : list fsection) : option Z := match rev ts with s :: _ => fs_num s | [] => None end.
(* no filter or one of the supported ones *)
Definition usual_filter (t : dict) : Prop :=
  (dget (B "/DecodeParms") t = None \/ exists d, dget (B "/DecodeParms") t = Some (PDict d) /\ d <> []) /\
  (dget (B "/Filter") t = None \/ exists n, (dget (B "/Filter") t = Some (PStr n) \/ dget (B "/Filter") t = Some (PList [PStr n])) /\
     In n [B "/FlateDecode"; B "/ASCIIHexDecode"; B "/ASCII85Decode"]).
(* when the oldest section is a stream, its number is listed and it is not the one of an object
   stream nor of a member of one *)
Definition stream_spare (ts : list fsection) : Prop :=
  forall k, oldest_num ts = Some k -> 0 < k /\ (exists s r, ts = s :: r /\ usual_filter (fs_trailer s)) /\
    (exists s p, In s ts /\ In (k, p) (fs_list s) /\ p <> Free) /\
    forall s n env idx, In s ts -> In (n, Inside env idx) (fs_list s) -> n <> k /\ env <> k.
End WithZlib.
