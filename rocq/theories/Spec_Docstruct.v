(* Specification vocabulary for documents: what a caller observes. *)
From Coq Require Import String.
From Verif Require Import PyBase Model_Filters Model_Objects Model_Filestruct Model_Docstruct Spec_Objects Spec_Filestruct.

Section WithZlib.
Context {ZL : Zlib}.

(* the value a caller gets for object number n *)
Definition value (d : doc) (n : Z) : res obj := let* (v, _) := get_object d (PRef 0 n) in Ok v.

(* a sequence of reads that succeed *)
Inductive doc_reads : doc -> list Z -> doc -> Prop :=
| Rd_nil d : doc_reads d [] d
| Rd_cons d n l g v d1 d2 : 0 <= n -> get_object d (PRef g n) = Ok (v, d1) -> doc_reads d1 l d2 -> doc_reads d (n :: l) d2.

(* the open revision *)
Definition open_row (d : doc) (row : list slot) : Prop := exists l, d_index d = l ++ [row].
Definition provider (d : doc) (p : prov) : Prop := exists l x, d_data d = l ++ [x] /\ dt_fdata x = Some p.

(* no object of the open revision is inside an object stream *)
Definition plain (d : doc) : Prop :=
  forall row n e, open_row d row -> cell row n (SDict e) -> n_env e = None.

(* the last object numbered n in the content of an object stream *)
Fixpoint member (n : Z) (l : list embobj) : option obj :=
  match l with
  | [] => None
  | e :: r => match member n r with
              | Some v => Some v
              | None => match e_num e with PInt m => if m =? n then Some (e_obj e) else None | _ => None end
              end
  end.
(* the objects of stream c, as read from the file, are those that the open revision
   places in it, and the cache has nothing else for them *)
Definition stream_intact (row : list slot) (p : prov) (cache : list obj) (c : Z) : Prop :=
  exists ce sd st en l, 0 < c /\ cell row c (SDict ce) /\ n_del ce = false /\ n_env ce = None /\
    parse_at p ce = Ok (PStream sd st en) /\ parse_object_stream sd st c = Ok l /\
    (cell cache c PNone \/ cell cache c (PStream sd st en)) /\
    Forall (fun e => exists n ne v, e_num e = PInt n /\ 0 < n /\ cell row n (SDict ne) /\
              n_del ne = false /\ n_env ne = Some c /\ cell cache n v /\
              (v = PNone \/ member n l = Some v)) l.
Definition coherent (d : doc) : Prop :=
  forall row p, open_row d row -> provider d p ->
  forall n e c, cell row n (SDict e) -> n_del e = false -> n_env e = Some c -> stream_intact row p (d_cache d) c.

(* ---- changes ---- *)
(* the cell of an object number, None beyond the end of the row *)
Definition at_num (row : list slot) (n : Z) : slot := nth (Z.to_nat n) row SNone.
Definition live (s : slot) : bool := match s with SDict e => negb (n_del e) | SNone => false | SList _ => true end.
Inductive tagged (before after : slot) : action -> Prop :=
| Tg_add : before = SNone -> tagged before after Add
| Tg_del : live before = true -> live after = false -> tagged before after Del
| Tg_upd : before <> SNone -> (live before = false \/ live after = true) -> tagged before after Upd.
(* rows whose cells, from number 1 on, are None or dictionaries *)
Definition tidy (row : list slot) : Prop := forall n s, 0 < n -> cell row n s -> forall l, s <> SList l.
Definition xref_object (row : list slot) (n : Z) : Prop := exists e, cell row 0 (SDict e) /\ n_xsn e = Some n.

(* chg lists exactly the objects whose cells differ, once each *)
Definition chg_num (c : change) : Z := snd (fst c).
Definition lists_differences (previous current : list slot) (chg : list change) : Prop :=
  NoDup (map chg_num chg) /\
  forall i a g, In ((g, i), a) chg <-> 0 < i /\ exists e, at_num current i = SDict e /\ g = n_gen e /\ ~ xref_object current i /\
      at_num previous i <> at_num current i /\ tagged (at_num previous i) (at_num current i) a.

(* sequences of additions *)
Inductive additions : doc -> list (obj * ref) -> doc -> Prop :=
| Ad_nil d : additions d [] d
| Ad_cons d v r d1 l d2 : add_object d v = Ok (d1, r) -> additions d1 l d2 -> additions d ((v, r) :: l) d2.

(* ---- commit ---- *)
(* the number of bytes of the closed revisions *)
Fixpoint committed_end (l : list datum) (acc : Z) : Z :=
  match l with
  | [] => acc
  | [x] => match dt_cut x with Some c => c | None => acc end
  | x :: r => committed_end r (match dt_cut x with
                               | Some c => c
                               | None => acc + match dt_bdata x with Some b => blen b | None => 0 end
                               end)
  end.
Definition pending (d : doc) (n : Z) : Prop := exists chg, changes d = Ok chg /\ In n (map chg_num chg).
(* the object is at a position of the closed revisions and has no pending change *)
Definition on_disk (d : doc) (row : list slot) (n : Z) : Prop :=
  exists e z, 0 < n /\ cell row n (SDict e) /\ n_pos e = Some (AInt z) /\ z <= committed_end (d_data d) 0 /\
    ~ pending d n /\ first_xsn d <> Ok (Some n).
(* What editing maintains: objects that are not in the cache are on disk, so are the object
   streams in use, and no pending change is placed in an object stream. *)
Record ready (d : doc) : Prop := mk_ready {
  rd_coherent : coherent d;
  rd_xsn : forall z, first_xsn d = Ok (Some z) -> 0 <= z \/ (z = -1 /\ length (d_index d) = 1%nat);
  rd_direct : forall row n e, open_row d row -> cell row n (SDict e) -> pending d n -> n_env e = None;
  rd_uncached : forall row n e, open_row d row -> 0 < n -> first_xsn d <> Ok (Some n) -> cell row n (SDict e) ->
    n_del e = false -> n_env e = None -> cell (d_cache d) n PNone -> on_disk d row n;
  rd_stream : forall row n e c, open_row d row -> cell row n (SDict e) -> n_del e = false -> n_env e = Some c -> on_disk d row c
}.

(* one step of a session: reads, updates (or deletions, with None), additions, commits *)
Inductive edit : doc -> doc -> Prop :=
| Ed_read d g n v d1 : 0 <= n -> get_object d (PRef g n) = Ok (v, d1) -> edit d d1
| Ed_update d n o d1 : 0 < n -> update_object d n o = Ok d1 -> edit d d1
| Ed_add d o d1 r : o <> PNone -> add_object d o = Ok (d1, r) -> edit d d1
| Ed_commit d d1 : commit d = Ok d1 -> edit d d1.
Inductive session : doc -> doc -> Prop :=
| Ss_nil d : session d d
| Ss_cons d d1 d2 : edit d d1 -> session d1 d2 -> session d d2.

(* n steps back *)
Inductive rewinds : nat -> doc -> doc -> Prop :=
| Rw_none d : rewinds O d d
| Rw_more n d d1 d2 : rewind d = Ok d1 -> rewinds n d1 d2 -> rewinds (S n) d d2.

End WithZlib.
