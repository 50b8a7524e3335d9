(* Documents as Python objects: lists and dictionaries live at locations and may be
   shared.  Model_Docstruct treats documents as values; here the functions that claim to
   return a new document are written again with every copy, every store and every
   in-place change of docstruct.py made explicit, so that sharing can be observed. *)
From Coq Require Import List ZArith Bool Lia String.
From Verif Require Import PyBase Model_Objects Model_Filters Model_Filestruct Model_Docstruct.
Import ListNotations.
Local Open Scope Z_scope.

Definition loc := nat.

(* A row cell: None, or a dictionary or list of dictionaries somewhere. *)
Inductive hslot := HNone | HAt (l : loc).

(* What a location holds.  Scalars, and containers that the code never changes in place,
   are kept as values inside the cell of the object that holds them.  The one list inside
   a cached object that the code does change in place, /FirstLine of an object stream
   (filestruct.py:504-506), has a location of its own: CEnv d f s e is a Stream whose
   entries are d with /FirstLine bound to the list at f. *)
Inductive cell :=
| CRows (l : list loc)              (* doc.index *)
| CRow (l : list hslot)             (* doc.index[rev] *)
| CEnt (e : ient)                   (* doc.index[rev][num] *)
| CEnts (l : list loc)              (* doc.index[rev][0] when it is a list *)
| CCache (l : list (option loc))    (* doc.cache *)
| CObj (o : obj)                    (* a cached object *)
| CEnv (d : dict) (f : loc) (s e : option bytes)
| CNums (l : list obj)
| CData (l : list loc)              (* doc.data *)
| CDatum (x : datum).               (* doc.data[rev] *)

Definition heap := list cell.

(* docstruct.py:17  Doc = namedtuple('Doc', 'index cache data') *)
Record hdoc := mk_hdoc { hd_index : loc; hd_cache : loc; hd_data : loc }.

(* A computation that may change the heap and may raise; changes made before an exception
   stay. *)
Definition hm (A : Type) := heap -> heap * res A.
Definition hret {A} (a : A) : hm A := fun h => (h, Ok a).
Definition hlift {A} (r : res A) : hm A := fun h => (h, r).
Definition hbind {A B} (m : hm A) (f : A -> hm B) : hm B := fun h =>
  match m h with
  | (h1, Ok a) => f a h1
  | (h1, Exc e) => (h1, Exc e)
  | (h1, Loop) => (h1, Loop)
  end.
Notation "'do' x <- m ; k" := (hbind m (fun x => k))
  (at level 200, x pattern, m at level 100, k at level 200, right associativity).

Definition alloc (c : cell) : hm loc := fun h => (h ++ [c], Ok (length h)).
Definition readc (l : loc) : hm cell := fun h => (h, of_opt EUnsupported (nth_error h l)).
Definition writec (l : loc) (c : cell) : hm unit := fun h => (lset h l c, Ok tt).

(* ---------------- reading ---------------- *)
Fixpoint rmap {A B} (f : A -> res B) (l : list A) : res (list B) :=
  match l with
  | [] => Ok []
  | a :: r => let* b := f a in let* t := rmap f r in Ok (b :: t)
  end.

Definition at_ (h : heap) (l : loc) : res cell := of_opt EUnsupported (nth_error h l).
Definition rows_at (h : heap) (l : loc) : res (list loc) :=
  let* c := at_ h l in match c with CRows r => Ok r | _ => Exc EUnsupported end.
Definition row_at (h : heap) (l : loc) : res (list hslot) :=
  let* c := at_ h l in match c with CRow r => Ok r | _ => Exc EUnsupported end.
Definition ent_at (h : heap) (l : loc) : res ient :=
  let* c := at_ h l in match c with CEnt e => Ok e | _ => Exc EUnsupported end.
Definition cache_at (h : heap) (l : loc) : res (list (option loc)) :=
  let* c := at_ h l in match c with CCache r => Ok r | _ => Exc EUnsupported end.
Definition data_at (h : heap) (l : loc) : res (list loc) :=
  let* c := at_ h l in match c with CData r => Ok r | _ => Exc EUnsupported end.
Definition datum_at (h : heap) (l : loc) : res datum :=
  let* c := at_ h l in match c with CDatum x => Ok x | _ => Exc EUnsupported end.
Definition nums_at (h : heap) (l : loc) : res (list obj) :=
  let* c := at_ h l in match c with CNums x => Ok x | _ => Exc EUnsupported end.

(* the values read through locations *)
Definition slot_val (h : heap) (s : hslot) : res slot :=
  match s with
  | HNone => Ok SNone
  | HAt l =>
      let* c := at_ h l in
      match c with
      | CEnt e => Ok (SDict e)
      | CEnts ls => let* es := rmap (ent_at h) ls in Ok (SList (map SDict es))
      | _ => Exc EUnsupported
      end
  end.
Definition row_val (h : heap) (l : loc) : res (list slot) :=
  let* r := row_at h l in rmap (slot_val h) r.
(* None has no location of its own *)
Definition obj_val (h : heap) (l : loc) : res obj :=
  let* c := at_ h l in
  match c with
  | CObj o => if is_none o then Exc EUnsupported else Ok o
  | CEnv d f s e => let* n := nums_at h f in Ok (PStream (dset K_FirstLine (PList n) d) s e)
  | _ => Exc EUnsupported
  end.
Definition cached_val (h : heap) (x : option loc) : res obj :=
  match x with None => Ok PNone | Some l => obj_val h l end.
Definition cache_val (h : heap) (l : loc) : res (list obj) :=
  let* c := cache_at h l in rmap (cached_val h) c.
Definition index_val (h : heap) (l : loc) : res (list (list slot)) :=
  let* r := rows_at h l in rmap (row_val h) r.
Definition data_val (h : heap) (l : loc) : res (list datum) :=
  let* r := data_at h l in rmap (datum_at h) r.

(* The document as a value: everything a caller can read from it. *)
Definition doc_val (h : heap) (d : hdoc) : res doc :=
  let* i := index_val h (hd_index d) in
  let* c := cache_val h (hd_cache d) in
  let* x := data_val h (hd_data d) in
  Ok (mk_doc i c x).

Definition look {A} (f : heap -> res A) : hm A := fun h => (h, f h).

(* ---------------- memoize and get_object ---------------- *)
(* a parsed value becomes a new object; None is not an object that can be changed *)
Definition new_obj (o : obj) : hm (option loc) :=
  match o with
  | PNone => hret None
  | PStream d s e =>
      match dget K_FirstLine d with
      | Some (PList l) => do f <- alloc (CNums l); do x <- alloc (CEnv d f s e); hret (Some x)
      | _ => do x <- alloc (CObj o); hret (Some x)
      end
  | _ => do x <- alloc (CObj o); hret (Some x)
  end.

(* cache[n] = value *)
Definition put_cache (cl : loc) (n : Z) (x : option loc) : hm unit :=
  do c <- look (fun h => cache_at h cl);
  do c' <- hlift (pyset c n x);
  writec cl (CCache c').
(* cache += (n - len(cache) + 1) * [None] when n >= len(cache) *)
Definition grow_cache (cl : loc) (n : Z) : hm unit :=
  do c <- look (fun h => cache_at h cl);
  if Z.of_nat (length c) <=? n
  then writec cl (CCache (c ++ repeat None (Z.to_nat (n - Z.of_nat (length c) + 1))))
  else hret tt.

(* docstruct.py:280-283 *)
Fixpoint h_put_embedded (cl : loc) (l : list embobj) : hm unit :=
  match l with
  | [] => hret tt
  | e :: r =>
      match e_num e with
      | PInt n =>
          do _ <- grow_cache cl n;
          do x <- new_obj (e_obj e);
          do _ <- put_cache cl n x;
          h_put_embedded cl r
      | _ => hlift (Exc EUnsupported)
      end
  end.

Section WithZlib.
Context {ZL : Zlib}.

(* docstruct.py:218-284  memoize_obj_in_cache: the list cache is changed in place *)
Definition h_memoize (row : list slot) (p : prov) (key : Z) (cl : loc) : hm unit :=
  do s <- hlift (pyget row key);
  do del <- hlift (deleted_in s);
  if del : bool then hret tt
  else
    do c <- look (fun h => cache_at h cl);
    do v <- hlift (pyget c key);
    match v with
    | Some _ => hret tt
    | None =>
        if key =? 0 then
          do d <- hlift (trailers p (match s with SList l => l | _ => [s] end) []);
          do x <- new_obj (PDict d);
          put_cache cl key x
        else
          match s with
          | SDict e =>
              match n_env e with
              | None =>
                  do o <- hlift (parse_at p e);
                  do x <- new_obj o;
                  put_cache cl key x
              | Some container =>
                  do cs <- hlift (pyget row container);
                  do ce <- hlift (as_dict cs);
                  do so <- hlift (parse_at p ce);
                  do _ <- grow_cache cl container;
                  do x <- new_obj so;
                  do _ <- put_cache cl container x;
                  match so with
                  | PStream d st _ =>
                      do l <- hlift (parse_object_stream d st container);
                      h_put_embedded cl l
                  | _ => hlift (Exc ETypeError)
                  end
              end
          | _ => hlift (Exc ETypeError)
          end
    end.

(* doc.index[-1], its values, and doc.data[-1]['fdata'] *)
Definition h_last_row (d : hdoc) : hm loc :=
  do r <- look (fun h => rows_at h (hd_index d)); hlift (pyget r (-1)).
Definition h_fdata (d : hdoc) : hm prov :=
  do r <- look (fun h => data_at h (hd_data d));
  do l <- hlift (pyget r (-1));
  do x <- look (fun h => datum_at h l);
  hlift (of_opt EKeyError (dt_fdata x)).

(* docstruct.py:287-294  get_object: a deep copy, so a value *)
Definition h_get_object (d : hdoc) (o : obj) : hm obj :=
  match o with
  | PRef _ n =>
      do rl <- h_last_row d;
      do row <- look (fun h => row_val h rl);
      do p <- h_fdata d;
      do _ <- h_memoize row p n (hd_cache d);
      do c <- look (fun h => cache_at h (hd_cache d));
      do x <- hlift (pyget c n);
      look (fun h => cached_val h x)
  | _ => hret o
  end.

(* ---------------- copies ---------------- *)
(* docstruct.py:616-632  copy_doc(doc, revision='SAME') *)
Definition copy_same (d : hdoc) : hm hdoc :=
  do rows <- look (fun h => rows_at h (hd_index d));
  do il <- alloc (CRows rows);
  do cache <- look (fun h => cache_at h (hd_cache d));
  do cl <- alloc (CCache cache);
  do data <- look (fun h => data_at h (hd_data d));
  do dl <- alloc (CData data);
  do rl <- hlift (pyget rows (-1));
  do row <- look (fun h => row_at h rl);
  do rl' <- alloc (CRow row);
  do rows' <- hlift (pyset rows (-1) rl');
  do _ <- writec il (CRows rows');
  hret (mk_hdoc il cl dl).

(* copy_doc(doc, revision='NEXT'): also new copies of cache[0] and data[-1] *)
Definition copy_next (d : hdoc) : hm hdoc :=
  do rows <- look (fun h => rows_at h (hd_index d));
  do il <- alloc (CRows rows);
  do cache <- look (fun h => cache_at h (hd_cache d));
  do cl <- alloc (CCache cache);
  do data <- look (fun h => data_at h (hd_data d));
  do dl <- alloc (CData data);
  do c0 <- hlift (pyget cache 0);
  do t <- look (fun h => cached_val h c0);
  do t' <- match t with PDict _ => alloc (CObj t) | _ => hlift (Exc EAttributeError) end;
  do cache' <- hlift (pyset cache 0 (Some t'));
  do _ <- writec cl (CCache cache');
  do rl <- hlift (pyget rows (-1));
  do row <- look (fun h => row_at h rl);
  do rl' <- alloc (CRow row);
  do rows' <- hlift (pyset rows (-1) rl');
  do _ <- writec il (CRows rows');
  do xl <- hlift (pyget data (-1));
  do x <- look (fun h => datum_at h xl);
  do xl' <- alloc (CDatum x);
  do data' <- hlift (pyset data (-1) xl');
  do _ <- writec dl (CData data');
  hret (mk_hdoc il cl dl).

(* new_doc.index[-1][num] = {...} *)
Definition put_slot (rl : loc) (n : Z) (s : hslot) : hm unit :=
  do row <- look (fun h => row_at h rl);
  do row' <- hlift (pyset row n s);
  writec rl (CRow row').

(* ---------------- update_object, add_object ---------------- *)
(* docstruct.py:635-653  update_object; new_o is the location of the object, None for None *)
Definition h_update_object (d : hdoc) (num : Z) (new_o : option loc) : hm hdoc :=
  do rows <- look (fun h => rows_at h (hd_index d));
  do rl <- hlift (pyget rows (-1));
  do row <- look (fun h => row_at h rl);
  do sl <- hlift (pyget row num);
  do s <- look (fun h => slot_val h sl);
  do old <- hlift (as_dict s);
  do ov <- hlift (of_opt EKeyError (n_over old));
  do el <- alloc (CEnt (with_del (match new_o with None => true | Some _ => false end)
             (with_dver (Some (Z.of_nat (length rows) - 1))
                (with_over (Some (ov + 1)) (ient0 num (n_gen old))))));
  do nd <- copy_same d;
  do rl' <- h_last_row nd;
  do _ <- put_slot rl' num (HAt el);
  do _ <- put_cache (hd_cache nd) num new_o;
  hret nd.

(* docstruct.py:656-669  add_object *)
Definition h_add_object (d : hdoc) (new_o : option loc) : hm (hdoc * Z) :=
  do rows <- look (fun h => rows_at h (hd_index d));
  do rl <- hlift (pyget rows (-1));
  do row <- look (fun h => row_at h rl);
  let num := Z.of_nat (length row) in
  do el <- alloc (CEnt (with_dver (Some (Z.of_nat (length rows) - 1))
                          (with_over (Some 0) (ient0 num 0))));
  do nd <- copy_same d;
  do rl' <- h_last_row nd;
  do row' <- look (fun h => row_at h rl');
  do _ <- writec rl' (CRow (row' ++ [HAt el]));
  do c <- look (fun h => cache_at h (hd_cache nd));
  do _ <- writec (hd_cache nd) (CCache (c ++ [None]));
  do _ <- put_cache (hd_cache nd) num new_o;
  hret (nd, num).

(* ---------------- force_xref_stream ---------------- *)
(* copy.deepcopy of a row cell *)
Definition copy_slot (sl : hslot) : hm hslot :=
  match sl with
  | HNone => hret HNone
  | HAt l =>
      do c <- readc l;
      match c with
      | CEnt e => do l' <- alloc (CEnt e); hret (HAt l')
      | CEnts ls =>
          (fix go (ls : list loc) (acc : list loc) : hm hslot :=
             match ls with
             | [] => do l' <- alloc (CEnts (rev acc)); hret (HAt l')
             | x :: r => do e <- look (fun h => ent_at h x); do x' <- alloc (CEnt e); go r (x' :: acc)
             end) ls []
      | _ => hlift (Exc EUnsupported)
      end
  end.

(* index[-1][num][...] = ... on the dictionary itself *)
Definition change_ent (sl : hslot) (f : ient -> ient) : hm unit :=
  match sl with
  | HNone => hlift (Exc ETypeError)
  | HAt l => do c <- readc l;
             match c with
             | CEnt e => writec l (CEnt (f e))
             | _ => hlift (Exc ETypeError)
             end
  end.

(* new_doc.cache[0]['/Filter'] = filt : the dictionary is changed in place *)
Definition set_filter (nd : hdoc) (filt : bytes) : hm unit :=
  match filt with
  | [] => hret tt
  | _ =>
      do c <- look (fun h => cache_at h (hd_cache nd));
      do x <- hlift (pyget c 0);
      do l <- hlift (of_opt ETypeError x);
      do o <- look (fun h => obj_val h l);
      match o with
      | PDict t => writec l (CObj (PDict (dset K_Filter' (PStr filt) t)))
      | _ => hlift (Exc ETypeError)
      end
  end.

(* docstruct.py:672-690  force_xref_stream *)
Definition h_force_xref_stream (d : hdoc) (placeholder : bool) (filt : bytes) : hm hdoc :=
  do rl <- h_last_row d;
  do row <- look (fun h => row_val h rl);
  do s <- hlift (pyget row 0);
  do has <- hlift (match s with
                   | SDict e => Ok (match n_xsn e with Some _ => true | None => false end)
                   | SList _ => Ok false
                   | SNone => Exc ETypeError
                   end);
  do c <- look (fun h => cache_at h (hd_cache d));
  do x <- hlift (pyget c 0);
  do o <- look (fun h => cached_val h x);
  do t <- hlift (dict_of o);
  if has : bool then
    let go := do nd <- copy_same d; do _ <- set_filter nd filt; hret nd in
    match dget K_Filter' t with
    | Some (PStr f) => if beqb f filt then hret d else go
    | _ => go
    end
  else
    do (nd, n) <- (if placeholder
                   then do l <- alloc (CObj (PDict [])); h_add_object d (Some l)
                   else do nd <- copy_same d; hret (nd, -1));
    do rl' <- h_last_row nd;
    do row' <- look (fun h => row_at h rl');
    do s0 <- hlift (pyget row' 0);
    do s1 <- copy_slot s0;
    do _ <- put_slot rl' 0 s1;
    do _ <- change_ent s1 (with_xsn (Some n));
    do _ <- set_filter nd filt;
    hret nd.

(* ---------------- group_obj_into_stream ---------------- *)
(* docstruct.py:353-377  changes reads only *)
Definition h_changes (d : hdoc) : hm (list change) :=
  do v <- look (fun h => doc_val h d); hlift (changes v).

(* docstruct.py:404-413 : the loop; current[o]['env_num'] = env_num changes the entry in
   place *)
Fixpoint h_tag_env (nd : hdoc) (env : Z) (l : list Z) : hm unit :=
  match l with
  | [] => hret tt
  | o :: r =>
      do rl <- h_last_row nd;
      do row <- look (fun h => row_at h rl);
      do sl <- hlift (pyget row o);
      do s <- look (fun h => slot_val h sl);
      do e <- hlift (as_dict s);
      do x <- h_get_object nd (PRef (n_gen e) o);
      match x with
      | PStream _ _ _ => h_tag_env nd env r
      | _ =>
          if match x with PDict dx => dhas K_noslash_Length dx | _ => false end
          then h_tag_env nd env r
          else if negb (n_gen e =? 0) then h_tag_env nd env r
          else do _ <- change_ent sl (with_env (Some env)); h_tag_env nd env r
      end
  end.

(* docstruct.py:393-415  group_obj_into_stream *)
Definition h_group (d : hdoc) (env : option Z) (o_nums : list Z) : hm hdoc :=
  do (nd, env') <- (if truthy env
                    then do z <- hlift (of_opt ETypeError env); do nd <- copy_same d; hret (nd, z)
                    else do l <- alloc (CObj (PBytes [])); h_add_object d (Some l));
  do l <- match o_nums with
          | [] => do chg <- h_changes d; hret (map (fun c => snd (fst c)) chg)
          | _ => hret o_nums
          end;
  do _ <- h_tag_env nd env' l;
  do x <- alloc (CObj (PStream [(K_Type, PStr V_ObjStm)] (Some []) (Some [])));
  do _ <- put_cache (hd_cache nd) env' (Some x);
  hret nd.

(* ---------------- commit ---------------- *)
(* filestruct.py:499-510  append_to_stream_fragment: entries is a copy, but the list
   entries['/FirstLine'] is the one of the envelope *)
Definition h_append (num : Z) (o : obj) (env : option loc) : hm loc :=
  do ser <- hlift (serialize o);
  do l <- hlift (of_opt ETypeError env);
  do c <- readc l;
  match c with
  | CObj (PStream d (Some s) _) =>
      let fl := match dget K_FirstLine d with None => PList [] | Some x => x end in
      match fl with
      | PList l0 => do f <- alloc (CNums (l0 ++ [PInt num; PInt (blen s)]));
                    alloc (CEnv d f (Some (s ++ ser ++ [10])) None)
      | _ => hlift (Exc EAttributeError)
      end
  | CEnv d f (Some s) _ =>
      do l0 <- look (fun h => nums_at h f);
      do _ <- writec f (CNums (l0 ++ [PInt num; PInt (blen s)]));
      alloc (CEnv d f (Some (s ++ ser ++ [10])) None)
  | _ => hlift (Exc ETypeError)
  end.

(* filestruct.py:549-557 : first loop of build_revision_byte_stream *)
Fixpoint h_embed (cur : list slot) (cl : loc) (l : list change) : hm (list xelem) :=
  match l with
  | [] => hret []
  | (c, a) :: r =>
      let num := snd c in
      do sl <- hlift (pyget cur num);
      do e <- hlift (as_dict sl);
      if negb (is_del a) && truthy (n_env e) then
        do env <- hlift (of_opt EKeyError (n_env e));
        do cache <- look (fun h => cache_at h cl);
        do ol <- hlift (pyget cache num);
        do o <- look (fun h => cached_val h ol);
        do envl <- hlift (pyget cache env);
        do x <- h_append num o envl;
        do _ <- put_cache cl env (Some x);
        do ne <- look (fun h => obj_val h x);
        do pos <- hlift (get_pos_in_stream ne);
        do tl <- h_embed cur cl r;
        hret (mk_xe false num (n_gen e) (Some pos) (Some env) :: tl)
      else h_embed cur cl r
  end.

(* copy.deepcopy of a row, here from its values *)
Definition new_slot (s : slot) : hm hslot :=
  match s with
  | SNone => hret HNone
  | SDict e => do l <- alloc (CEnt e); hret (HAt l)
  | SList ss =>
      (fix go (ss : list slot) (acc : list loc) : hm hslot :=
         match ss with
         | [] => do l <- alloc (CEnts (rev acc)); hret (HAt l)
         | SDict e :: r => do l <- alloc (CEnt e); go r (l :: acc)
         | _ => hlift (Exc EUnsupported)
         end) ss []
  end.
Fixpoint new_slots (r : list slot) : hm (list hslot) :=
  match r with
  | [] => hret []
  | s :: t => do x <- new_slot s; do y <- new_slots t; hret (x :: y)
  end.
Definition new_row (r : list slot) : hm loc := do l <- new_slots r; alloc (CRow l).

(* filestruct.py:538-599  build_revision_byte_stream: the bytes and the new row; changes
   the list cache, and the dictionary cache[0] when an xref stream is written *)
Definition h_build (chg : list change) (cur : list slot) (cl : loc) (start : Z) (xsn : option Z)
  : hm (bytes * loc) :=
  let next_free := circular_deleted chg in
  let l := ((0, 0), Del) :: chg in
  do el1 <- h_embed cur cl l;
  do cache1 <- look (fun h => cache_val h cl);
  do (fr, el2, newi, cnt, last) <- hlift (write_changes cur cache1 cur (start + 1) None l);
  let elems := sort_by xe_num (el1 ++ el2) in
  do c0 <- hlift (pyget cache1 0);
  let tail := W_startxref_nl ++ dec cnt ++ [10] ++ W_EOF_nl in
  if negb (truthy xsn) then
    do built <- hlift (format_xref_table elems c0 next_free);
    do newi' <- hlift (upd_slot newi 0 (fun e =>
        with_next (Some (cnt + blen built))
          (with_pos (Some (AInt (cnt + znat (rfind W_trailer built 0))))
             (with_xt (Some cnt) e))));
    do nr <- new_row newi';
    hret ([10] ++ fr ++ built ++ tail, nr)
  else
    do x <- hlift (of_opt ETypeError xsn);
    do d0 <- hlift (match c0 with PDict d => Ok d | _ => Exc ETypeError end);
    do (built, d1) <- hlift (format_xref_stream (elems ++ [mk_xe false x 0 (Some cnt) None]) d0 next_free x);
    do c <- look (fun h => cache_at h cl);
    do tl <- hlift (pyget c 0);
    do t <- hlift (of_opt ETypeError tl);
    do _ <- writec t (CObj (PDict d1));
    do blk <- hlift (of_opt EUnboundLocal last);
    do ni1 <- hlift (upd_slot newi x (fun e => with_next (Some (cnt + blen blk)) (with_pos (Some (AInt cnt)) e)));
    do ni2 <- hlift (upd_slot ni1 0 (fun e =>
        with_next (Some (cnt + blen built)) (with_pos (Some (AInt cnt)) (with_xs (Some cnt) e))));
    do nr <- new_row ni2;
    hret ([10] ++ fr ++ built ++ tail, nr).

(* docstruct.py:423-431  version: reads the catalog, which may fill the cache of the
   document *)
Definition h_version (d : hdoc) : hm bytes :=
  do dl <- look (fun h => data_at h (hd_data d));
  do x0 <- hlift (pyget dl 0);
  do x <- look (fun h => datum_at h x0);
  do p <- hlift (of_opt EKeyError (dt_fdata x));
  do (t, a0, _) <- hlift (read_at p 5 3);
  do tr <- h_get_object d (PRef 0 0);
  do root <- hlift (item K_Root tr);
  do cat <- h_get_object d root;
  do cv <- hlift (cat_version cat);
  do w <- hlift (ascii (sub t a0 (a0 + 3)));
  hret (match cv with Some v => if str_ltb w v then v else w | None => w end).

(* new_doc.cache[0][...] = ... and del new_doc.cache[0][...] *)
Definition change_trailer (nd : hdoc) (f : dict -> dict) : hm unit :=
  do c <- look (fun h => cache_at h (hd_cache nd));
  do x <- hlift (pyget c 0);
  do l <- hlift (of_opt ETypeError x);
  do o <- look (fun h => obj_val h l);
  match o with
  | PDict t => writec l (CObj (PDict (f t)))
  | _ => hlift (Exc ETypeError)
  end.
Definition trailer_xref (t : dict) : dict :=
  if match dget K_DecodeParms' t with Some v => obj_truthy v | None => false end
  then ddel K_DecodeParms' t else t.
Definition trailer_next (prev : obj) (t : dict) : dict :=
  let t4 := dset K_Prev prev t in if dhas K_XRefStm t4 then ddel K_XRefStm t4 else t4.

(* docstruct.py:559-568 : the number of the xref stream.  The entry for the stream is
   appended to the copied row; the number is stored in the entry of object 0, which is
   still the dictionary of the input document *)
Definition h_commit_row (nd : hdoc) (nb : Z) (x : option Z) : hm (option Z) :=
  match x with
  | Some z =>
      if z =? -1 then
        do rl <- h_last_row nd;
        do row <- look (fun h => row_at h rl);
        let n := Z.of_nat (length row) in
        do el <- alloc (CEnt (with_dver (Some (nb - 1)) (with_over (Some 0) (ient0 n 0))));
        do _ <- writec rl (CRow (row ++ [HAt el]));
        do s0 <- hlift (pyget (row ++ [HAt el]) 0);
        do _ <- change_ent s0 (with_xsn (Some n));
        hret (Some n)
      else hret x
  | None => hret x
  end.

(* new_doc.data[-1]['bdata'] = ..., new_doc.data[-1]['fdata'] = ... *)
Definition set_last_datum (nd : hdoc) (x : datum) : hm unit :=
  do data <- look (fun h => data_at h (hd_data nd));
  do xl <- hlift (pyget data (-1));
  do _ <- look (fun h => datum_at h xl);
  writec xl (CDatum x).

(* docstruct.py:571-588 : the bytes of the revision, its provider, its row *)
Definition h_write_revision (d nd : hdoc) (chg : list change) (nb : Z) (x : option Z) : hm unit :=
  do data <- look (fun h => data_at h (hd_data nd));
  do xl <- hlift (pyget data (-1));
  do dl <- look (fun h => datum_at h xl);
  match dt_cut dl with
  | Some _ => hret tt
  | None =>
      do start <- (if nb =? 1
                   then do v <- h_version d; hret (blen (W_header ++ v), W_header ++ v)
                   else do dv <- look (fun h => doc_val h d);
                        do i <- hlift (revision_index dv); hret (i, []));
      do rl <- h_last_row nd;
      do cur <- look (fun h => row_val h rl);
      do (b, nr) <- h_build chg cur (hd_cache nd) (fst start) x;
      do _ <- (if nb =? 1
               then set_last_datum nd (mk_datum None (Some (snd start ++ b)) (Some (PvDummy (snd start ++ b))))
               else do p <- hlift (of_opt EKeyError (dt_fdata dl));
                    match b with
                    | [] => hret tt
                    | _ => set_last_datum nd (mk_datum None (Some b) (Some (PvMerge p (fst start) b)))
                    end);
      do rows <- look (fun h => rows_at h (hd_index nd));
      do rows' <- hlift (pyset rows (-1) nr);
      writec (hd_index nd) (CRows rows')
  end.

(* docstruct.py:547-597  commit *)
Definition h_commit (d : hdoc) : hm hdoc :=
  do chg <- h_changes d;
  match chg with
  | [] => hret d
  | _ =>
      do rows <- look (fun h => rows_at h (hd_index d));
      let nb := Z.of_nat (length rows) in
      do nd <- copy_next d;
      do dv <- look (fun h => doc_val h d);
      do x0 <- hlift (first_xsn dv);
      do x <- (if truthy x0
               then do x <- h_commit_row nd nb x0; do _ <- change_trailer nd trailer_xref; hret x
               else hret x0);
      do rl <- h_last_row nd;
      do row <- look (fun h => row_at h rl);
      do _ <- change_trailer nd (dset K_Size (PInt (Z.of_nat (length row))));
      do _ <- h_write_revision d nd chg nb x;
      do data <- look (fun h => data_at h (hd_data nd));
      do xl <- hlift (pyget data (-1));
      do dl <- look (fun h => datum_at h xl);
      do fd <- hlift (of_opt EKeyError (dt_fdata dl));
      do xn <- alloc (CDatum (mk_datum None None (Some fd)));
      do _ <- writec (hd_data nd) (CData (data ++ [xn]));
      do e0 <- alloc (CEnt (with_xsn (if truthy x0 then Some (-1) else None)
                              (with_dver (Some nb) (with_over (Some nb) (ient0 0 0)))));
      do rl2 <- h_last_row nd;
      do row2 <- look (fun h => row_at h rl2);
      do nv <- alloc (CRow (HAt e0 :: skipn 1 row2));
      do rows2 <- look (fun h => rows_at h (hd_index nd));
      do _ <- writec (hd_index nd) (CRows (rows2 ++ [nv]));
      do rv <- look (fun h => row_val h rl2);
      do z <- hlift (pyget rv 0);
      do pe <- hlift (match z with
                      | SDict e => Ok e
                      | SList _ => let* s1 := pyget rv 1 in
                                   match s1 with SDict e => Ok e | _ => Exc EAttributeError end
                      | SNone => Exc EAttributeError
                      end);
      do _ <- change_trailer nd (trailer_next (prev_pos pe));
      hret nd
  end.

(* ---------------- a document in the heap ---------------- *)
(* The objects of a document given as a value, all of them new: nothing is shared. *)
Fixpoint new_list {A B} (f : A -> hm B) (l : list A) : hm (list B) :=
  match l with
  | [] => hret []
  | a :: r => do x <- f a; do y <- new_list f r; hret (x :: y)
  end.
Definition new_doc (d : doc) : hm hdoc :=
  do rows <- new_list new_row (d_index d);
  do il <- alloc (CRows rows);
  do cache <- new_list new_obj (d_cache d);
  do cl <- alloc (CCache cache);
  do data <- new_list (fun x => alloc (CDatum x)) (d_data d);
  do dl <- alloc (CData data);
  hret (mk_hdoc il cl dl).

End WithZlib.
