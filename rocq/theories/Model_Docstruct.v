(* Model of pdfsyntax/docstruct.py: documents, cached reads, edits, commit, rewind, page
   trees, squash, concatenation.  Documents have value semantics: a function returns the
   new document; the cache filled by reads is threaded through the results.  What the
   sharing of dictionaries between documents changes is modelled in Model_Heap.v. *)
From Coq Require Import String.
From Verif Require Import PyBase Model_Filters Model_Objects Model_Filestruct.

(* docstruct.py:17  Doc(index, cache, data); an element of data is the dictionary with
   the optional keys eof_cut, bdata and fdata *)
Record datum := mk_datum { dt_cut : option Z; dt_bdata : option bytes; dt_fdata : option prov }.
Record doc := mk_doc { d_index : list (list slot); d_cache : list obj; d_data : list datum }.

Definition K_Root := Eval vm_compute in B "/Root".
Definition K_Pages := Eval vm_compute in B "/Pages".
Definition K_Page := Eval vm_compute in B "/Page".
Definition K_Kids := Eval vm_compute in B "/Kids".
Definition K_Count := Eval vm_compute in B "/Count".
Definition K_Parent := Eval vm_compute in B "/Parent".
Definition K_P := Eval vm_compute in B "/P".
Definition K_Version := Eval vm_compute in B "/Version".
Definition K_Info := Eval vm_compute in B "/Info".
Definition K_Encrypt := Eval vm_compute in B "/Encrypt".
Definition K_Resources := Eval vm_compute in B "/Resources".
Definition K_MediaBox := Eval vm_compute in B "/MediaBox".
Definition K_CropBox := Eval vm_compute in B "/CropBox".
Definition K_Rotate := Eval vm_compute in B "/Rotate".
Definition W_header := Eval vm_compute in B "%PDF-".
(* docstruct.py:14 *)
Definition INHERITABLE_ATTRS : list bytes := [K_Resources; K_MediaBox; K_CropBox; K_Rotate].

(* truth value of a Python value *)
Definition obj_truthy (o : obj) : bool :=
  match o with
  | PNone => false
  | PBool b => b
  | PInt z => negb (z =? 0)
  | PReal m _ => negb (m =? 0)
  | PStr s | PBytes s => match s with [] => false | _ => true end
  | PRef g n => negb ((g =? 0) && (n =? 0))
  | PList l => match l with [] => false | _ => true end
  | PDict d => match d with [] => false | _ => true end
  | PStream _ _ _ => true
  end.
Definition is_none (o : obj) : bool := match o with PNone => true | _ => false end.
Definition str_is (s : bytes) (o : obj) : bool := match o with PStr t => beqb t s | _ => false end.

(* 'DELETED' in cell : an error on None, false on a list of dictionaries *)
Definition deleted_in (s : slot) : res bool :=
  match s with SNone => Exc ETypeError | SDict e => Ok (n_del e) | SList _ => Ok false end.

(* x[k] where x is expected to be a dictionary *)
Definition item (k : bytes) (o : obj) : res obj :=
  match o with
  | PDict d => of_opt EKeyError (dget k d)
  | PStream _ _ _ => Exc EAttributeError
  | _ => Exc ETypeError
  end.
(* x.get(k), None when absent *)
Definition item_opt (k : bytes) (o : obj) : res obj :=
  match o with
  | PDict d => Ok (match dget k d with Some v => v | None => PNone end)
  | _ => Exc EAttributeError
  end.
Definition dict_of (o : obj) : res dict := match o with PDict d => Ok d | _ => Exc ETypeError end.
Definition ref_of (o : obj) : res ref := match o with PRef g n => Ok (g, n) | _ => Exc ETypeError end.
(* d.update(e) *)
Definition dupdate (d e : dict) : dict := fold_left (fun a kv => dset (fst kv) (snd kv) a) e d.

Section WithZlib.
Context {ZL : Zlib}.

(* the abs_pos and abs_next of an entry and the bytes between them:
   fdata(e['abs_pos'], e['abs_next'] - e['abs_pos']).  A float position (embedded
   objects) is not used here. *)
Definition entry_bytes (p : prov) (e : ient) : res (bytes * nat) :=
  let* a := pos_int e in
  let* b := of_opt EKeyError (n_next e) in
  let* (t, a0, _) := read_at p a (b - a) in
  Ok (t, a0).

(* docstruct.py:257-263 (and 272-278): skip number, generation, 'obj', then parse *)
Definition parse_at (p : prov) (e : ient) : res obj :=
  let* (t, a0) := entry_bytes p e in
  let '(_, j1, _) := next_token t a0 in
  let '(_, j2, _) := next_token t j1 in
  let '(_, j3, _) := next_token t j2 in
  let '(i4, _, _) := next_token t j3 in
  parse_obj t i4.

(* docstruct.py:238-252 : the trailer dictionary found at one position; only a
   dictionary or a stream can be added to obj: update raises a TypeError or, for a
   string, a ValueError (one exception here); an array, whose pairs update would
   accept, is not modelled *)
Definition trailer_at (p : prov) (e : ient) : res dict :=
  let* (t, a0) := entry_bytes p e in
  let '(i, j, _) := next_token t a0 in
  let i' := if beqb (sub t i j) W_trailer then let '(i1, _, _) := next_token t j in i1
            else let '(_, j1, _) := next_token t j in
                 let '(_, j2, _) := next_token t j1 in
                 let '(i3, _, _) := next_token t j2 in i3 in
  let* o := parse_obj t i' in
  match o with PDict d => Ok d | PStream d _ _ => Ok d | _ => Exc ETypeError end.
Fixpoint trailers (p : prov) (l : list slot) (acc : dict) : res dict :=
  match l with
  | [] => Ok acc
  | s :: r => let* e := as_dict s in let* d := trailer_at p e in trailers p r (dupdate acc d)
  end.

(* cache += (n - len(cache) + 1) * [None] when n >= len(cache) *)
Definition grow (cache : list obj) (n : Z) : list obj :=
  if Z.of_nat (length cache) <=? n
  then cache ++ repeat PNone (Z.to_nat (n - Z.of_nat (length cache) + 1)) else cache.

(* docstruct.py:280-283 *)
Fixpoint put_embedded (cache : list obj) (l : list embobj) : res (list obj) :=
  match l with
  | [] => Ok cache
  | e :: r =>
      match e_num e with
      | PInt n => let* c := pyset (grow cache n) n (e_obj e) in put_embedded c r
      | _ => Exc EUnsupported
      end
  end.

(* docstruct.py:218-284  memoize_obj_in_cache; row is idx[rev] *)
Definition memoize (row : list slot) (p : prov) (key : Z) (cache : list obj) : res (list obj) :=
  let* s := pyget row key in
  let* del := deleted_in s in
  if del then Ok cache
  else
    let* c := pyget cache key in
    if negb (is_none c) then Ok cache
    else if key =? 0 then
      let* d := trailers p (match s with SList l => l | _ => [s] end) [] in
      pyset cache key (PDict d)
    else
      match s with
      | SDict e =>
          match n_env e with
          | None => let* o := parse_at p e in pyset cache key o
          | Some container =>
              let* cs := pyget row container in
              let* ce := as_dict cs in
              let* so := parse_at p ce in
              let* c1 := pyset (grow cache container) container so in
              match so with
              | PStream d st _ =>
                  let* l := parse_object_stream d st container in
                  put_embedded c1 l
              | _ => Exc ETypeError
              end
          end
      | _ => Exc ETypeError
      end.

(* doc.index[-1] and doc.data[-1]['fdata'] *)
Definition last_row (d : doc) : res (list slot) := pyget (d_index d) (-1).
Definition fdata_at (d : doc) (i : Z) : res prov :=
  let* x := pyget (d_data d) i in of_opt EKeyError (dt_fdata x).
Definition with_cache (d : doc) (c : list obj) : doc := mk_doc (d_index d) c (d_data d).

(* docstruct.py:287-294  get_object *)
Definition get_object (d : doc) (o : obj) : res (obj * doc) :=
  match o with
  | PRef _ n =>
      let* row := last_row d in
      let* p := fdata_at d (-1) in
      let* c := memoize row p n (d_cache d) in
      let* v := pyget c n in
      Ok (v, with_cache d c)
  | _ => Ok (o, d)
  end.

(* docstruct.py:324-329  build_cache *)
Definition build_cache (p : prov) (index : list (list slot)) : res (list obj) :=
  let* row := pyget index (-1) in
  memoize row p 0 (repeat PNone (length row)).

(* docstruct.py:332-339  get_iref on a row; the result is (o_gen, o_num) *)
Definition get_iref (row : list slot) (num : Z) : res (option ref) :=
  let* s := pyget row num in
  match s with
  | SNone => Ok None
  | SList [] => Ok None
  | _ => let* e := as_dict s in Ok (Some (n_gen e, num))
  end.

(* docstruct.py:342-350  in_use, rows are visited from 1 *)
Definition nums (row : list slot) : list Z := zseq 1 (length row - 1).
Definition in_use_row (row : list slot) : res (list ref) :=
  let* l := map_res (fun i =>
      let* r := get_iref row i in
      match r with
      | None => Ok []
      | Some ir => let* s := pyget row i in let* del := deleted_in s in Ok (if del then [] else [ir])
      end) (nums row) in
  Ok (concat l).
Definition in_use (d : doc) (rev : Z) : res (list ref) :=
  let* row := pyget (d_index d) rev in in_use_row row.

(* == on index cells *)
Definition oz_eq := oz_eqb.
Definition oapos_eqb (a b : option apos) : bool :=
  match a, b with Some x, Some y => apos_eqb x y | None, None => true | _, _ => false end.
Definition oref_eqb (a b : option (Z * Z)) : bool :=
  match a, b with Some x, Some y => ref_eqb x y | None, None => true | _, _ => false end.
Definition ient_eqb (a b : ient) : bool :=
  (n_num a =? n_num b) && (n_gen a =? n_gen b) && oz_eq (n_over a) (n_over b) && oz_eq (n_dver a) (n_dver b)
  && oapos_eqb (n_pos a) (n_pos b) && oz_eq (n_next a) (n_next b) && oz_eq (n_env a) (n_env b)
  && oz_eq (n_opos a) (n_opos b) && Bool.eqb (n_del a) (n_del b) && oz_eq (n_xt a) (n_xt b)
  && oz_eq (n_xs a) (n_xs b) && oz_eq (n_xsn a) (n_xsn b) && oz_eq (n_sx a) (n_sx b)
  && Bool.eqb (n_stm a) (n_stm b) && oref_eqb (n_old a) (n_old b).
Fixpoint slot_eqb (a b : slot) : bool :=
  match a, b with
  | SNone, SNone => true
  | SDict x, SDict y => ient_eqb x y
  | SList x, SList y =>
      (fix eqs (x y : list slot) : bool :=
         match x, y with
         | [], [] => true
         | u :: x', v :: y' => slot_eqb u v && eqs x' y'
         | _, _ => false
         end) x y
  | _, _ => false
  end.
Definition is_snone (s : slot) : bool := match s with SNone => true | _ => false end.

(* docstruct.py:361-376 : one object number *)
Definition change_of (current previous : list slot) (i : Z) : res (list change) :=
  let* r := get_iref current i in
  match r with
  | None => Ok []
  | Some ir =>
      let* c0 := pyget current 0 in
      let* xs := match c0 with
                 | SNone => Exc ETypeError
                 | SDict e => Ok (match n_xsn e with Some x => x =? i | None => false end)
                 | SList _ => Ok false
                 end in
      if xs : bool then Ok []
      else if Z.of_nat (length previous) - 1 <? i then Ok [(ir, Add)]
      else
        let* p := pyget previous i in
        let* c := pyget current i in
        if slot_eqb p c then Ok []
        else if is_snone p then Ok [(ir, Add)]
        else
          let* dp := deleted_in p in
          let* dc := deleted_in c in
          Ok [(ir, if negb dp && dc then Del else Upd)]
  end.
(* docstruct.py:353-377  changes *)
Definition changes_at (d : doc) (rev : Z) : res (list change) :=
  let* current := pyget (d_index d) rev in
  let* previous := (if Nat.eqb (length (d_index d)) 1 then Ok (repeat SNone (length current))
                    else pyget (d_index d) (rev - 1)) in
  let* l := map_res (change_of current previous) (nums current) in
  Ok (concat l).
Definition changes (d : doc) : res (list change) := changes_at d (-1).

(* docstruct.py:380-390 envelopes: env_num -> numbers of the embedded objects *)
Fixpoint group_env (l : list (Z * Z)) : list (Z * list Z) :=
  match l with
  | [] => []
  | (env, i) :: r =>
      (env, i :: map snd (filter (fun x => fst x =? env) r))
      :: filter (fun x => negb (fst x =? env)) (group_env r)
  end.
Definition cell_env (s : slot) : res (option Z) :=
  match s with SDict e => Ok (n_env e) | _ => Exc EAttributeError end.
Fixpoint env_pairs (i : Z) (l : list slot) : res (list (Z * Z)) :=
  match l with
  | [] => Ok []
  | s :: r => let* e := cell_env s in
              let* t := env_pairs (i + 1) r in
              Ok (match e with Some z => if z =? 0 then t else (z, i) :: t | None => t end)
  end.
Definition envelopes (d : doc) : res (list (Z * list Z)) :=
  let* row := last_row d in let* l := env_pairs 0 row in Ok (group_env l).

(* docstruct.py:454-456 trailer, 477-480 catalog, 483-488 info, 491-494 number_pages *)
Definition trailer (d : doc) : res (obj * doc) := get_object d (PRef 0 0).
Definition catalog (d : doc) : res (obj * obj * doc) :=
  let* (t, d1) := trailer d in
  let* root := item K_Root t in
  let* (c, d2) := get_object d1 root in
  Ok (c, root, d2).
Definition info (d : doc) : res (obj * doc) :=
  let* (t, d1) := trailer d in
  let* i := item_opt K_Info t in
  if obj_truthy i then get_object d1 i else Ok (PNone, d1).
Definition encrypted (d : doc) : res (bool * doc) :=
  let* (t, d1) := trailer d in
  let* e := item_opt K_Encrypt t in
  Ok (obj_truthy e, d1).
(* docstruct.py:468-474 *)
Definition hybrid (d : doc) : res bool :=
  match d_index d with
  | _ :: row :: _ => let* s := pyget row 0 in
                     match s with SDict e => Ok (n_stm e) | _ => Exc EAttributeError end
  | _ => Ok false
  end.
(* the value of /Count as stored *)
Definition number_pages (d : doc) : res (obj * doc) :=
  let* (c, _, d1) := catalog d in
  let* pr := item K_Pages c in
  let* (p, d2) := get_object d1 pr in
  let* n := item K_Count p in
  Ok (n, d2).
(* docstruct.py:448-451 *)
Definition updates (d : doc) : Z := Z.of_nat (length (d_index d)) - 1.

(* a > b on str: lexicographic on code points *)
Fixpoint str_ltb (a b : bytes) : bool :=
  match a, b with
  | [], [] => false
  | [], _ :: _ => true
  | _ :: _, [] => false
  | x :: a', y :: b' => if x <? y then true else if x =? y then str_ltb a' b' else false
  end.
(* '/Version' in cat, then cat['/Version'][1:]; only a str can be compared with a str *)
Definition cat_version (cat : obj) : res (option bytes) :=
  match cat with
  | PDict c => match dget K_Version c with
               | None => Ok None
               | Some (PStr s) => Ok (Some (skipn 1 s))
               | Some _ => Exc ETypeError
               end
  | _ => Exc ETypeError
  end.
(* docstruct.py:423-431  version *)
Definition version (d : doc) : res (bytes * doc) :=
  let* p := fdata_at d 0 in
  let* (t, a0, _) := read_at p 5 3 in
  let ver := sub t a0 (a0 + 3) in
  let* (cat, _, d1) := catalog d in
  let* cv := cat_version cat in
  match cv with
  | Some v => let* w := ascii ver in Ok (if str_ltb w v then v else w, d1)
  | None => let* w := ascii ver in Ok (w, d1)
  end.

(* docstruct.py:616-632  copy_doc has no effect on values *)

(* new_doc.index[-1][num] = x *)
Definition set_last_row (d : doc) (row : list slot) : res doc :=
  let* ix := pyset (d_index d) (-1) row in Ok (mk_doc ix (d_cache d) (d_data d)).

(* docstruct.py:635-653  update_object *)
Definition update_object (d : doc) (num : Z) (o : obj) : res doc :=
  let ver := Z.of_nat (length (d_index d)) in
  let* row := last_row d in
  let* s := pyget row num in
  let* old := as_dict s in
  let* ov := of_opt EKeyError (n_over old) in
  let e := with_del (is_none o) (with_dver (Some (ver - 1)) (with_over (Some (ov + 1)) (ient0 num (n_gen old)))) in
  let* row' := pyset row num (SDict e) in
  let* d1 := set_last_row d row' in
  let* c := pyset (d_cache d1) num o in
  Ok (with_cache d1 c).

(* docstruct.py:656-669  add_object *)
Definition add_object (d : doc) (o : obj) : res (doc * ref) :=
  let ver := Z.of_nat (length (d_index d)) in
  let* row := last_row d in
  let num := Z.of_nat (length row) in
  let e := with_dver (Some (ver - 1)) (with_over (Some 0) (ient0 num 0)) in
  let* d1 := set_last_row d (row ++ [SDict e]) in
  let* c := pyset (d_cache d1 ++ [PNone]) num o in
  Ok (with_cache d1 c, (0, num)).

(* docstruct.py:434-445  update_version *)
Definition update_version (d : doc) (ver : bytes) : res doc :=
  let* (cat, r, d1) := catalog d in
  let* cv := cat_version cat in
  let* c := dict_of cat in
  let set := let* i := ref_of r in
             update_object d1 (snd i) (PDict (dset K_Version (PStr (47 :: ver)) c)) in
  match cv with
  | Some v => if str_ltb v ver then set else Ok d1
  | None => set
  end.

(* docstruct.py:509-520  revision_index with the default rev *)
Fixpoint revision_sum (l : list datum) (acc : Z) : res Z :=
  match l with
  | [] => Ok acc
  | x :: r =>
      match dt_cut x with
      | Some c => revision_sum r c
      | None => let* b := of_opt EKeyError (dt_bdata x) in revision_sum r (acc + blen b)
      end
  end.
Definition revision_index (d : doc) : res Z := revision_sum (firstn (length (d_data d) - 1) (d_data d)) 0.

(* docstruct.py:555-558 : the xref stream number given to revision 0 *)
Definition first_xsn (d : doc) : res (option Z) :=
  let* r0 := pyget (d_index d) 0 in
  let* s := pyget r0 0 in
  match s with
  | SDict e => Ok (n_xsn e)
  | SList (SDict e :: _) => Ok (n_xsn e)
  | SList [] => Exc EIndexError
  | _ => Exc ETypeError
  end.

Definition K_DecodeParms' := Eval vm_compute in B "/DecodeParms".

(* docstruct.py:559-568 : the row (an entry may be added for the xref stream), the number
   of the xref stream *)
Definition commit_row (row : list slot) (nb : Z) (x : option Z) : res (list slot * option Z) :=
  match x with
  | Some z =>
      if z =? -1 then
        let n := Z.of_nat (length row) in
        let e := with_dver (Some (nb - 1)) (with_over (Some 0) (ient0 n 0)) in
        let* row' := upd_slot (row ++ [SDict e]) 0 (with_xsn (Some n)) in
        Ok (row', Some n)
      else Ok (row, x)
  | None => Ok (row, x)
  end.

(* the entry of new_trailer['/Prev']: a position or None *)
Definition prev_pos (e : ient) : obj :=
  match n_xt e with
  | Some z => if z =? 0 then match n_xs e with Some y => PInt y | None => PNone end else PInt z
  | None => match n_xs e with Some y => PInt y | None => PNone end
  end.

(* docstruct.py:547-597  commit *)
Definition commit (d : doc) : res doc :=
  let* chg := changes d in
  match chg with
  | [] => Ok d
  | _ =>
      let* row0 := last_row d in
      let nb := Z.of_nat (length (d_index d)) in
      let* c0 := pyget (d_cache d) 0 in
      let* t0 := match c0 with PDict t => Ok t | _ => Exc EAttributeError end in
      let* x0 := first_xsn d in
      let hasx := truthy x0 in
      let* (row, x) := (if hasx then commit_row row0 nb x0 else Ok (row0, x0)) in
      let e0 := with_xsn (if hasx then Some (-1) else None)
                  (with_dver (Some nb) (with_over (Some nb) (ient0 0 0))) in
      let t1 := if hasx && match dget K_DecodeParms' t0 with Some v => obj_truthy v | None => false end
                then ddel K_DecodeParms' t0 else t0 in
      let t2 := dset K_Size (PInt (Z.of_nat (length row))) t1 in
      let* cache := pyset (d_cache d) 0 (PDict t2) in
      let* dl := pyget (d_data d) (-1) in
      let* (dl', row', cache') :=
        (match dt_cut dl with
         | Some _ => Ok (dl, row, cache)
         | None =>
             if nb =? 1 then
               let* (v, _) := version d in
               let header := W_header ++ v in
               let* (b, ni, c') := build_revision_byte_stream chg row cache (blen header) x in
               Ok (mk_datum None (Some (header ++ b)) (Some (PvDummy (header ++ b))), ni, c')
             else
               let* idx := revision_index d in
               let* (b, ni, c') := build_revision_byte_stream chg row cache idx x in
               let* p := of_opt EKeyError (dt_fdata dl) in
               Ok (match b with
                   | [] => dl
                   | _ => mk_datum None (Some b) (Some (PvMerge p idx b))
                   end, ni, c')
         end) in
      let* fd := of_opt EKeyError (dt_fdata dl') in
      let* data1 := pyset (d_data d) (-1) dl' in
      let* index1 := pyset (d_index d) (-1) row' in
      let new_v := SDict e0 :: skipn 1 row' in
      let* z := pyget row' 0 in
      let* pe := match z with
                 | SDict e => Ok e
                 | SList _ => let* s1 := pyget row' 1 in
                              match s1 with SDict e => Ok e | _ => Exc EAttributeError end
                 | SNone => Exc EAttributeError
                 end in
      let* ct := pyget cache' 0 in
      let* t3 := dict_of ct in
      let t4 := dset K_Prev (prev_pos pe) t3 in
      let t5 := if dhas K_XRefStm t4 then ddel K_XRefStm t4 else t4 in
      let* cache2 := pyset cache' 0 (PDict t5) in
      Ok (mk_doc (index1 ++ [new_v]) cache2 (data1 ++ [mk_datum None None (Some fd)]))
  end.

(* docstruct.py:600-613  rewind; the reads fill the cache of the new document *)
Fixpoint read_all (d : doc) (l : list ref) : res doc :=
  match l with
  | [] => Ok d
  | r :: t => let* (_, d1) := get_object d (PRef (fst r) (snd r)) in read_all d1 t
  end.
Definition without_cut (x : datum) : datum := mk_datum None (dt_bdata x) (dt_fdata x).
Definition rewind (d : doc) : res doc :=
  if Nat.eqb (length (d_index d)) 1 then Ok d
  else
    let index := removelast (d_index d) in
    let data := removelast (d_data d) in
    let* dl := pyget data (-1) in
    let* data' := pyset data (-1) (without_cut dl) in
    let* objs := in_use (mk_doc index [] data') (-1) in
    let* p := fdata_at d (-1) in
    let* cache := build_cache p index in
    read_all (mk_doc index cache data') objs.

(* docstruct.py:672-690  force_xref_stream; the list cell 0 of a linearized file has no
   such key but deepcopy(...)[...] = ... then raises *)
Definition K_Filter' := Eval vm_compute in B "/Filter".
Definition force_xref_stream (d : doc) (placeholder : bool) (filt : bytes) : res doc :=
  let* row := last_row d in
  let* s := pyget row 0 in
  let* has := match s with
              | SDict e => Ok (match n_xsn e with Some _ => true | None => false end)
              | SList _ => Ok false
              | SNone => Exc ETypeError
              end in
  let* c0 := pyget (d_cache d) 0 in
  let* t := dict_of c0 in
  let set (d1 : doc) : res doc :=
    match filt with
    | [] => Ok d1
    | _ => let* c := pyset (d_cache d1) 0 (PDict (dset K_Filter' (PStr filt) t)) in Ok (with_cache d1 c)
    end in
  if has : bool then
    match dget K_Filter' t with
    | Some (PStr f) => if beqb f filt then Ok d else set d
    | _ => set d
    end
  else if placeholder then
    let* (d1, r) := add_object d (PDict []) in
    let* row1 := last_row d1 in
    let* row2 := upd_slot row1 0 (with_xsn (Some (snd r))) in
    let* d2 := set_last_row d1 row2 in
    set d2
  else
    let* row2 := upd_slot row 0 (with_xsn (Some (-1))) in
    let* d2 := set_last_row d row2 in
    set d2.

(* docstruct.py:393-415  group_obj_into_stream.  o_nums is a set in Python; here a list
   (in any order).  'Length' without its slash is the key tested. *)
Definition K_noslash_Length := Eval vm_compute in B "Length".
Fixpoint tag_env (d : doc) (env : Z) (l : list Z) : res doc :=
  match l with
  | [] => Ok d
  | o :: r =>
      let* row := last_row d in
      let* s := pyget row o in
      let* e := as_dict s in
      let* (x, d1) := get_object d (PRef (n_gen e) o) in
      match x with
      | PStream _ _ _ => tag_env d1 env r
      | PDict dx =>
          if dhas K_noslash_Length dx then tag_env d1 env r
          else if negb (n_gen e =? 0) then tag_env d1 env r
          else let* row' := pyset row o (SDict (with_env (Some env) e)) in
               let* d2 := set_last_row d1 row' in tag_env d2 env r
      | _ =>
          if negb (n_gen e =? 0) then tag_env d1 env r
          else let* row' := pyset row o (SDict (with_env (Some env) e)) in
               let* d2 := set_last_row d1 row' in tag_env d2 env r
      end
  end.
Definition group_obj_into_stream (d : doc) (env : option Z) (o_nums : list Z) : res doc :=
  let* (d1, env') := (if truthy env then let* z := of_opt ETypeError env in Ok (d, z)
                      else let* (d1, r) := add_object d (PBytes []) in Ok (d1, snd r)) in
  let* l := (match o_nums with
             | [] => let* chg := changes d in Ok (map (fun c => snd (fst c)) chg)
             | _ => Ok o_nums
             end) in
  let* d2 := tag_env d1 env' l in
  let* c := pyset (d_cache d2) env' (PStream [(K_Type, PStr V_ObjStm)] (Some []) (Some [])) in
  Ok (with_cache d2 c).

(* ---------------- page tree ---------------- *)
(* {k: node.get(k) for k in INHERITABLE_ATTRS if node.get(k) is not None} *)
Definition inheritable (node : dict) : dict :=
  flat_map (fun k => match dget k node with
                     | None | Some PNone => []
                     | Some v => [(k, v)]
                     end) INHERITABLE_ATTRS.

(* docstruct.py:305-321  flat_page_tree.  [inherited] is the dictionary object of the
   call: it is updated in place, and is the shared default value for a call without
   argument, hence it is returned as well.  The result None (neither a /Pages nor a
   /Page) makes the caller's list concatenation raise. *)
Section Loop.
Context (visit : doc -> obj -> dict -> res (option (list (obj * dict)) * dict * doc))
        (node : dict) (max_nb : option Z).
Fixpoint kids_loop (d : doc) (inh : dict) (accu : list (obj * dict)) (l : list obj)
  : res (list (obj * dict) * dict * doc) :=
  match l with
  | [] => Ok (accu, inh, d)
  | k :: r =>
      let inh' := dupdate inh (inheritable node) in
      let* (sub, _, d1) := visit d k inh' in
      match sub with
      | None => Exc ETypeError
      | Some s =>
          let accu' := accu ++ s in
          match max_nb with
          | Some m => if Z.of_nat (length accu') =? m then Ok (accu', inh', d1)
                      else kids_loop d1 inh' accu' r
          | None => kids_loop d1 inh' accu' r
          end
      end
  end.
End Loop.
Fixpoint page_tree (fuel : nat) (max_nb : option Z) (d : doc) (num : obj) (inh : dict)
  : res (option (list (obj * dict)) * dict * doc) :=
  match fuel with
  | O => Loop
  | S f =>
      let* (node, d1) :=
        (if obj_truthy num then get_object d num
         else let* (c, _, dc) := catalog d in let* pr := item K_Pages c in get_object dc pr) in
      let* ty := item K_Type node in
      if str_is K_Pages ty then
        let* nd := dict_of node in
        let* kids := item K_Kids node in
        match kids with
        | PList l => let* (accu, inh', d2) := kids_loop (page_tree f max_nb) nd max_nb d1 inh [] l in
                     Ok (Some accu, inh', d2)
        | _ => Exc ETypeError
        end
      else if str_is K_Page ty then Ok (Some [(num, inh)], inh, d1)
      else Ok (None, inh, d1)
  end.
Definition flat_page_tree (fuel : nat) (d : doc) (leak : dict) (max_nb : option Z) :=
  page_tree fuel max_nb d PNone leak.

(* docstruct.py:497-506  pages *)
Definition add_missing (o : dict) (inh : dict) : dict :=
  fold_left (fun a kv => if dhas (fst kv) a then a else dset (fst kv) (snd kv) a) inh o.
Fixpoint page_dicts (d : doc) (l : list (obj * dict)) : res (list dict * doc) :=
  match l with
  | [] => Ok ([], d)
  | (n, inh) :: r =>
      let* (o, d1) := get_object d n in
      let* p := dict_of o in
      let* (t, d2) := page_dicts d1 r in
      Ok (add_missing p inh :: t, d2)
  end.
Definition pages (fuel : nat) (d : doc) (leak : dict) (max_nb : option Z) : res (list dict * dict * doc) :=
  let* (l, leak', d1) := flat_page_tree fuel d leak max_nb in
  match l with
  | None => Exc ETypeError
  | Some l => let* (ps, d2) := page_dicts d1 l in Ok (ps, leak', d2)
  end.

(* ---------------- dependencies ---------------- *)
(* docstruct.py:744-763; sets of references are lists, possibly with repetitions *)
Section Deps.
Context (deps : doc -> obj -> res (list ref * doc)).
Fixpoint deps_list (d : doc) (l : list obj) : res (list ref * doc) :=
  match l with
  | [] => Ok ([], d)
  | o :: r => let* (a, d1) := deps d o in let* (b, d2) := deps_list d1 r in Ok (a ++ b, d2)
  end.
Fixpoint deps_dict (d : doc) (l : dict) : res (list ref * doc) :=
  match l with
  | [] => Ok ([], d)
  | (k, o) :: r =>
      if beqb k K_Parent || beqb k K_P then deps_dict d r
      else let* (a, d1) := deps d o in let* (b, d2) := deps_dict d1 r in Ok (a ++ b, d2)
  end.
End Deps.
Fixpoint dependencies (fuel : nat) (d : doc) (o : obj) : res (list ref * doc) :=
  match fuel with
  | O => Loop
  | S f =>
      match o with
      | PDict x => deps_dict (dependencies f) d x
      | PList x => deps_list (dependencies f) d x
      | PRef g n =>
          let* (v, d1) := get_object d o in
          let* (a, d2) := dependencies f d1 v in
          Ok ((g, n) :: a, d2)
      | _ => Ok ([], d)
      end
  end.

(* ---------------- removing pages ---------------- *)
(* l.remove(x) *)
Fixpoint remove_first (r : ref) (l : list obj) : res (list obj) :=
  match l with
  | [] => Exc EValueError
  | x :: t => match x with
              | PRef g n => if ref_eqb r (g, n) then Ok t else let* u := remove_first r t in Ok (x :: u)
              | _ => let* u := remove_first r t in Ok (x :: u)
              end
  end.
(* x - 1; an indirect count is a complex number, so that its real part (the generation)
   is decremented *)
Definition minus_one (o : obj) : res obj :=
  match o with
  | PInt z => Ok (PInt (z - 1))
  | PRef g n => Ok (PRef (g - 1) n)
  | PBool _ | PReal _ _ => Exc EUnsupported
  | _ => Exc ETypeError
  end.

(* docstruct.py:797-801 *)
Fixpoint count_up (fuel : nat) (d : doc) (parent : dict) : res doc :=
  match fuel with
  | O => Loop
  | S f =>
      match dget K_Parent parent with
      | None => Ok d
      | Some p =>
          let* (o, d1) := get_object d p in
          let* c := item K_Count o in
          let* c' := minus_one c in
          let* od := dict_of o in
          let* pr := ref_of p in
          let np := dset K_Count c' od in
          let* d2 := update_object d1 (snd pr) (PDict np) in
          count_up f d2 np
      end
  end.
(* docstruct.py:790-801 : one page taken out of its parent *)
Definition detach (fuel : nat) (d : doc) (r : ref) : res doc :=
  let* (pg, d1) := get_object d (PRef (fst r) (snd r)) in
  let* p := item K_Parent pg in
  let* (po, d2) := get_object d1 p in
  let* kids := item K_Kids po in
  let* l := match kids with PList l => Ok l | _ => Exc EAttributeError end in
  let* l' := remove_first r l in
  let* c := item K_Count po in
  let* c' := minus_one c in
  let* pd := dict_of po in
  let* pr := ref_of p in
  let np := dset K_Count c' (dset K_Kids (PList l') pd) in
  let* d3 := update_object d2 (snd pr) (PDict np) in
  count_up fuel d3 np.
Fixpoint each {A} (f : doc -> A -> res doc) (d : doc) (l : list A) : res doc :=
  match l with [] => Ok d | x :: r => let* d1 := f d x in each f d1 r end.
Fixpoint deps_of (fuel : nat) (d : doc) (l : list ref) : res (list ref * doc) :=
  match l with
  | [] => Ok ([], d)
  | r :: t => let* (a, d1) := dependencies fuel d (PRef (fst r) (snd r)) in
              let* (b, d2) := deps_of fuel d1 t in Ok (a ++ b, d2)
  end.
Definition ref_in (r : ref) (l : list ref) : bool := existsb (ref_eqb r) l.
Fixpoint dedup (l : list ref) : list ref :=
  match l with [] => [] | r :: t => if ref_in r t then dedup t else r :: dedup t end.

(* docstruct.py:776-804  remove_pages.  The iteration order of Python's sets is the
   parameter ord, which rearranges a list without repetition. *)
Context (ord : list ref -> list ref).
Definition remove_pages (fuel : nat) (d : doc) (leak : dict) (del_pages : list Z) : res (doc * dict) :=
  let* (pl, leak', d1) := flat_page_tree fuel d leak None in
  match pl with
  | None => Exc ETypeError
  | Some pl =>
      let* sel := map_res (pyget pl) del_pages in
      let* del := map_res (fun x => ref_of (fst x)) sel in
      let* all := map_res (fun x => ref_of (fst x)) pl in
      let del_ref := ord (dedup del) in
      let keep_ref := ord (dedup (filter (fun r => negb (ref_in r del)) all)) in
      let* (del_dep, d2) := deps_of fuel d1 del_ref in
      let* (keep_dep, d3) := deps_of fuel d2 keep_ref in
      let* d4 := each (detach fuel) d3 del_ref in
      let* d5 := each (fun d r => update_object d (snd r) PNone) d4
                      (ord (dedup (filter (fun r => negb (ref_in r keep_dep)) del_dep))) in
      Ok (d5, leak')
  end.
(* docstruct.py:766-773  keep_pages: range(n) - pages *)
Definition keep_pages (fuel : nat) (d : doc) (leak : dict) (keep : list Z) : res (doc * dict) :=
  let* (n, d1) := number_pages d in
  match n with
  | PInt z => remove_pages fuel d1 leak (filter (fun i => negb (existsb (Z.eqb i) keep)) (zseq 0 (Z.to_nat z)))
  | _ => Exc ETypeError
  end.

(* docstruct.py:29-41  __getitem__ : the pages selected by a key *)
Inductive pykey := KInt (k : Z) | KSlice (start stop step : option Z).
(* slice.indices(n), CPython's PySlice_AdjustIndices *)
Definition clamp (n lo hi x : Z) : Z := let y := if x <? 0 then x + n else x in
  if y <? lo then lo else if hi <? y then hi else y.
Definition slice_indices (n : Z) (start stop step : option Z) : res (Z * Z * Z) :=
  let st := match step with Some s => s | None => 1 end in
  if st =? 0 then Exc EValueError
  else
    let lo := if st <? 0 then -1 else 0 in
    let hi := if st <? 0 then n - 1 else n in
    let a := match start with Some x => clamp n lo hi x | None => if st <? 0 then hi else lo end in
    let b := match stop with Some x => clamp n lo hi x | None => if st <? 0 then lo else hi end in
    Ok (a, b, st).
(* range(a, b, s) *)
Definition py_range (a b s : Z) : list Z :=
  let n := if 0 <? s then (b - a + s - 1) / s else (a - b - s - 1) / (- s) in
  map (fun i => a + s * Z.of_nat i) (seq 0 (Z.to_nat n)).
Definition key_pages (n : Z) (k : pykey) : res (list Z) :=
  match k with
  | KInt k => if n =? 0 then Exc EZeroDivision else Ok [k mod n]
  | KSlice a b s => let* (x, y, z) := slice_indices n a b s in Ok (py_range x y z)
  end.
Definition getitem (fuel : nat) (d : doc) (leak : dict) (k : pykey) : res (doc * dict) :=
  let* (n, d1) := number_pages d in
  match n with
  | PInt z => let* l := key_pages z k in keep_pages fuel d1 leak l
  | _ => Exc ETypeError
  end.

(* ---------------- squash, concat ---------------- *)
(* docstruct.py:817-843  defragment_map with no excluded number.  The last binding of a
   key comes first in the association list. *)
Fixpoint defrag (nb : Z) (l : list slot) : res (list slot * list (ref * ref)) :=
  match l with
  | [] => Ok ([], [])
  | s :: r =>
      let* del := deleted_in s in
      if del then defrag nb r
      else
        let* e := as_dict s in
        let old := (n_gen e, n_num e) in
        let ne := with_next None (with_pos None (with_old (Some old)
                    (with_dver (Some 0) (with_over (Some 0) (with_gen 0 e))))) in
        let* (ni, m) := defrag (nb + 1) r in
        Ok (SDict ne :: ni, if ref_eqb old (0, nb + 1) then m else m ++ [(old, (0, nb + 1))])
  end.
Definition defragment_map (row : list slot) : res (list slot * list (ref * ref)) :=
  let* (ni, m) := defrag 0 (skipn 1 row) in
  Ok (SDict (with_dver (Some 0) (with_over (Some 0) (ient0 0 0))) :: ni, m).

(* docstruct.py:862-866 *)
Fixpoint squash_objs (d : doc) (m : list (ref * ref)) (l : list slot) : res (list obj * doc) :=
  match l with
  | [] => Ok ([], d)
  | s :: r =>
      let* e := as_dict s in
      let* old := of_opt EKeyError (n_old e) in
      let* (o, d1) := get_object d (PRef (fst old) (snd old)) in
      let* (t, d2) := squash_objs d1 m r in
      Ok (deep_ref_retarget m o :: t, d2)
  end.
(* docstruct.py:846-873  squash; None stands for the b'' returned when there is no object *)
Definition squash (d : doc) : res (option doc * doc) :=
  let* row := last_row d in
  let* _ := map_res cell_env row in
  let* x := first_xsn d in
  let* (ni, m) := defragment_map row in
  let* ni' := (if truthy x then upd_slot ni 0 (with_xsn x) else Ok ni) in
  let* (t, d1) := trailer d in
  let* root := item K_Root t in
  let c0 := deep_ref_retarget m (PDict [(K_Root, root)]) in
  let* (objs, d2) := squash_objs d1 m (skipn 1 ni') in
  let nd := mk_doc [ni'] (c0 :: objs) [mk_datum None None None] in
  let* chg := changes nd in
  match chg with
  | [] => Ok (None, d2)
  | _ =>
      let* (v, d3) := version d2 in
      Ok (Some (mk_doc [ni'] (c0 :: objs) [mk_datum None None (Some (PvDummy (W_header ++ v)))]), d3)
  end.

(* docstruct.py:698-741  concat *)
Fixpoint copy_objs (src dst : doc) (m : list (ref * ref)) (l : list ref) : res (doc * doc) :=
  match l with
  | [] => Ok (src, dst)
  | r :: t =>
      let* (o, s1) := get_object src (PRef (fst r) (snd r)) in
      let* (d1, _) := add_object dst (deep_ref_retarget m o) in
      copy_objs s1 d1 m t
  end.
Fixpoint number_from (n : Z) (l : list ref) : list (ref * ref) :=
  match l with [] => [] | r :: t => (r, (0, n)) :: number_from (n + 1) t end.
Definition py_add (a b : obj) : res obj :=
  match a, b with PInt x, PInt y => Ok (PInt (x + y)) | _, _ => Exc ETypeError end.
Definition concat_docs (left right : doc) (target_left : bool) : res doc :=
  let new := if target_left then left else right in
  let source := if target_left then right else left in
  let* row := last_row new in
  let start := Z.of_nat (length row) in
  let* (cat, _, new1) := catalog new in
  let* (so, _) := squash source in
  let* s0 := of_opt EAttributeError so in
  let* (scat, scref, s1) := catalog s0 in
  let* spr := item K_Pages scat in
  let* (sp, s2) := get_object s1 spr in
  let* sco := item K_Count sp in
  let* (scount, s3) := get_object s2 sco in
  let* scr := ref_of scref in
  let* s4 := update_object s3 (snd scr) PNone in
  let* srow := last_row s4 in
  let* sz := pyget srow 0 in
  let* se := match sz with SDict e => Ok e | _ => Exc EAttributeError end in
  let* s5 := match n_xsn se with
             | Some x => if 0 <? x then update_object s4 x PNone else Ok s4
             | None => Ok s4
             end in
  let* objs := in_use s5 (-1) in
  let m := number_from start objs in
  let* (_, new2) := copy_objs s5 new1 m objs in
  let* pr := item K_Pages cat in
  let* (pg, new3) := get_object new2 pr in
  let* pco := item K_Count pg in
  let* (pcount, new4) := get_object new3 pco in
  let* ko := item K_Kids pg in
  let* (kids, new5) := get_object new4 ko in
  let* l := match kids with PList l => Ok l | _ => Exc EAttributeError end in
  let* sref := ref_of spr in
  let* tgt := of_opt EKeyError (assoc_ref sref m) in
  let x := PRef (fst tgt) (snd tgt) in
  let* total := py_add pcount scount in
  let* pd := dict_of pg in
  let* pref := ref_of pr in
  update_object new5 (snd pref)
    (PDict (dset K_Count total (dset K_Kids (PList (if target_left then l ++ [x] else x :: l)) pd))).

End WithZlib.
