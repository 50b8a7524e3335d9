(* Specification vocabulary for files: what a caller reads, free lists, subsections. *)
From Coq Require Import String.
From Verif Require Import PyBase Model_Filters Model_Objects Model_Filestruct Spec_Objects.

(* what the caller of a data provider reads: buf[i:i+n] *)
Definition rd_bytes (r : rd) : bytes :=
  match r with RBuf b i n => sub b (Z.to_nat i) (Z.to_nat (i + n)) | RLen _ => [] end.
Definition rd_count (r : rd) : Z := match r with RBuf _ _ n => n | RLen n => n end.

(* the bytes of a file at position p, up to l of them (all when l is -1) *)
Definition file_bytes (b : bytes) (p : nat) (l : Z) : bytes :=
  if l =? -1 then skipn p b else firstn (Z.to_nat l) (skipn p b).

(* a base provider on the content f *)
Inductive base_on (f : bytes) : prov -> Prop :=
| bo_single : base_on f (PvSingle f)
| bo_dummy : base_on f (PvDummy f).

(* the provider obtained by appending updates, one after the other, to the first cut
   bytes of a base *)
Fixpoint stack (p : prov) (cut : nat) (ups : list bytes) : prov :=
  match ups with
  | [] => p
  | u :: r => stack (PvMerge p (Z.of_nat cut) u) (cut + length u) r
  end.

(* every two neighbours of the list are linked *)
Fixpoint chained (next : list (Z * Z)) (l : list Z) : Prop :=
  match l with
  | a :: r => match r with b :: _ => zlookup a next = Some b /\ chained next r | [] => True end
  | [] => True
  end.

(* g partitions l (elements with their numbers) in maximal runs of consecutive numbers *)
Definition run_of {A} (num : A -> Z) (g : Z * list A) : Prop :=
  snd g <> [] /\ map num (snd g) = map (fun k => fst g + Z.of_nat k) (seq 0 (length (snd g))).
Fixpoint gaps {A} (g : list (Z * list A)) : Prop :=
  match g with
  | a :: r => match r with
              | b :: _ => fst a + Z.of_nat (length (snd a)) <> fst b /\ gaps r
              | [] => True
              end
  | [] => True
  end.
Definition maximal_runs {A} (num : A -> Z) (l : list A) (g : list (Z * list A)) : Prop :=
  l = flat_map snd g /\ Forall (run_of num) g /\ gaps g.

(* the lines of an xref table holding the elements of the runs g *)
Definition table_line (next_free : list (Z * Z)) (e : xelem) : option xline :=
  if xe_free e
  then option_map (fun nf => XEnt nf (xe_num e) (xe_gen e + 1) (B "f")) (zlookup (xe_num e) next_free)
  else option_map (fun c => XEnt c (xe_num e) (xe_gen e) (B "n")) (xe_cnt e).
Definition table_lines (next_free : list (Z * Z)) (g : Z * list xelem) : list (option xline) :=
  Some (XSub (fst g) (Z.of_nat (length (snd g)))) :: map (table_line next_free) (snd g).

(* an element whose fields can be printed in a table *)
Definition elem_ok (next_free : list (Z * Z)) (e : xelem) : Prop :=
  0 <= xe_num e /\ 0 <= xe_gen e /\
  if xe_free e then exists n, zlookup (xe_num e) next_free = Some n /\ 0 <= n
  else exists c, xe_cnt e = Some c /\ 0 <= c.

(* the index entries that a section gives for elements written with a table *)
Definition in_use_entry (e : xelem) : list ient :=
  match xe_cnt e with
  | Some c => if xe_free e || (xe_num e =? 0) then []
              else [mk_ient (xe_num e) (xe_gen e) None None (Some (AInt c)) None None None false None None None None false None]
  | None => []
  end.

(* the line of an xref stream for an element; every element carries its subsection *)
Fixpoint ranked {A} (sec : Z) (g : list (Z * list A)) : list (Z * A) :=
  match g with [] => [] | a :: r => map (fun e => (sec, e)) (snd a) ++ ranked (sec + 1) r end.
(* a field of b bytes, most significant first, as shown in hexadecimal *)
Definition shown (b : nat) (n : Z) (txt : bytes) : Prop :=
  exists f, length f = b /\ Forall (fun c => 0 <= c < 256) f /\ fold_left (fun a c => 256 * a + c) f 0 = n /\
            txt = asciihex f ++ [32].
Inductive stream_line (b : nat) (next_free : list (Z * Z)) : Z * xelem -> xsline -> Prop :=
| sl_free sec e x n t1 t2 : xe_free e = true -> zlookup (xe_num e) next_free = Some n ->
    xs_free x = true -> xs_off x = n -> xs_gen x = xe_gen e + 1 -> xs_env x = None ->
    xs_num x = xe_num e -> xs_sec x = sec ->
    xs_ppr x = B "00 " ++ t1 ++ t2 -> shown b n t1 -> shown b (xe_gen e + 1) t2 -> stream_line b next_free (sec, e) x
| sl_env sec e x env c t1 t2 : xe_free e = false -> xe_env e = Some env -> env <> 0 -> xe_cnt e = Some c ->
    xs_free x = false -> xs_off x = c -> xs_env x = Some env -> xs_gen x = 0 ->
    xs_num x = xe_num e -> xs_sec x = sec ->
    xs_ppr x = B "02 " ++ t1 ++ t2 -> shown b env t1 -> shown b c t2 -> stream_line b next_free (sec, e) x
| sl_direct sec e x c t1 t2 : xe_free e = false -> (xe_env e = None \/ xe_env e = Some 0) -> xe_cnt e = Some c ->
    xs_free x = false -> xs_off x = c -> xs_gen x = xe_gen e -> xs_env x = None ->
    xs_num x = xe_num e -> xs_sec x = sec ->
    xs_ppr x = B "01 " ++ t1 ++ t2 -> shown b c t1 -> shown b (xe_gen e) t2 -> stream_line b next_free (sec, e) x.
(* the index entry of an element written in a stream *)
Definition indexed_entry (e : xelem) : list ient :=
  match xe_cnt e with
  | Some c =>
      if xe_free e || (xe_num e =? 0) then []
      else match xe_env e with
           | None | Some 0 => [mk_ient (xe_num e) (xe_gen e) None None (Some (AInt c)) None None None false None None None None false None]
           | Some env => [mk_ient (xe_num e) 0 None None (Some (ATup env c)) None (Some env) (Some c) false None None None None false None]
           end
  | None => []
  end.

(* ---- hex dump: the bytes shown by a line, by columns ---- *)
Definition chunk (b : bytes) (k : nat) : bytes := firstn 10 (skipn (10 * k) b).
Definition hex_column (line : bytes) : option bytes := unhexlify (filter (fun c => negb (c =? 32)) (sub line 12 41)).
Definition printable (c : Z) : Z := if (32 <=? c) && (c <=? 126) then c else 46.
Definition shows (b : bytes) (k : nat) (line : bytes) : Prop :=
  sub line 0 10 = pad0 10 (10 * Z.of_nat k) /\ hex_column line = Some (chunk b k) /\
  skipn 41 line = [32; 32; 124] ++ map printable (chunk b k) ++ [124; 10].

(* objects that survive being written and read: a value, or a stream whose encoded form
   is not ambiguous (see C15) and decodes to its content *)
Inductive storable {ZL : Zlib} : obj -> Prop :=
| st_val o : wf_top o -> storable o
| st_stream d s enc : wfv (PDict d) -> enc <> [] -> ~ occurs (B "endstream") enc -> last enc 0 <> 13 ->
    (forall x, dget K_Filter d <> Some (PDict x)) ->
    decode_stream (Some enc) d = Ok s -> storable (PStream d s (Some enc)).

(* ---- revisions ---- *)
(* blk stands at offset off of F *)
Definition at_pos (F : bytes) (off : Z) (blk : bytes) : Prop :=
  exists a b, F = a ++ blk ++ b /\ Z.of_nat (length a) = off.
(* cell n of an array is x *)
Definition cell {A} (l : list A) (n : Z) (x : A) : Prop := 0 <= n /\ nth_error l (Z.to_nat n) = Some x.

Definition object_text (num gen : Z) (v : bytes) : bytes :=
  dec num ++ [32] ++ dec gen ++ B " obj" ++ [10] ++ v ++ [10] ++ B "endobj" ++ [10].

Definition is_objstm (o : obj) : bool :=
  match o with
  | PStream d _ _ => match dget (B "/Type") d with Some (PStr t) => beqb t (B "/ObjStm") | _ => false end
  | _ => false
  end.
(* the value written for an object: an object stream is completed first *)
Definition written_value {ZL : Zlib} (o o' : obj) : Prop :=
  if is_objstm o then finalize_stream o = Ok o' else o' = o.

(* in the object stream being built in cell env, the object at rank pos is num and its
   text is v *)
Definition inside (cache : list obj) (env pos num : Z) (v : bytes) : Prop :=
  exists d s enc fl off, cell cache env (PStream d (Some s) enc) /\ dget (B "/FirstLine") d = Some (PList fl) /\
    cell fl (2 * pos) (PInt num) /\ cell fl (2 * pos + 1) (PInt off) /\ at_pos s off (v ++ [10]).

(* the element e of the xref section describes what the file F holds for a change;
   cur is the index before, newi the index after *)
Inductive placed {ZL : Zlib} (F : bytes) (cur : list slot) (cache : list obj) (newi : list slot) : change -> xelem -> Prop :=
| pl_zero g : placed F cur cache newi ((g, 0), Del) (mk_xe true 0 65534 None None)
| pl_del g num e : num <> 0 -> cell cur num (SDict e) ->
    placed F cur cache newi ((g, num), Del) (mk_xe true num (n_gen e) None None)
| pl_direct g num a e o o' v off : a <> Del -> cell cur num (SDict e) -> n_env e = None \/ n_env e = Some 0 ->
    cell cache num o -> written_value o o' -> serialize o' = Ok v ->
    at_pos F off (object_text num (n_gen e) v) ->
    cell newi num (SDict (with_next (Some (off + blen (object_text num (n_gen e) v))) (with_pos (Some (AInt off)) e))) ->
    placed F cur cache newi ((g, num), a) (mk_xe false num (n_gen e) (Some off) (n_env e))
| pl_inside g num a e o v env pos : a <> Del -> cell cur num (SDict e) -> n_env e = Some env -> env <> 0 ->
    cell cache num o -> serialize o = Ok v -> inside cache env pos num v ->
    cell newi num (SDict e) ->
    placed F cur cache newi ((g, num), a) (mk_xe false num (n_gen e) (Some pos) (Some env)).

(* ---- sequential scan ---- *)
(* the regions cover the text from i to j, each beginning where the previous one ends; an
   indirect object that no line end follows has no recorded beginning *)
Definition begins (t : bytes) (r : region) (i : nat) : Prop :=
  reg_beg r = Some i \/ (exists o, r = RInd o /\ i_beg o = None /\ Forall (fun c => c <> 10 /\ c <> 13) (skipn i t)).
Inductive tiling (t : bytes) : nat -> list region -> nat -> Prop :=
| tl_nil i : tiling t i [] i
| tl_cons i r rs j : begins t r i -> (i < reg_end r <= length t)%nat -> tiling t (reg_end r) rs j -> tiling t i (r :: rs) j.
(* the regions of a map (embedded objects and xref stream tables are attachments) *)
Definition regions (m : list item) : list region :=
  flat_map (fun x => match x with ItReg r _ => [r] | _ => [] end) m.

(* ---- checks ---- *)
(* what an entry of an xref section designates, where an object of the map stands *)
Inductive entry_at : ient -> okey -> Prop :=
| ea_emb e env p : n_env e = Some env -> n_opos e = Some p -> entry_at e (KEmb (n_num e) env p)
| ea_dir e p : n_env e = None -> n_pos e = Some p -> entry_at e (KDir (n_num e) (n_gen e) p).
Inductive object_at : item -> okey -> Prop :=
| oa_dir o rp b : i_beg o = Some b -> object_at (ItReg (RInd o) rp) (KDir (i_num o) (i_gen o) (AInt (Z.of_nat b)))
| oa_emb bo j e n : e_num e = PInt n -> object_at (ItEmb bo j e) (KEmb n (e_env e) (Z.of_nat j)).
(* the position of an xref section *)
Definition section_pos (x : list ient) : option Z :=
  match x with t :: _ => match n_xt t with Some p => Some p | None => n_xs t end | [] => None end.

(* ---- index ---- *)
(* the successive definitions of object num in a list of sections (oldest first), newest
   first, each with the number of its section; a definition at the place of the latest one
   is the same definition *)
Definition remember (k : Z) (h : list (Z * ient)) (e : ient) : list (Z * ient) :=
  match h with
  | (v, e0) :: _ =>
      match n_pos e0, n_pos e with
      | Some a, Some b => if apos_eqb a b then h else (k, e) :: h
      | _, _ => (k, e) :: h
      end
  | [] => [(k, e)]
  end.
Definition remember_all (num k : Z) (h : list (Z * ient)) (sec : list ient) : list (Z * ient) :=
  fold_left (remember k) (filter (fun e => n_num e =? num) (tl sec)) h.
Fixpoint history (num k : Z) (h : list (Z * ient)) (secs : list (list ient)) : list (Z * ient) :=
  match secs with [] => h | s :: r => history num (k + 1) (remember_all num k h s) r end.
(* the cell of an object with this history *)
Definition cell_of (h : list (Z * ient)) : slot :=
  match h with
  | [] => SNone
  | (v, e) :: older => SDict (with_dver (Some v) (with_over (Some (Z.of_nat (length older))) e))
  end.
(* sections are read from positions in increasing order *)
Fixpoint increasing (prev : Z) (secs : list (list ient)) : Prop :=
  match secs with
  | [] => True
  | s :: r => exists t es p, s = t :: es /\ n_pos t = Some (AInt p) /\ n_stm t = false /\ prev < p /\ increasing p r
  end.
(* a cell once the position that follows is known: an embedded object is placed in its
   container *)
Inductive completed (rows : list (list slot)) (nxt : list (Z * Z)) : slot -> slot -> Prop :=
| cp_none : completed rows nxt SNone SNone
| cp_direct e p x : n_pos e = Some (AInt p) -> zlookup p nxt = Some x ->
    completed rows nxt (SDict e) (SDict (with_next (Some x) e))
| cp_embedded e v row env off ce loc x : n_pos e = Some (ATup env off) -> n_dver e = Some v -> pyget rows v = Ok row ->
    pyget row env = Ok (SDict ce) -> n_pos ce = Some (AInt loc) -> zlookup loc nxt = Some x ->
    completed rows nxt (SDict e) (SDict (with_next (Some x) (with_pos (Some (AFloat loc (off + 1))) e))).

(* the least element of l greater than a *)
Definition least_above (l : list Z) (a b : Z) : Prop := In b l /\ a < b /\ forall c, In c l -> a < c -> b <= c.

(* ---- fields of an xref section ---- *)
(* b bytes are enough for every field of the entry *)
Definition fits (b : nat) (next_free : list (Z * Z)) (e : xelem) : Prop :=
  let ok n := 0 <= n < 256 ^ Z.of_nat b in
  if xe_free e then exists n, zlookup (xe_num e) next_free = Some n /\ ok n /\ ok (xe_gen e + 1)
  else exists c, xe_cnt e = Some c /\ ok c /\
       match xe_env e with None | Some 0 => ok (xe_gen e) | Some env => ok env end.
(* the greatest counter of the entries, and the number of bytes the writer deduces from it *)
Definition greatest_counter (elems : list xelem) (m : Z) : Prop :=
  (exists e, In e elems /\ xe_cnt e = Some m) /\ forall e c, In e elems -> xe_cnt e = Some c -> c <= m.
Definition bytes_for (m : Z) (b : nat) : Prop := (1 <= b)%nat /\ 256 ^ (Z.of_nat b - 1) <= m + 1 < 256 ^ Z.of_nat b.
(* the numbers printed on the line of an entry take at most 10 and 5 digits *)
Definition printable_fields (next_free : list (Z * Z)) (e : xelem) : Prop :=
  if xe_free e then (forall n, zlookup (xe_num e) next_free = Some n -> 0 <= n < 10 ^ 10) /\ 0 <= xe_gen e + 1 < 10 ^ 5
  else (forall c, xe_cnt e = Some c -> 0 <= c < 10 ^ 10) /\ 0 <= xe_gen e < 10 ^ 5.

(* ---- the chain of xref sections ---- *)
(* the section read at x when it is reached from another section *)
Definition section_at {ZL : Zlib} (f : bytes) (x : Z) : res (list ient * dict * bytes) :=
  read_section (PvSingle f) x (znat (find W_EOF f (Z.to_nat x))) (znat (find W_startxref f (Z.to_nat x))).
(* the one the end of the file points to *)
Definition last_section {ZL : Zlib} (f : bytes) : res (list ient * dict * bytes) :=
  let* (t, a0, _) := read_at (PvSingle f) (-100) (-1) in
  let sx := znat (rfind W_startxref t a0) in
  let '(i, j, _) := next_token t (Z.to_nat (sx + 9)) in
  let* x := of_opt EValueError (py_int 10 (sub t i j)) in
  read_section (PvSingle f) x sx sx.
(* /Prev and /XRefStm, when present, satisfy Q *)
Definition back_pointers (r : res (list ient * dict * bytes)) (Q : Z -> Prop) : Prop :=
  forall xi d t k q, r = Ok (xi, d, t) -> k = K_Prev \/ k = K_XRefStm -> int_entry k d = Ok q -> q = 0 \/ Q q.
