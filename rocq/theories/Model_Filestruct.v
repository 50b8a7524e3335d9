(* Model of pdfsyntax/filestruct.py: data providers, cross-reference sections, index,
   revision byte streams, checks, hex dump. *)
From Coq Require Import String.
From Verif Require Import PyBase Model_Filters Model_Objects.

Definition blen (b : bytes) : Z := Z.of_nat (length b).

(* ---------------- data providers ---------------- *)
(* The closures built by bdata_provider (SINGLE, CONTINUOUS), bdata_dummy and
   docstruct.merge_fdata, defunctionalised.  A file object is its content. *)
Inductive prov :=
| PvSingle (b : bytes)
| PvCont (b : bytes)
| PvDummy (b : bytes)
| PvMerge (p : prov) (idx : Z) (b : bytes).

(* the returned tuple: (buffer, index, 0, n), or (None, None, None, n).  The third
   component is always 0 and is not represented. *)
Inductive rd := RBuf (b : bytes) (i : Z) (n : Z) | RLen (n : Z).

(* filestruct.py:26-56 (single_load, continuous_load), 61-70 (dummy_load),
   docstruct.py:525-543 (composite_fdata).  start = None is Python's None.
   file.read with a negative count is not modelled. *)
Fixpoint run_prov (p : prov) (start : option Z) (len : Z) : res rd :=
  match p with
  | PvSingle b =>
      match start with
      | None => if len =? -1 then Ok (RLen (blen b)) else Exc ETypeError
      | Some s =>
          if blen b =? 0 then Exc EZeroDivision
          else let i := (s + blen b) mod (blen b) in
               let n := if len =? -1 then blen b - i else Z.min (blen b - i) len in
               Ok (RBuf b i n)
      end
  | PvCont b =>
      match start with
      | None => if len =? -1 then Ok (RLen (blen b)) else Exc ETypeError
      | Some s =>
          if blen b =? 0 then Exc EZeroDivision
          else let i := (s + blen b) mod (blen b) in
               let n := if len =? -1 then blen b - i else Z.min (blen b - i) len in
               if n <? 0 then Exc EUnsupported
               else Ok (RBuf (sub b (Z.to_nat i) (Z.to_nat (i + n))) i n)
      end
  | PvDummy b =>
      match start with
      | None => Exc ETypeError
      | Some s =>
          if (s =? -1) && (len =? 0) then Ok (RLen (blen b))
          else let l := if len =? -1 then blen b - s else len in
               let i := if s =? -1 then blen b - l else s in
               Ok (RBuf b i (Z.min (blen b - s) l))
      end
  | PvMerge p idx b =>
      match start with
      | None => if len =? -1 then Ok (RLen (idx + blen b)) else Exc ETypeError
      | Some s =>
          if idx <? s then
            let s' := s - idx in
            let l := if len =? -1 then blen b - s' else len in
            let i := if s' =? -1 then blen b - l else s' in
            Ok (RBuf b i (Z.min (blen b - s') l))
          else run_prov p (Some s) len
      end
  end.

(* filestruct.py:74-77  bdata_length *)
Definition bdata_length (p : prov) : res Z :=
  let* r := run_prov p None (-1) in
  match r with RLen n => Ok n | RBuf _ _ n => Ok n end.

(* filestruct.py:80-83  bdata_all *)
Definition bdata_all (p : prov) : res (option bytes) :=
  let* r := run_prov p (Some 0) (-1) in
  match r with RLen _ => Ok None | RBuf b _ _ => Ok (Some b) end.

(* the pattern "buf, a0, o0, n = fdata(start, length)" followed by a use of buf at
   a0: a buffer None raises; a negative index (Python would count from the end) is
   not modelled *)
Definition read_at (p : prov) (s len : Z) : res (bytes * nat * Z) :=
  let* r := run_prov p (Some s) len in
  match r with
  | RLen _ => Exc ETypeError
  | RBuf b i n => if i <? 0 then Exc EUnsupported else Ok (b, Z.to_nat i, n)
  end.

(* ---------------- hexdump ---------------- *)
(* bytes.hex(l, ' ') : lower case pairs separated by spaces *)
Definition hex2 (c : Z) : bytes := [hexdig_l (c / 16); hexdig_l (c mod 16)].
Fixpoint hex_sp (l : bytes) : bytes :=
  match l with [] => [] | [c] => hex2 c | c :: r => hex2 c ++ [32] ++ hex_sp r end.
(* f"{s:w}" on a string: padded on the right *)
Definition ljust (w : nat) (s : bytes) : bytes := s ++ repeat 32 (w - length s).

(* filestruct.py:103 : one line *)
Definition hexdump_line (i : Z) (l : bytes) : bytes :=
  pad0 10 i ++ [32; 32] ++ ljust 29 (hex_sp l) ++ [32; 32; 124]
  ++ map ascii_hexdump_printable l ++ [124; 10].

(* filestruct.py:99-104 : one line every 10 bytes; fuel is at least the number of turns *)
Fixpoint hexdump_loop (fuel : nat) (buf : bytes) (i e : Z) : res bytes :=
  match fuel with
  | O => Loop
  | S f => if i <? e then
             let* tl := hexdump_loop f buf (i + 10) e in
             Ok (hexdump_line i (sub buf (Z.to_nat i) (Z.to_nat (i + 10))) ++ tl)
           else Ok []
  end.

(* filestruct.py:86-105  hexdump *)
Definition hexdump (p : prov) (start stop : option Z) : res bytes :=
  let* sz := bdata_length p in
  let st := match start with None => 0 | Some s => s end in
  let sp := match stop with None => sz | Some e => if sz <? e then sz else e end in
  let idx := (st / 10) * 10 in
  let* (buf, i0, n) := read_at p idx (sp - st + (st - idx)) in
  hexdump_loop (S (Z.to_nat n)) buf (Z.of_nat i0) (Z.of_nat i0 + n).

(* ---------------- index entries ---------------- *)
(* abs_pos: an int; the float loc + k/10000 of an embedded object; the tuple
   (envelope, position) used while the index is being built *)
Inductive apos := AInt (z : Z) | AFloat (loc k : Z) | ATup (env off : Z).
Definition apos_eqb (a b : apos) : bool :=
  match a, b with
  | AInt x, AInt y => x =? y
  | AFloat x k, AFloat y j => (x =? y) && (k =? j)
  | ATup x k, ATup y j => (x =? y) && (k =? j)
  | _, _ => false
  end.

(* The dictionaries used as index entries; an absent key is None (false for the flags
   DELETED and xref_stm).
   n_num o_num, n_gen o_gen, n_over o_ver, n_dver doc_ver, n_pos abs_pos,
   n_next abs_next, n_env env_num, n_opos o_pos, n_del DELETED, n_xt xref_table_pos,
   n_xs xref_stream_pos, n_xsn xref_stream_num, n_sx startxref_pos, n_stm xref_stm,
   n_old OLD_REF *)
Record ient := mk_ient {
  n_num : Z;
  n_gen : Z;
  n_over : option Z;
  n_dver : option Z;
  n_pos : option apos;
  n_next : option Z;
  n_env : option Z;
  n_opos : option Z;
  n_del : bool;
  n_xt : option Z;
  n_xs : option Z;
  n_xsn : option Z;
  n_sx : option Z;
  n_stm : bool;
  n_old : option (Z * Z) }.
Definition with_gen (v : Z) (e : ient) : ient :=
  mk_ient (n_num e) v (n_over e) (n_dver e) (n_pos e) (n_next e) (n_env e) (n_opos e) (n_del e) (n_xt e) (n_xs e) (n_xsn e) (n_sx e) (n_stm e) (n_old e).
Definition with_over (v : option Z) (e : ient) : ient :=
  mk_ient (n_num e) (n_gen e) v (n_dver e) (n_pos e) (n_next e) (n_env e) (n_opos e) (n_del e) (n_xt e) (n_xs e) (n_xsn e) (n_sx e) (n_stm e) (n_old e).
Definition with_dver (v : option Z) (e : ient) : ient :=
  mk_ient (n_num e) (n_gen e) (n_over e) v (n_pos e) (n_next e) (n_env e) (n_opos e) (n_del e) (n_xt e) (n_xs e) (n_xsn e) (n_sx e) (n_stm e) (n_old e).
Definition with_pos (v : option apos) (e : ient) : ient :=
  mk_ient (n_num e) (n_gen e) (n_over e) (n_dver e) v (n_next e) (n_env e) (n_opos e) (n_del e) (n_xt e) (n_xs e) (n_xsn e) (n_sx e) (n_stm e) (n_old e).
Definition with_next (v : option Z) (e : ient) : ient :=
  mk_ient (n_num e) (n_gen e) (n_over e) (n_dver e) (n_pos e) v (n_env e) (n_opos e) (n_del e) (n_xt e) (n_xs e) (n_xsn e) (n_sx e) (n_stm e) (n_old e).
Definition with_env (v : option Z) (e : ient) : ient :=
  mk_ient (n_num e) (n_gen e) (n_over e) (n_dver e) (n_pos e) (n_next e) v (n_opos e) (n_del e) (n_xt e) (n_xs e) (n_xsn e) (n_sx e) (n_stm e) (n_old e).
Definition with_opos (v : option Z) (e : ient) : ient :=
  mk_ient (n_num e) (n_gen e) (n_over e) (n_dver e) (n_pos e) (n_next e) (n_env e) v (n_del e) (n_xt e) (n_xs e) (n_xsn e) (n_sx e) (n_stm e) (n_old e).
Definition with_del (v : bool) (e : ient) : ient :=
  mk_ient (n_num e) (n_gen e) (n_over e) (n_dver e) (n_pos e) (n_next e) (n_env e) (n_opos e) v (n_xt e) (n_xs e) (n_xsn e) (n_sx e) (n_stm e) (n_old e).
Definition with_xt (v : option Z) (e : ient) : ient :=
  mk_ient (n_num e) (n_gen e) (n_over e) (n_dver e) (n_pos e) (n_next e) (n_env e) (n_opos e) (n_del e) v (n_xs e) (n_xsn e) (n_sx e) (n_stm e) (n_old e).
Definition with_xs (v : option Z) (e : ient) : ient :=
  mk_ient (n_num e) (n_gen e) (n_over e) (n_dver e) (n_pos e) (n_next e) (n_env e) (n_opos e) (n_del e) (n_xt e) v (n_xsn e) (n_sx e) (n_stm e) (n_old e).
Definition with_xsn (v : option Z) (e : ient) : ient :=
  mk_ient (n_num e) (n_gen e) (n_over e) (n_dver e) (n_pos e) (n_next e) (n_env e) (n_opos e) (n_del e) (n_xt e) (n_xs e) v (n_sx e) (n_stm e) (n_old e).
Definition with_sx (v : option Z) (e : ient) : ient :=
  mk_ient (n_num e) (n_gen e) (n_over e) (n_dver e) (n_pos e) (n_next e) (n_env e) (n_opos e) (n_del e) (n_xt e) (n_xs e) (n_xsn e) v (n_stm e) (n_old e).
Definition with_stm (v : bool) (e : ient) : ient :=
  mk_ient (n_num e) (n_gen e) (n_over e) (n_dver e) (n_pos e) (n_next e) (n_env e) (n_opos e) (n_del e) (n_xt e) (n_xs e) (n_xsn e) (n_sx e) v (n_old e).
Definition with_old (v : option (Z * Z)) (e : ient) : ient :=
  mk_ient (n_num e) (n_gen e) (n_over e) (n_dver e) (n_pos e) (n_next e) (n_env e) (n_opos e) (n_del e) (n_xt e) (n_xs e) (n_xsn e) (n_sx e) (n_stm e) v.

Definition ient0 (num gen : Z) : ient :=
  mk_ient num gen None None None None None None false None None None None false None.

(* a cell of an index row: None, a dictionary, or a list (linearized files: several
   trailers share cell 0) *)
Inductive slot := SNone | SDict (e : ient) | SList (l : list slot).

(* list[z] with Python's negative indexes *)
Definition pyidx {A} (l : list A) (z : Z) : option nat :=
  let n := Z.of_nat (length l) in
  if (0 <=? z) && (z <? n) then Some (Z.to_nat z)
  else if (- n <=? z) && (z <? 0) then Some (Z.to_nat (z + n)) else None.
Definition pyget {A} (l : list A) (z : Z) : res A :=
  match pyidx l z with Some i => of_opt EIndexError (nth_error l i) | None => Exc EIndexError end.
Fixpoint lset {A} (l : list A) (i : nat) (v : A) : list A :=
  match l, i with
  | [], _ => []
  | _ :: r, O => v :: r
  | x :: r, S j => x :: lset r j v
  end.
Definition pyset {A} (l : list A) (z : Z) (v : A) : res (list A) :=
  match pyidx l z with Some i => Ok (lset l i v) | None => Exc EIndexError end.

(* slot['key']: only a dictionary supports it *)
Definition as_dict (s : slot) : res ient :=
  match s with SDict e => Ok e | _ => Exc ETypeError end.

(* truth value of a number or None *)
Definition truthy (o : option Z) : bool := match o with Some z => negb (z =? 0) | None => false end.

Definition W_trailer := Eval vm_compute in B "trailer".
Definition W_EOF := Eval vm_compute in B "%%EOF".
Definition K_XRefStm := Eval vm_compute in B "/XRefStm".
Definition K_Prev := Eval vm_compute in B "/Prev".
Definition K_Type := Eval vm_compute in B "/Type".
Definition V_XRef := Eval vm_compute in B "/XRef".
Definition V_ObjStm := Eval vm_compute in B "/ObjStm".
Definition K_FirstLine := Eval vm_compute in B "/FirstLine".

(* find() as a number: -1 when absent *)
Definition znat (o : option nat) : Z := match o with Some n => Z.of_nat n | None => -1 end.

Section WithZlib.
Context {ZL : Zlib}.

(* filestruct.py:174-182 : entries in use; a line is kept when its keyword is not b'f'
   and its number is not 0 *)
Definition xtab_entry (l : xline) : list ient :=
  match l with
  | XSub _ _ => []
  | XEnt off num gen kw =>
      if negb (beqb kw [102]) && negb (num =? 0)
      then [with_pos (Some (AInt off)) (ient0 num gen)] else []
  end.
(* filestruct.py:181 : keyword.decode('ascii') may raise *)
Definition xtab_check (l : xline) : bool :=
  match l with XSub _ _ => true | XEnt _ _ _ kw => is_ascii kw end.

(* filestruct.py:162-191  parse_xref_table (general_offset is always 0).  Formatting a
   negative number cannot raise. *)
Definition parse_xref_table (t : bytes) (start : nat) : res (list ient) :=
  let* x := parse_xref_table_raw t start in
  match x with
  | None => Exc ETypeError
  | Some x =>
      if forallb xtab_check (xt_lines x) then
        Ok (with_xt (Some (Z.of_nat start))
              (with_pos (Some (AInt (znat (find W_trailer t start)))) (ient0 0 0))
            :: flat_map xtab_entry (xt_lines x))
      else Exc EUnicodeError
  end.

(* filestruct.py:213-227 *)
Definition xstm_entry (l : xsline) : list ient :=
  if xs_num l =? 0 then []
  else if xs_free l then []
  else if truthy (xs_env l) then
    match xs_env l with
    | Some env => [with_opos (Some (xs_off l)) (with_env (Some env)
                    (with_pos (Some (ATup env (xs_off l))) (ient0 (xs_num l) (xs_gen l))))]
    | None => []
    end
  else [with_pos (Some (AInt (xs_off l))) (ient0 (xs_num l) (xs_gen l))].

(* filestruct.py:194-237  parse_xref_stream *)
Definition parse_xref_stream (d : dict) (s : option bytes) (trailer_pos num : Z) : res (list ient) :=
  let* lines := parse_xref_stream_raw d s in
  Ok (with_xsn (Some num) (with_xs (Some trailer_pos)
        (with_pos (Some (AInt trailer_pos)) (ient0 0 0)))
      :: flat_map xstm_entry lines).

(* filestruct.py:281-295 : one section, its entries (trailer first), its trailer
   dictionary and the buffer read (the variable bdata).  The number of an xref stream object is parsed by parse_obj; anything but
   an int is not modelled. *)
Definition read_section (p : prov) (xref_pos last startxref_pos : Z) : res (list ient * dict * bytes) :=
  let* (t, a0, _) := read_at p xref_pos (last - xref_pos) in
  if beqb (sub t a0 (a0 + 4)) W_xref then
    let* xi := parse_xref_table t a0 in
    let tp := znat (find W_trailer t a0) in
    if tp <? 0 then Exc EUnsupported
    else
      let '(_, j1, _) := next_token t (Z.to_nat tp) in
      let '(i2, j2, _) := next_token t j1 in
      let* tr := parse_obj (sub t i2 j2) 0 in
      match tr with PDict d => Ok (xi, d, t) | _ => Exc ETypeError end
  else
    let* (t, a0, _) := read_at p xref_pos (startxref_pos - xref_pos) in
    let '(i1, j1, _) := next_token t a0 in
    let* num := parse_obj t i1 in
    let '(_, j2, _) := next_token t j1 in
    let '(_, j3, _) := next_token t j2 in
    let '(i4, _, _) := next_token t j3 in
    let* x := parse_obj t i4 in
    match num, x with
    | PInt n, PStream d s _ => let* xi := parse_xref_stream d s xref_pos n in Ok (xi, d, t)
    | PInt _, _ => Exc ETypeError
    | _, _ => Exc EUnsupported
    end.

(* trailer[0]['startxref_pos'] = ...; appended end-of-file entry (filestruct.py:296-297) *)
Definition close_section (xi : list ient) (stm : bool) (startxref_pos eof_pos : Z) : list ient :=
  match xi with
  | t :: r => with_stm stm (with_sx (Some startxref_pos) t)
              :: r ++ [with_pos (Some (AInt eof_pos)) (ient0 (-1) (-1))]
  | [] => []
  end.

(* int(trailer[k]) when k is present, 0 (False) otherwise *)
Definition int_entry (k : bytes) (d : dict) : res Z :=
  match dget k d with None => Ok 0 | Some v => of_opt EValueError (py_int_obj v) end.

(* filestruct.py:257-305 : the loop, once the first section is known.  prev and xrefstm
   are 0 when False.  The buffer [t] of the previous turn is the one searched by find. *)
Fixpoint xref_chain (fuel : nat) (p : prov) (t : bytes) (prev stm : Z) : res (list (list ient)) :=
  if (prev =? 0) && (stm =? 0) then Ok []
  else match fuel with
  | O => Loop
  | S f =>
      let xref_pos := if stm =? 0 then prev else stm in
      let prev1 := if stm =? 0 then 0 else prev in
      if xref_pos <? 0 then Exc EUnsupported
      else
      let sx := znat (find W_startxref t (Z.to_nat xref_pos)) in
      let ep := znat (find W_EOF t (Z.to_nat xref_pos)) in
      let* (xi, tr, t') := read_section p xref_pos ep sx in
      let* (hasstm, stm2, prev2) :=
        (if prev1 =? 0 then
           let* s := int_entry K_XRefStm tr in
           let* q := int_entry K_Prev tr in
           Ok (dhas K_XRefStm tr, s, q)
         else Ok (false, 0, prev1)) in
      let* rest := xref_chain f p t' prev2 stm2 in
      Ok (close_section xi hasstm sx ep :: rest)
  end.

(* filestruct.py:260-305, the first turn (start = True) followed by the others *)
Definition xref_chrono (fuel : nat) (p : prov) : res (list (list ient)) :=
  let* (t, a0, _) := read_at p (-100) (-1) in
  let ep := znat (rfind W_EOF t a0) in
  let sx := znat (rfind W_startxref t a0) in
  let '(i, j, _) := next_token t (Z.to_nat (sx + 9)) in
  let* xref_pos := of_opt EValueError (py_int 10 (sub t i j)) in
  let* (xi, tr, t') := read_section p xref_pos sx sx in
  let* s := int_entry K_XRefStm tr in
  let* q := int_entry K_Prev tr in
  let* rest := xref_chain fuel p t' q s in
  Ok (close_section xi (dhas K_XRefStm tr) sx ep :: rest).

(* filestruct.py:299 : (abs_pos, o_num) of the entries that are not embedded *)
Definition seq_of (x : list ient) : list (Z * Z) :=
  flat_map (fun e => match n_env e, n_pos e with
                     | None, Some (AInt p) => [(p, n_num e)]
                     | _, _ => []
                     end) x.

(* sorted() on integers; sort(key=...) is stable *)
Fixpoint insert_by {A} (key : A -> Z) (x : A) (l : list A) : list A :=
  match l with
  | [] => [x]
  | y :: r => if key x <? key y then x :: l else y :: insert_by key x r
  end.
Definition sort_by {A} (key : A -> Z) (l : list A) : list A :=
  fold_left (fun acc x => insert_by key x acc) l [].

(* filestruct.py:310 : {idx[i]: idx[i+1] ... if idx[i] < idx[i+1]} *)
Fixpoint next_map (idx : list Z) : list (Z * Z) :=
  match idx with
  | a :: r => match r with
              | b :: _ => if a <? b then (a, b) :: next_map r else next_map r
              | [] => []
              end
  | [] => []
  end.
(* lookup in a dictionary built in this order: the last binding wins *)
Fixpoint zlookup {A} (k : Z) (m : list (Z * A)) : option A :=
  match m with
  | [] => None
  | (k', v) :: r => match zlookup k r with
                    | Some x => Some x
                    | None => if k =? k' then Some v else None
                    end
  end.

(* filestruct.py:306-313 : the map to the following position and the greatest number *)
Definition finish_seq (chrono : list (list ient)) (file_sz : Z) : res (list (Z * Z) * Z) :=
  let seq := flat_map seq_of chrono in
  let idx := sort_by (fun z => z) (map fst seq) ++ [file_sz] in
  match seq with
  | [] => Exc EValueError
  | (_, n) :: r => Ok (next_map idx, fold_left (fun m x => Z.max m (snd x)) r n)
  end.

(* filestruct.py:240-313  build_xref_sequence *)
Definition build_xref_sequence (fuel : nat) (p : prov) : res (list (list ient) * list (Z * Z) * Z) :=
  let* chrono := xref_chrono fuel p in
  let* file_sz := bdata_length p in
  let* (nxt, nb) := finish_seq chrono file_sz in
  Ok (chrono, nxt, nb).

End WithZlib.

(* ---------------- index ---------------- *)
(* filestruct.py:326-335 : hybrid sections *)
Fixpoint hybrid_merge (acc : list (list ient)) (seq : list (list ient)) : res (list (list ient)) :=
  match seq with
  | [] => Ok (rev acc)
  | x :: r =>
      match x with
      | [] => Exc EIndexError
      | t :: _ =>
          if n_stm t then
            match acc with
            | (pt :: pr) :: acc' => hybrid_merge ((with_pos (n_pos t) (with_stm true pt) :: pr) :: acc') r
            | _ => Exc EIndexError
            end
          else hybrid_merge (x :: acc) r
      end
  end.

(* filestruct.py:348-360 : one entry put in row m (which is index[-1]; [have] says that
   the index is not empty) *)
Definition put_entry (have : bool) (ver : Z) (m : list slot) (o : ient) : res (list slot) :=
  let* old := pyget m (n_num o) in
  match old with
  | SNone => pyset m (n_num o) (SDict (with_dver (Some ver) (with_over (Some 0) o)))
  | _ =>
      if have then
        let* oe := as_dict old in
        if match n_pos oe, n_pos o with Some a, Some b => apos_eqb a b | _, _ => false end
        then pyset m (n_num oe) (SDict oe)
        else let* ov := of_opt EKeyError (n_over oe) in
             pyset m (n_num o) (SDict (with_dver (Some ver) (with_over (Some (ov + 1)) o)))
      else Exc EIndexError
  end.
Fixpoint put_entries (have : bool) (ver : Z) (m : list slot) (l : list ient) : res (list slot) :=
  match l with
  | [] => Ok m
  | o :: r => let* m' := put_entry have ver m o in put_entries have ver m' r
  end.

(* filestruct.py:336-360 : rows are built in order; the last row is the current m.
   [done] holds the finished rows (last first), [m] the current one, [have] tells
   whether m is in the index. *)
Definition pos_int (e : ient) : res Z :=
  match n_pos e with Some (AInt z) => Ok z | Some _ => Exc ETypeError | None => Exc EKeyError end.
Fixpoint build_rows (done : list (list slot)) (have : bool) (m : list slot) (ver prev_pos : Z)
         (seq : list (list ient)) : res (list (list slot)) :=
  match seq with
  | [] => Ok (rev (if have then m :: done else done))
  | x :: r =>
      match x with
      | [] => Exc EIndexError
      | t :: os =>
          let* tp := pos_int t in
          let fresh := prev_pos <? tp in
          let ver' := if fresh then ver + 1 else ver in
          let done' := if fresh then (if have then m :: done else done) else done in
          let have' := if fresh then true else have in
          let t' := SDict (with_dver (Some ver') (with_over (Some ver') t)) in
          let* m0 := of_opt EIndexError (nth_error m 0) in
          let m' := lset m 0 (if fresh then t' else SList [m0; t']) in
          let* m'' := put_entries have' ver' m' os in
          build_rows done' have' m'' ver' (if fresh then tp else prev_pos) r
      end
  end.

(* filestruct.py:367-377 : abs_next (and the final abs_pos of an embedded entry).  The
   dictionary is shared by all the rows that carry it over and is completed while the
   first of them is visited: the row whose number is its doc_ver. *)
Definition complete (rows : list (list slot)) (nxt : list (Z * Z)) (y : ient) : res ient :=
  match n_next y with
  | Some z => if z =? 0 then Exc EUnsupported else Ok y
  | None =>
      let* v := of_opt EKeyError (n_dver y) in
      let* row := pyget rows v in
      match n_pos y with
      | None => Exc EKeyError
      | Some (AFloat _ _) => Exc EKeyError
      | Some (AInt p) => let* x := of_opt EKeyError (zlookup p nxt) in Ok (with_next (Some x) y)
      | Some (ATup env off) =>
          let* c := pyget row env in
          let* ce := as_dict c in
          let* loc := pos_int ce in
          let* x := of_opt EKeyError (zlookup loc nxt) in
          Ok (with_next (Some x) (with_pos (Some (AFloat loc (off + 1))) y))
      end
  end.
Fixpoint map_res {A C} (f : A -> res C) (l : list A) : res (list C) :=
  match l with
  | [] => Ok []
  | x :: r => let* y := f x in let* t := map_res f r in Ok (y :: t)
  end.
Definition complete_slot (rows : list (list slot)) (nxt : list (Z * Z)) (s : slot) : res slot :=
  match s with
  | SNone => Ok SNone
  | SDict e => let* e' := complete rows nxt e in Ok (SDict e')
  | SList l =>
      let* l' := map_res (fun x => match x with
                                   | SDict e => let* e' := complete rows nxt e in Ok (SDict e')
                                   | _ => Exc EAttributeError
                                   end) l in
      Ok (SList l')
  end.

(* filestruct.py:316-378  build_index_from_xref_sequence *)
Definition build_index (chrono : list (list ient)) (nxt : list (Z * Z)) (nb : Z) : res (list (list slot)) :=
  let* seq := hybrid_merge [] (rev chrono) in
  let* rows := build_rows [] false (repeat SNone (Z.to_nat (nb + 2))) (-1) 0 seq in
  map_res (map_res (complete_slot rows nxt)) rows.

(* filestruct.py:381-389  eof_cut *)
Fixpoint skip_eol (fuel : nat) (t : bytes) (i e : nat) : nat :=
  match fuel with
  | O => i
  | S f => if Nat.ltb i e && inb (nth i t 0) EOL then skip_eol f t (S i) e else i
  end.
Definition eof_cut (eof_index : Z) (p : prov) : res Z :=
  let* l := bdata_length p in
  let* (t, st, n) := read_at p eof_index (l - eof_index) in
  Ok (Z.of_nat (skip_eol (length t) t (st + 5) (Z.to_nat (Z.of_nat st + n)))).

(* ---------------- writing ---------------- *)
Inductive action := Add | Upd | Del.
Definition is_del (a : action) : bool := match a with Del => true | _ => false end.
Definition change := (ref * action)%type.   (* ((generation, number), action) *)

(* filestruct.py:392-403  circular_deleted: number -> next deleted number *)
Fixpoint links (l : list Z) : list (Z * Z) :=
  match l with
  | [] => []
  | a :: r => (a, match r with b :: _ => b | [] => 0 end) :: links r
  end.
Definition circular_deleted (chg : list change) : list (Z * Z) :=
  links (0 :: map (fun c => snd (fst c)) (filter (fun c => is_del (snd c)) chg)).

(* an element of xref_table: (use, num, o_gen, counter, env_num) *)
Record xelem := mk_xe { xe_free : bool; xe_num : Z; xe_gen : Z; xe_cnt : option Z; xe_env : option Z }.

(* filestruct.py:409-415 : one line of the table *)
Definition xref_line (next_free : list (Z * Z)) (e : xelem) : res (bytes * Z) :=
  if xe_free e then
    let* nf := of_opt EKeyError (zlookup (xe_num e) next_free) in
    Ok (pad0 10 nf ++ [32] ++ pad0 5 (xe_gen e + 1) ++ [32; 102], xe_num e)
  else
    let* c := of_opt ETypeError (xe_cnt e) in
    Ok (pad0 10 c ++ [32] ++ pad0 5 (xe_gen e) ++ [32; 110], xe_num e).

(* filestruct.py:417-430 and 463-474 : subsections.  The loop walks backwards and
   inserts a header in front of every maximal run of consecutive numbers; going
   forwards over (payload, num) pairs this groups them. *)
Fixpoint group_runs {A} (l : list (A * Z)) : list (Z * list A) :=
  match l with
  | [] => []
  | (x, n) :: r =>
      match group_runs r with
      | (m, xs) :: g => if n + 1 =? m then (n, x :: xs) :: g else (n, [x]) :: (m, xs) :: g
      | [] => [(n, [x])]
      end
  end.
Definition sub_text (s : Z * list bytes) : bytes :=
  dec (fst s) ++ [32] ++ dec (Z.of_nat (length (snd s))) ++ [10]
  ++ flat_map (fun l => l ++ [10]) (snd s).

Definition W_xref_nl := Eval vm_compute in B "xref" ++ [10].
Definition W_trailer_nl := Eval vm_compute in B "trailer" ++ [10].
Definition W_0obj := Eval vm_compute in B " 0 obj" ++ [10].
Definition W_obj_nl := Eval vm_compute in B " obj" ++ [10].
Definition W_endobj_nl := Eval vm_compute in B "endobj" ++ [10].
Definition W_startxref_nl := Eval vm_compute in B "startxref" ++ [10].
Definition W_EOF_nl := Eval vm_compute in B "%%EOF" ++ [10].

Section WithZlib2.
Context {ZL : Zlib}.

(* filestruct.py:406-439  format_xref_table (an empty list of elements raises) *)
Definition format_xref_table (elems : list xelem) (trailer : obj) (next_free : list (Z * Z)) : res bytes :=
  let* lines := map_res (xref_line next_free) elems in
  match lines with
  | [] => Exc EIndexError
  | _ =>
      let* tr := serialize trailer in
      Ok (W_xref_nl ++ flat_map sub_text (group_runs lines) ++ W_trailer_nl ++ tr ++ [10])
  end.

(* filestruct.py:451-461 : one entry of the stream, b bytes per field *)
Definition xref_word (b : nat) (next_free : list (Z * Z)) (e : xelem) : res (bytes * Z) :=
  if xe_free e then
    let* nf := of_opt EKeyError (zlookup (xe_num e) next_free) in
    let* x := of_opt EOverflow (to_be b nf) in
    let* y := of_opt EOverflow (to_be b (xe_gen e + 1)) in
    Ok ([0] ++ x ++ y, xe_num e)
  else
    let* c := of_opt EAttributeError (xe_cnt e) in
    if truthy (xe_env e) then
      let* env := of_opt EAttributeError (xe_env e) in
      let* x := of_opt EOverflow (to_be b env) in
      let* y := of_opt EOverflow (to_be b c) in
      Ok ([2] ++ x ++ y, xe_num e)
    else
      let* x := of_opt EOverflow (to_be b c) in
      let* y := of_opt EOverflow (to_be b (xe_gen e)) in
      Ok ([1] ++ x ++ y, xe_num e).

(* filestruct.py:448-449 : field width from the greatest counter.  math.log2 is a
   binary float; it is taken as exact here (true below 2^48). *)
Definition max_counter (elems : list xelem) : option Z :=
  fold_left (fun m e => match xe_cnt e, m with
                        | None, _ => m
                        | Some c, None => Some c
                        | Some c, Some x => Some (Z.max x c)
                        end) elems None.
Definition xref_width (elems : list xelem) : res Z :=
  let* m := of_opt EValueError (max_counter elems) in
  if m + 1 <=? 0 then Exc EValueError else Ok (Z.log2 (m + 1) / 8 + 1).

(* filestruct.py:442-487  format_xref_stream: the text and the trailer dictionary, which
   is modified in place *)
Definition format_xref_stream (elems : list xelem) (trailer : dict) (next_free : list (Z * Z)) (num : Z)
  : res (bytes * dict) :=
  let* b := xref_width elems in
  let t1 := dset K_W (PList [PInt 1; PInt b; PInt b])
              (dset K_Length (PInt (-1)) (dset K_Type (PStr V_XRef) trailer)) in
  let* words := map_res (xref_word (Z.to_nat b) next_free) elems in
  match words with
  | [] => Exc EIndexError
  | _ =>
      let index := flat_map (fun s => [PInt (fst s); PInt (Z.of_nat (length (snd s)))]) (group_runs words) in
      let t2 := dset K_Index (PList index) t1 in
      let* (s, _) := forge_stream t2 (flat_map fst words) in
      let* ser0 := serialize s in
      let t3 := match s with PStream d _ _ => d | _ => t2 end in
      Ok (dec num ++ W_0obj ++ ser0 ++ [10] ++ W_endobj_nl, t3)
  end.

(* filestruct.py:490-496  serialize_fragment *)
Definition serialize_fragment (num gen : Z) (o : obj) : res bytes :=
  let* s := serialize o in
  Ok (dec num ++ [32] ++ dec gen ++ W_obj_nl ++ s ++ [10] ++ W_endobj_nl).

(* filestruct.py:499-510  append_to_stream_fragment *)
Definition append_to_stream_fragment (num : Z) (o envelope : obj) : res obj :=
  let* ser := serialize o in
  match envelope with
  | PStream d (Some s) _ =>
      let fl := match dget K_FirstLine d with None => PList [] | Some x => x end in
      match fl with
      | PList l => Ok (PStream (dset K_FirstLine (PList (l ++ [PInt num; PInt (blen s)])) d)
                               (Some (s ++ ser ++ [10])) None)
      | _ => Exc EAttributeError
      end
  | _ => Exc ETypeError
  end.

(* filestruct.py:513-517  get_pos_in_stream *)
Definition get_pos_in_stream (envelope : obj) : res Z :=
  match envelope with
  | PStream d _ _ =>
      match dget K_FirstLine d with
      | Some (PList l) => Ok (Z.of_nat (length l) / 2 - 1)
      | Some _ => Exc ETypeError
      | None => Exc EKeyError
      end
  | _ => Exc ETypeError
  end.

(* filestruct.py:520-535  finalize_stream.  f'{i} ' is modelled for integers. *)
Definition finalize_stream (envelope : obj) : res obj :=
  match envelope with
  | PStream d s _ =>
      let* (hd, d1) :=
        (if negb (dhas K_First d) && negb (dhas K_N d) then
           let* fl := of_opt EKeyError (dget K_FirstLine d) in
           let* l := match fl with PList l => int_list l | _ => Exc EUnsupported end in
           let hd := flat_map (fun i => dec i ++ [32]) l ++ [10] in
           Ok (hd, ddel K_FirstLine (dset K_N (PInt (Z.of_nat (length l) / 2)) (dset K_First (PInt (blen hd)) d)))
         else Ok ([], d)) in
      let* s := of_opt ETypeError s in
      let* (e, _) := forge_stream (dset K_Length (PInt (-1)) d1) (hd ++ s) in
      Ok e
  | _ => Exc ETypeError
  end.

(* filestruct.py:549-557 : first loop, objects that go in object streams *)
Fixpoint embed_changes (cur : list slot) (cache : list obj) (l : list change)
  : res (list obj * list xelem) :=
  match l with
  | [] => Ok (cache, [])
  | (c, a) :: r =>
      let num := snd c in
      let* sl := pyget cur num in
      let* e := as_dict sl in
      if negb (is_del a) && truthy (n_env e) then
        let* env := of_opt EKeyError (n_env e) in
        let* o := pyget cache num in
        let* env_o := pyget cache env in
        let* new_env := append_to_stream_fragment num o env_o in
        let* cache' := pyset cache env new_env in
        let* pos := get_pos_in_stream new_env in
        let* (cache'', tl) := embed_changes cur cache' r in
        Ok (cache'', mk_xe false num (n_gen e) (Some pos) (Some env) :: tl)
      else embed_changes cur cache r
  end.

(* filestruct.py:558-578 : second loop; returns the fragments (concatenated), the
   elements, the new index and the counter; [last] is the variable block *)
Fixpoint write_changes (cur : list slot) (cache : list obj) (newi : list slot) (cnt : Z)
         (last : option bytes) (l : list change)
  : res (bytes * list xelem * list slot * Z * option bytes) :=
  match l with
  | [] => Ok ([], [], newi, cnt, last)
  | (c, a) :: r =>
      let num := snd c in
      if is_del a then
        let* gen := (if num =? 0 then Ok (65535 - 1)
                     else let* sl := pyget cur num in let* e := as_dict sl in Ok (n_gen e)) in
        let* (fr, el, ni, ct, la) := write_changes cur cache newi cnt last r in
        Ok (fr, mk_xe true num gen None None :: el, ni, ct, la)
      else
        let* sl := pyget cur num in
        let* e := as_dict sl in
        if truthy (n_env e) then write_changes cur cache newi cnt last r
        else
          let* o := pyget cache num in
          let* o' := match o with
                     | PStream d _ _ =>
                         match dget K_Type d with
                         | Some (PStr t) => if beqb t V_ObjStm then finalize_stream o else Ok o
                         | _ => Ok o
                         end
                     | _ => Ok o
                     end in
          let* block := serialize_fragment num (n_gen e) o' in
          let* nsl := pyget newi num in
          let* ne := as_dict nsl in
          let* newi' := pyset newi num
             (SDict (with_next (Some (cnt + blen block)) (with_pos (Some (AInt cnt)) ne))) in
          let* (fr, el, ni, ct, la) := write_changes cur cache newi' (cnt + blen block) (Some block) r in
          Ok (block ++ fr, mk_xe false num (n_gen e) (Some cnt) (n_env e) :: el, ni, ct, la)
  end.

(* new_index[i]['..'] = .. on a dictionary cell *)
Definition upd_slot (l : list slot) (z : Z) (f : ient -> ient) : res (list slot) :=
  let* s := pyget l z in
  let* e := as_dict s in
  pyset l z (SDict (f e)).

(* filestruct.py:538-599  build_revision_byte_stream: bytes, new index, cache *)
Definition build_revision_byte_stream (chg : list change) (cur : list slot) (cache : list obj)
           (starting_pos : Z) (xsn : option Z) : res (bytes * list slot * list obj) :=
  let next_free := circular_deleted chg in
  let l := ((0, 0), Del) :: chg in
  let* (cache1, el1) := embed_changes cur cache l in
  let* (fr, el2, newi, cnt, last) := write_changes cur cache1 cur (starting_pos + 1) None l in
  let elems := sort_by xe_num (el1 ++ el2) in
  let* c0 := pyget cache1 0 in
  let tail := W_startxref_nl ++ dec cnt ++ [10] ++ W_EOF_nl in
  if negb (truthy xsn) then
    let* built := format_xref_table elems c0 next_free in
    let* newi' := upd_slot newi 0 (fun e =>
        with_next (Some (cnt + blen built))
          (with_pos (Some (AInt (cnt + znat (rfind W_trailer built 0))))
             (with_xt (Some cnt) e))) in
    Ok ([10] ++ fr ++ built ++ tail, newi', cache1)
  else
    let* x := of_opt ETypeError xsn in
    let* d0 := match c0 with PDict d => Ok d | _ => Exc ETypeError end in
    let* (built, d1) := format_xref_stream (elems ++ [mk_xe false x 0 (Some cnt) None]) d0 next_free x in
    let* blk := of_opt EUnboundLocal last in
    let* ni1 := upd_slot newi x (fun e => with_next (Some (cnt + blen blk)) (with_pos (Some (AInt cnt)) e)) in
    let* ni2 := upd_slot ni1 0 (fun e =>
        with_next (Some (cnt + blen built)) (with_pos (Some (AInt cnt)) (with_xs (Some cnt) e))) in
    let* cache2 := pyset cache1 0 (PDict d1) in
    Ok ([10] ++ fr ++ built ++ tail, ni2, cache2).

End WithZlib2.

(* ---------------- sequential scan of a file ---------------- *)
Section WithZlib3.
Context {ZL : Zlib}.

(* filestruct.py:602-616  linearized: the first object if it is a linearization
   dictionary *)
Definition K_Linearized := Eval vm_compute in B "/Linearized".
Definition linearized (p : prov) : res (option dict) :=
  let* (t, a0, _) := read_at p 8 1016 in
  let '(_, j1, _) := next_token t a0 in
  let '(_, j2, _) := next_token t j1 in
  let '(_, j3, _) := next_token t j2 in
  let '(_, j4, _) := next_token t j3 in
  let '(i5, j5, k) := next_token t j4 in
  match k with
  | Some TDict =>
      let* o := parse_obj (sub t i5 j5) 0 in
      match o with
      | PDict d => Ok (if dhas K_Linearized d then Some d else None)
      | _ => Ok None
      end
  | _ => Ok None
  end.

(* an element of the object map: a region (with the (subsection, line) numbers given to
   the entries of an xref table), the table of an xref stream, an embedded object (its
   abs_pos is the float bo + (j+1)/10000, its position (bo, actual_pos, j)) *)
Inductive item :=
| ItReg (r : region) (rpos : list (option (Z * Z)))
| ItXS (bo : option nat) (d : dict) (tab : list (xsline * (Z * Z)))
| ItEmb (bo : nat) (j : nat) (e : embobj).

(* filestruct.py:119-131 *)
Fixpoint table_pos (sub ln : Z) (l : list xline) : list (option (Z * Z)) :=
  match l with
  | [] => []
  | XSub _ _ :: r => None :: table_pos (sub + 1) 0 r
  | XEnt _ _ _ _ :: r => Some (sub, ln) :: table_pos sub (ln + 1) r
  end.
(* filestruct.py:137-146 *)
Fixpoint xstm_pos (cur ln : Z) (l : list xsline) : list (xsline * (Z * Z)) :=
  match l with
  | [] => []
  | x :: r => let ln' := if xs_sec x =? cur then ln + 1 else 0 in
              (x, (xs_sec x, ln')) :: xstm_pos (xs_sec x) ln' r
  end.
Fixpoint emb_items (bo : nat) (j : nat) (l : list embobj) : list item :=
  match l with [] => [] | e :: r => ItEmb bo j e :: emb_items bo (S j) r end.

(* d.get('/Type') == v for a str v *)
Definition type_is (v : bytes) (d : dict) : bool :=
  match dget K_Type d with Some (PStr t) => beqb t v | _ => false end.

(* filestruct.py:118-157 : what one region adds to the map *)
Definition region_items (r : region) : res (list item) :=
  match r with
  | RXref x => Ok [ItReg r (table_pos (-1) 0 (xt_lines x))]
  | RInd o =>
      match i_obj o with
      | PStream d s _ =>
          if type_is V_XRef d then
            let* tab := parse_xref_stream_raw d s in
            Ok [ItReg r []; ItXS (i_beg o) d (xstm_pos (-1) 0 tab)]
          else if type_is V_ObjStm d then
            let* es := parse_object_stream d s (i_num o) in
            match es, i_beg o with
            | [], _ => Ok [ItReg r []]
            | _, Some bo => Ok (ItReg r [] :: emb_items bo 0 es)
            | _, None => Exc ETypeError
            end
          else Ok [ItReg r []]
      | _ => Ok [ItReg r []]
      end
  | _ => Ok [ItReg r []]
  end.

Definition reg_end (r : region) : nat :=
  match r with
  | RVoid _ e | RComment _ e | RStartxref _ e _ => e
  | RInd o => i_end o
  | RXref x => xt_end x
  end.
Definition reg_beg (r : region) : option nat :=
  match r with
  | RVoid b _ | RComment b _ | RStartxref b _ _ => Some b
  | RInd o => i_beg o
  | RXref x => Some (xt_beg x)
  end.

(* filestruct.py:113-158 *)
Fixpoint map_loop (fuel : nat) (t : bytes) (len : Z) (i : nat) : res (list item) :=
  match fuel with
  | O => Loop
  | S f =>
      if Z.of_nat i <? len then
        let* mo := parse_region t i in
        match mo with
        | None => Ok []
        | Some r =>
            let* its := region_items r in
            let* tl := map_loop f t len (reg_end r) in
            Ok (its ++ tl)
        end
      else Ok []
  end.

(* filestruct.py:108-159  file_object_map *)
Definition file_object_map (p : prov) : res (list item) :=
  let* (t, _, n) := read_at p 0 (-1) in
  map_loop (S (length t)) t n 0.

End WithZlib3.

(* ---------------- checks ---------------- *)
(* ('DIR', num, gen, pos) and ('EMB', num, env, pos) *)
Inductive okey := KDir (num gen : Z) (pos : apos) | KEmb (num env pos : Z).
Definition okey_eqb (a b : okey) : bool :=
  match a, b with
  | KDir n g p, KDir n' g' p' => (n =? n') && (g =? g') && apos_eqb p p'
  | KEmb n e p, KEmb n' e' p' => (n =? n') && (e =? e') && (p =? p')
  | _, _ => false
  end.
Definition okey_in (k : okey) (l : list okey) : bool := existsb (okey_eqb k) l.

(* filestruct.py:622-625, 659-668 : the keys of the indirect objects of the map.  The
   number of an embedded object is whatever was parsed; only integers are modelled. *)
Definition item_key (x : item) : res (list okey) :=
  match x with
  | ItReg (RInd o) _ =>
      match i_beg o with
      | Some b => Ok [KDir (i_num o) (i_gen o) (AInt (Z.of_nat b))]
      | None => Ok []
      end
  | ItEmb _ j e =>
      match e_num e with
      | PInt n => Ok [KEmb n (e_env e) (Z.of_nat j)]
      | _ => Exc EUnsupported
      end
  | _ => Ok []
  end.
Definition map_keys (m : list item) : res (list okey) :=
  let* l := map_res item_key m in Ok (concat l).

(* filestruct.py:635-638 *)
Definition entry_key (e : ient) : res okey :=
  match n_env e with
  | Some env => let* p := of_opt EKeyError (n_opos e) in Ok (KEmb (n_num e) env p)
  | None => let* p := of_opt EKeyError (n_pos e) in Ok (KDir (n_num e) (n_gen e) p)
  end.

(* filestruct.py:627-642 : one section; pos is None while unbound *)
Fixpoint section_errors (objs : list okey) (pos : option (option Z)) (l : list ient)
  : res (option (option Z) * list okey) :=
  match l with
  | [] => Ok (pos, [])
  | o :: r =>
      if n_num o =? 0 then
        section_errors objs (Some (match n_xt o with Some p => Some p | None => n_xs o end)) r
      else if n_num o <? 0 then section_errors objs pos r
      else
        let* k := entry_key o in
        let* (pos', er) := section_errors objs pos r in
        Ok (pos', if okey_in k objs then er else k :: er)
  end.

(* ret[pos] = errors *)
Definition oz_eqb (a b : option Z) : bool :=
  match a, b with Some x, Some y => x =? y | None, None => true | _, _ => false end.
Fixpoint oset {A} (k : option Z) (v : A) (l : list (option Z * A)) : list (option Z * A) :=
  match l with
  | [] => [(k, v)]
  | (k', v') :: r => if oz_eqb k k' then (k', v) :: r else (k', v') :: oset k v r
  end.
Fixpoint check_sections (objs : list okey) (pos : option (option Z)) (ret : list (option Z * list okey))
         (seq : list (list ient)) : res (list (option Z * list okey)) :=
  match seq with
  | [] => Ok ret
  | x :: r =>
      let* (pos', er) := section_errors objs pos x in
      match pos' with
      | None => Exc EUnboundLocal
      | Some p => check_sections objs pos' (oset p er ret) r
      end
  end.

(* filestruct.py:619-644  check_index_targets *)
Definition check_index_targets (m : list item) (seq : list (list ient)) : res (list (option Z * list okey)) :=
  let* objs := map_keys m in
  check_sections objs None [] seq.

(* filestruct.py:647-671  check_not_indexed_objects *)
Definition section_keys (x : list ient) : res (list okey) :=
  map_res entry_key (filter (fun o => negb (n_num o <=? 0)) x).
Definition check_not_indexed_objects (m : list item) (seq : list (list ient)) : res (list okey) :=
  let* ks := map_res section_keys seq in
  let* objs := map_keys m in
  Ok (filter (fun k => negb (okey_in k (concat ks))) objs).
