(* Model of pdfsyntax/objects.py: tokenizer, parser, serializer *)
From Coq Require Import String.
From Verif Require Import PyBase Model_Filters.

(* objects.py:9-11 *)
Definition EOL : bytes := [13; 10].
Definition SPACE : bytes := EOL ++ [0; 9; 12; 32].
Definition DELIMITERS : bytes := Eval vm_compute in B "<>[]/(){}%".
(* objects.py:117,138,146 : single in (SPACE + DELIMITERS) *)
Definition is_sep (c : Z) : bool := inb c (SPACE ++ DELIMITERS).
(* objects.py:94, 96 *)
Definition VALUE_START : bytes := Eval vm_compute in B "+-.0123456789".
Definition ALPHA : bytes :=
  Eval vm_compute in B "abcdefghijklmnopqrstuvwxyzABCDEFGHIJKLMNOPQRSTUVWXYZ".

Definition W_stream := Eval vm_compute in B "stream".
Definition W_endstream := Eval vm_compute in B "endstream".
Definition W_true := Eval vm_compute in B "true".
Definition W_false := Eval vm_compute in B "false".
Definition W_R := Eval vm_compute in B "R".
Definition W_xref := Eval vm_compute in B "xref".
Definition W_startxref := Eval vm_compute in B "startxref".
Definition W_obj := Eval vm_compute in B "obj".
Definition K_Length := Eval vm_compute in B "/Length".
Definition K_First := Eval vm_compute in B "/First".
Definition K_N := Eval vm_compute in B "/N".
Definition K_W := Eval vm_compute in B "/W".
Definition K_Index := Eval vm_compute in B "/Index".
Definition K_Size := Eval vm_compute in B "/Size".

(* objects.py:50-63  next_line(bdata, start): rest = bdata[cursor:], [st] = Some i once
   the start is found *)
Fixpoint nline (st : option nat) (cur : nat) (rest : bytes) : option (nat * nat) :=
  match rest with
  | [] => None
  | c :: r =>
      match st with
      | None => if inb c EOL then nline None (S cur) r else nline (Some cur) (S cur) r
      | Some i => if inb c EOL then Some (i, cur) else nline (Some i) (S cur) r
      end
  end.
Definition next_line (t : bytes) (start : nat) : option (nat * nat) :=
  nline None start (skipn start t).

(* the token kinds returned by next_token *)
Inductive tok :=
| TDict | TArray | TName | TComment | TString | TTrue | TFalse | TKeyword | TReal | TInteger | TStream.
(* objects.py:68 : the variable [search] *)
Inductive search :=
| STbd | SDict | SName | SComment | SLstr | SHstr | SKeyword | SValue | SStream | SArray.

(* objects.py:66-172  next_token.  State: search, nested, text_in_array, h, cur = text[h:],
   i, and rest = text[i:]; the recursion is on rest (the loop counter i). *)
Fixpoint ntok (se : search) (nested : Z) (tia : bool) (h : nat) (cur : bytes)
         (i : nat) (rest : bytes) {struct rest} : nat * nat * option tok :=
  match rest with
  | [] => (h, i, None)
  | c :: rest1 =>
    let dbl a b := (c =? a) && match rest1 with d :: _ => d =? b | [] => false end in
    match se with
    | STbd =>
        if c =? 93 then (h, i, None)
        else if dbl 62 62 then (h, S i, None)
        else
          let se' :=
            if dbl 60 60 then SDict
            else if c =? 91 then SArray
            else if c =? 47 then SName
            else if starts W_stream rest then SStream
            else if inb c VALUE_START then SValue
            else if inb c ALPHA then SKeyword
            else if c =? 40 then SLstr
            else if c =? 60 then SHstr
            else if c =? 37 then SComment
            else STbd in
          ntok se' nested tia i rest (S i) rest1
    | SDict =>
        if dbl 60 60 || dbl 62 62 then
          let nested' := if dbl 60 60 then nested + 1 else nested - 1 in
          if nested' =? 0 then (h, S (S i), Some TDict)
          else match rest1 with
               | _ :: rest2 => ntok se nested' tia h cur (S (S i)) rest2
               | [] => (h, S (S i), None)
               end
        else if nested =? 0 then (h, S i, Some TDict)
        else ntok se nested tia h cur (S i) rest1
    | SName =>
        if is_sep c then (h, i, Some TName) else ntok se nested tia h cur (S i) rest1
    | SComment =>
        if inb c EOL then (h, i, Some TComment) else ntok se nested tia h cur (S i) rest1
    | SLstr =>
        if dbl 92 40 || dbl 92 41 then
          if nested =? 0 then (h, S (S i), Some TString)
          else match rest1 with
               | _ :: rest2 => ntok se nested tia h cur (S (S i)) rest2
               | [] => (h, S (S i), None)
               end
        else
          let nested' := if c =? 40 then nested + 1 else if c =? 41 then nested - 1 else nested in
          if nested' =? 0 then (h, S i, Some TString)
          else ntok se nested' tia h cur (S i) rest1
    | SHstr =>
        if dbl 92 60 || dbl 92 62 then
          match rest1 with
          | _ :: rest2 => ntok se nested tia h cur (S (S i)) rest2
          | [] => (h, S (S i), None)
          end
        else if c =? 62 then (h, S i, Some TString)
        else ntok se nested tia h cur (S i) rest1
    | SKeyword =>
        if is_sep c then
          let w := firstn (i - h) cur in
          (h, i, Some (if beqb W_true w then TTrue else if beqb W_false w then TFalse else TKeyword))
        else ntok se nested tia h cur (S i) rest1
    | SValue =>
        if is_sep c then
          (h, i, Some (if inb 46 (firstn (i - h) cur) then TReal else TInteger))
        else ntok se nested tia h cur (S i) rest1
    | SStream =>
        if starts (EOL ++ W_endstream) rest then (h, (i + 11)%nat, Some TStream)
        else if starts (10 :: W_endstream) rest then (h, (i + 10)%nat, Some TStream)
        else if starts (13 :: W_endstream) rest then (h, (i + 10)%nat, Some TStream)
        else if starts W_endstream rest then (h, (i + 9)%nat, Some TStream)
        else ntok se nested tia h cur (S i) rest1
    | SArray =>
        let tia' := if c =? 40 then true else if c =? 41 then false else tia in
        let nested' :=
          if (c =? 40) || (c =? 41) then nested
          else if negb tia && (c =? 91) then nested + 1
          else if negb tia && (c =? 93) then nested - 1
          else nested in
        if nested' =? 0 then (h, S i, Some TArray)
        else ntok se nested' tia' h cur (S i) rest1
    end
  end.
Definition next_token (t : bytes) (i : nat) : nat * nat * option tok :=
  let rest := skipn i t in ntok STbd 1 false i rest i rest.

(* objects.py:175-187  replace_ref: complex(0, tokens[i]) keeps the number only.
   Simplification: a float or complex object number is not modelled (EUnsupported). *)
Definition is_R (o : obj) : bool := match o with PStr s => beqb s W_R | _ => false end.
Definition mk_ref (o : obj) : res obj :=
  match o with
  | PInt n => Ok (PRef 0 n)
  | PBool b => Ok (PRef 0 (if b then 1 else 0))
  | PReal _ _ | PRef _ _ => Exc EUnsupported
  | _ => Exc ETypeError
  end.
Fixpoint replace_ref (l : list obj) : res (list obj) :=
  match l with
  | [] => Ok []
  | a :: r =>
      match r with
      | _ :: c :: r' =>
          if is_R c then (let* x := mk_ref a in let* l' := replace_ref r' in Ok (x :: l'))
          else (let* l' := replace_ref r in Ok (a :: l'))
      | _ => let* l' := replace_ref r in Ok (a :: l')
      end
  end.

(* objects.py:190-203  dedicated_type *)
Definition dedicated_type (s : bytes) (t : option tok) : res obj :=
  match t with
  | Some TInteger => match py_int 10 s with Some z => Ok (PInt z) | None => Exc EValueError end
  | Some TReal => match py_float s with Some (m, e) => Ok (PReal m e) | None => Exc EValueError end
  | Some TTrue => Ok (PBool true)
  | Some TFalse => Ok (PBool false)
  | Some TKeyword | Some TName => let* s := ascii s in Ok (PStr s)
  | _ => Ok (PBytes s)
  end.

(* objects.py:232-244 : pairs taken from the end, later assignments of the same key
   (i.e. earlier in the text) win.  Simplification: a hashable key that is not a
   string is not modelled (EUnsupported). [l] is the reversed res_array. *)
Fixpoint pair_up (d : dict) (l : list obj) : res dict :=
  match l with
  | v :: k :: r =>
      match k with
      | PStr s => pair_up (dset s v d) r
      | PList _ | PDict _ | PStream _ _ _ => Exc ETypeError
      | _ => Exc EUnsupported
      end
  | _ => Ok d
  end.

(* objects.py:258-282, the STREAM branch of parse_obj *)
Definition ends (p t : bytes) : bool := beqb (skipn (length t - length p) t) p.
Definition stream_body (o : bytes) : option bytes :=
  let b := if starts (W_stream ++ EOL) o then Some 8%nat
           else if starts (W_stream ++ [10]) o then Some 7%nat else None in
  match b with
  | None => None
  | Some b =>
      let e := if ends (EOL ++ W_endstream) o then Some 11%nat
               else if ends (10 :: W_endstream) o then Some 10%nat
               else if ends (13 :: W_endstream) o then Some 10%nat
               else if ends W_endstream o then Some 9%nat else None in
      match e with
      | None => None
      | Some e => Some (sub o b (length o - e))
      end
  end.

Section WithZlib.
Context {ZL : Zlib}.

(* objects.py:223-231 and 248-255: the loop collecting the items between the brackets.
   [isd] : dictionary (the extra test i < j1).  [p] is parse_obj on a slice.
   Fuel: Loop when exhausted. *)
Fixpoint items_loop (p : bytes -> res obj) (isd : bool) (t : bytes) (j1 : nat)
         (fuel : nat) (i : nat) : res (list obj) :=
  match fuel with
  | O => Loop
  | S f =>
      if Nat.ltb i (j1 - 1) then
        let '(h, i', tk) := next_token t i in
        match tk with
        | None | Some TComment => items_loop p isd t j1 f i'
        | Some k =>
            if isd && negb (Nat.ltb i' j1) then items_loop p isd t j1 f i'
            else
              let* o := match k with
                        | TDict | TArray => p (sub t h i')
                        | _ => dedicated_type (sub t h i') tk
                        end in
              let* l := items_loop p isd t j1 f i' in
              Ok (o :: l)
        end
      else Ok []
  end.

(* objects.py:206-286  parse_obj, with fuel for the recursion on slices *)
Fixpoint pobj (fuel : nat) (t : bytes) (start : nat) : res obj :=
  match fuel with
  | O => Loop
  | S f =>
      let '(h1, j1, t1) := next_token t start in
      match t1 with
      | Some TDict =>
          let '(h2, j2, t2) := next_token t j1 in
          match t2 with
          | Some TStream =>
              let* sd := pobj f (sub t h1 j1) 0 in
              let* se := pobj f (sub t h2 j2) 0 in
              let enc := match se with PBytes s => Some s | _ => None end in
              match sd with
              | PDict d => let* sc := decode_stream enc d in Ok (PStream d sc enc)
              | _ => Exc ETypeError
              end
          | _ =>
              let* l := items_loop (fun s => pobj f s 0) true t j1 (S (length t)) (start + 2) in
              let* l' := replace_ref l in
              let* d := pair_up [] (rev l') in
              Ok (PDict d)
          end
      | Some TArray =>
          let* l := items_loop (fun s => pobj f s 0) false t j1 (S (length t)) (start + 1) in
          let* l' := replace_ref l in
          Ok (PList l')
      | Some TStream =>
          match stream_body (sub t h1 j1) with Some s => Ok (PBytes s) | None => Ok PNone end
      | Some TComment => Ok (PStr [])
      | _ => dedicated_type (sub t h1 j1) t1
      end
  end.
Definition parse_obj (t : bytes) (start : nat) : res obj := pobj (S (length t)) t start.

(* objects.py:32-39, 42-47  forge_stream: encode, then update /Length when it is an int *)
Definition forge_stream (d : dict) (content : bytes) : res (obj * Z) :=
  let* enc := encode_stream content d in
  let len := Z.of_nat (length enc) + 1 in
  let d' := match dget K_Length d with
            | Some (PInt _) => dset K_Length (PInt len) d
            | _ => d
            end in
  Ok (PStream d' (Some content) (Some enc), len).

(* objects.py:289-303  parse_indirect_obj: (begin, end, number, generation, object) *)
Record indobj := mk_ind
  { i_beg : option nat; i_end : nat; i_num : Z; i_gen : Z; i_obj : obj }.
Definition parse_indirect_obj (t : bytes) (start : nat) : res indobj :=
  let bo := match next_line t start with Some (bl, _) => Some bl | None => None end in
  let '(i1, j1, _) := next_token t start in
  let '(i2, j2, _) := next_token t j1 in
  let* onum := of_opt EValueError (py_int 10 (sub t i1 j1)) in
  let* ogen := of_opt EValueError (py_int 10 (sub t i2 j2)) in
  let '(_, j3, _) := next_token t j2 in
  let '(i4, j4, _) := next_token t j3 in
  let* o := parse_obj t i4 in
  let '(_, j5, t5) := next_token t j4 in
  let j := match t5 with
           | Some TStream => let '(_, j6, _) := next_token t j5 in j6
           | _ => j5
           end in
  Ok (mk_ind bo j onum ogen o).

(* objects.py:312-317 : start positions of all tokens *)
Fixpoint token_starts (fuel : nat) (t : bytes) (i : nat) : res (list nat) :=
  match fuel with
  | O => Loop
  | S f => if Nat.ltb i (length t)
           then let '(bo, eo, _) := next_token t i in
                let* l := token_starts f t eo in Ok (bo :: l)
           else Ok []
  end.

(* data[:n] *)
Definition slice_to (s : bytes) (n : Z) : bytes :=
  if 0 <=? n then firstn (Z.to_nat n) s else firstn (Z.to_nat (Z.of_nat (length s) + n)) s.

(* objects.py:321 : [y+offset for j, y in enumerate(y_array) if j % 2] *)
Fixpoint odd_positions (odd : bool) (off : Z) (l : list obj) : res (list Z) :=
  match l with
  | [] => Ok []
  | y :: r =>
      let* tl := odd_positions (negb odd) off r in
      if odd then
        match y with
        | PInt z => Ok (z + off :: tl)
        | PBool b => Ok ((if b then 1 else 0) + off :: tl)
        | PReal _ _ | PRef _ _ => Exc EUnsupported
        | _ => Exc ETypeError
        end
      else Ok tl
  end.

(* one element of the list built by parse_object_stream *)
Record embobj := mk_emb
  { e_num : obj; e_obj : obj; e_env : Z; e_theo : option nat; e_pos : nat }.

(* objects.py:322-327 : loop over range(actual_nb_obj) *)
Fixpoint emb_loop (data : bytes) (tokens : list nat) (ypos : list Z) (n : nat) (env : Z)
         (x : nat) (cnt : nat) : res (list embobj) :=
  match cnt with
  | O => Ok []
  | S c =>
      let* pos := of_opt EIndexError (nth_error tokens (2 * n + x)) in
      let* np := of_opt EIndexError (nth_error tokens (2 * x)) in
      let* onum := parse_obj data np in
      let* o := parse_obj data pos in
      let theo := if existsb (Z.eqb (Z.of_nat pos)) ypos then Some pos else None in
      let* r := emb_loop data tokens ypos n env (S x) c in
      Ok (mk_emb onum o env theo pos :: r)
  end.

(* objects.py:306-328  parse_object_stream *)
Definition parse_object_stream (d : dict) (stream : option bytes) (env : Z) : res (list embobj) :=
  let* fo := of_opt EKeyError (dget K_First d) in
  let* off := of_opt ETypeError (py_int_obj fo) in
  let* no := of_opt EKeyError (dget K_N d) in
  let* _ := of_opt ETypeError (py_int_obj no) in
  let* data := of_opt ETypeError stream in
  let* tokens := token_starts (S (length data)) data 0 in
  let n := Nat.div (length tokens) 3 in
  let* _ := of_opt EIndexError (nth_error tokens (2 * n)) in
  let* ya := parse_obj ([91] ++ slice_to data off ++ [93]) 0 in
  let* yl := iter_obj ya in
  let* ypos := odd_positions false off yl in
  emb_loop data tokens ypos n env 0 n.

(* objects.py:331-353  parse_xref_table_raw: a line is a subsection header or an entry *)
Inductive xline := XSub (o_num nb : Z) | XEnt (offset o_num o_ver : Z) (kw : bytes).

(* objects.py:339-350 ; o_num is None while unbound; returns the lines and the final el *)
Fixpoint xref_lines (fuel : nat) (t : bytes) (o_num : option Z) (ln : option (nat * nat))
  : res (list xline * nat) :=
  match fuel with
  | O => Loop
  | S f =>
      match ln with
      | None => Exc ETypeError
      | Some (bl, el) =>
          match sub t bl (S bl) with
          | [c] =>
              if (48 <=? c) && (c <=? 57) then
                let items := split_ws (strip [32] (sub t bl el)) in
                match items with
                | [a; b] =>
                    let* n := of_opt EValueError (py_int 10 a) in
                    let* nb := of_opt EValueError (py_int 10 b) in
                    let* (l, e) := xref_lines f t (Some n) (next_line t el) in
                    Ok (XSub n nb :: l, e)
                | [a; b; k] =>
                    let* off := of_opt EValueError (py_int 10 a) in
                    let* ver := of_opt EValueError (py_int 10 b) in
                    match o_num with
                    | None => Exc EUnboundLocal
                    | Some n =>
                        let* (l, e) := xref_lines f t (Some (n + 1)) (next_line t el) in
                        Ok (XEnt off n ver k :: l, e)
                    end
                | _ => xref_lines f t o_num (next_line t el)
                end
              else Ok ([], el)
          | _ => Ok ([], el)
          end
      end
  end.

Record xreftab := mk_xtab { xt_beg : nat; xt_end : nat; xt_lines : list xline; xt_trailer : obj }.
Definition parse_xref_table_raw (t : bytes) (start : nat) : res (option xreftab) :=
  if negb (beqb (sub t start (start + 4)) W_xref) then Ok None
  else
    let* (l, el) := xref_lines (S (length t)) t None (next_line t (start + 4)) in
    let '(bl, bf, _) := next_token t el in
    let* tr := parse_obj t bl in
    Ok (Some (mk_xtab start bf l tr)).

(* objects.py:356-369  expand_xref_index.  range(n - 1) is empty for n <= 1, so one
   number is emitted even when n = 0. *)
Fixpoint zseq (start : Z) (n : nat) : list Z :=
  match n with O => [] | S k => start :: zseq (start + 1) k end.
Fixpoint expand_xref_index_from (sec : Z) (l : list Z) : res (list (Z * Z)) :=
  match l with
  | [] => Ok []
  | o :: r =>
      match r with
      | [] => Exc EIndexError
      | n :: r' =>
          let* tl := expand_xref_index_from (sec + 1) r' in
          Ok ((o, sec) :: map (fun x => (x, sec)) (zseq (o + 1) (Z.to_nat (n - 1))) ++ tl)
      end
  end.
Definition expand_xref_index (l : list Z) : res (list (Z * Z)) := expand_xref_index_from 0 l.

(* objects.py:372-404  parse_xref_stream_raw.  One line of the resulting table.
   x_ppr, the printable hexadecimal form, is kept. *)
Record xsline := mk_xs
  { xs_off : Z; xs_env : option Z; xs_num : Z; xs_gen : Z; xs_free : bool; xs_ppr : bytes; xs_sec : Z }.

(* objects.py:386-391 : the columns of one entry: (params, ppr, rest of the stream) *)
Fixpoint xs_cols (cols : list nat) (s : bytes) : list Z * bytes * bytes :=
  match cols with
  | [] => ([], [], s)
  | c :: r =>
      let x := firstn c s in
      let '(ps, ppr, s') := xs_cols r (skipn c s) in
      (from_be x :: ps, asciihex x ++ [32] ++ ppr, s')
  end.

(* objects.py:382-403 : the loop; structural on obj_nums (one is popped per turn) *)
Fixpoint xs_loop (cols : list nat) (nums : list (Z * Z)) (s : bytes) : res (list xsline) :=
  match s with
  | [] => Ok []
  | _ =>
      match nums with
      | [] => Exc EIndexError
      | (num, sec) :: nums' =>
          let '(ps, ppr, s') := xs_cols cols s in
          match ps with
          | [] => Exc EIndexError
          | p0 :: pr =>
              if (p0 =? 0) || (p0 =? 1) || (p0 =? 2) then
                match pr with
                | p1 :: p2 :: _ =>
                    let* tl := xs_loop cols nums' s' in
                    if p0 =? 0 then Ok (mk_xs p1 None num p2 true ppr sec :: tl)
                    else if p0 =? 1 then Ok (mk_xs p1 None num p2 false ppr sec :: tl)
                    else Ok (mk_xs p2 (Some p1) num 0 false ppr sec :: tl)
                | _ => Exc EIndexError
                end
              else xs_loop cols nums' s'
          end
      end
  end.

(* list of integers held by a Python list; other values are not modelled *)
Fixpoint int_list (l : list obj) : res (list Z) :=
  match l with
  | [] => Ok []
  | PInt z :: r => let* r' := int_list r in Ok (z :: r')
  | _ :: _ => Exc EUnsupported
  end.

Definition parse_xref_stream_raw (d : dict) (stream : option bytes) : res (list xsline) :=
  let* w := of_opt EKeyError (dget K_W d) in
  let* cols := match w with PList l => int_list l | _ => Exc EUnsupported end in
  let* rng := match dget K_Index d with
              | Some (PList l) => int_list l
              | Some _ => Exc EUnsupported
              | None => match dget K_Size d with
                        | Some (PInt n) => Ok [0; n]
                        | Some _ => Exc EUnsupported
                        | None => Exc EKeyError
                        end
              end in
  let* nums := expand_xref_index rng in
  let* s := of_opt ETypeError stream in
  if forallb (fun c => 0 <=? c) cols then xs_loop (map Z.to_nat cols) nums s
  else Exc EUnsupported.

(* objects.py:407-438  parse_region *)
Inductive region :=
| RVoid (b e : nat) | RComment (b e : nat) | RStartxref (b e : nat) (v : bytes)
| RInd (o : indobj) | RXref (x : xreftab).

Definition tok_is (t : option tok) (k : tok) : bool :=
  match t, k with
  | Some TInteger, TInteger | Some TKeyword, TKeyword | Some TStream, TStream => true
  | _, _ => false
  end.

Definition parse_region (t : bytes) (start : nat) : res (option region) :=
  let '(bl, el, typ) := next_token t start in
  if negb (Nat.eqb bl start) then Ok (Some (RVoid start bl))
  else match typ with
  | None => Ok (Some (RVoid start el))
  | Some _ =>
    if beqb (sub t bl (bl + 1)) [37] then Ok (Some (RComment bl el))
    else if beqb (sub t bl (bl + 9)) W_startxref then
      let '(_, j1, _) := next_token t bl in
      let '(i2, j2, _) := next_token t j1 in
      Ok (Some (RStartxref bl j2 (sub t i2 j2)))
    else if tok_is typ TInteger then
      let '(_, j1, _) := next_token t bl in
      let '(_, j2, _) := next_token t j1 in
      let '(i3, j3, t3) := next_token t j2 in
      if tok_is t3 TKeyword && beqb (sub t i3 j3) W_obj
      then (let* o := parse_indirect_obj t bl in Ok (Some (RInd o)))
      else Ok None
    else if beqb (sub t (el - 4) el) W_xref then
      let* x := parse_xref_table_raw t bl in
      Ok (option_map RXref x)
    else Ok None
  end.

End WithZlib.

(* objects.py:441-460  to_str.  PNone has no encode method; a container neither. *)
Definition to_str (o : obj) : res bytes :=
  match o with
  | PBool b => Ok (if b then W_true else W_false)
  | PInt z => Ok (dec z)
  | PReal m e => Ok (float_repr m e)
  | PStr s => ascii s
  | PRef g n => Ok (dec n ++ [32] ++ dec g ++ [32] ++ W_R)
  | PBytes s => Ok s
  | _ => Exc EAttributeError
  end.

(* objects.py:463-497  serialize *)
Definition W_nl_stream := Eval vm_compute in 10 :: B "stream" ++ [10].
Definition W_nl_endstream := Eval vm_compute in 10 :: B "endstream".
Fixpoint ser (depth : nat) (o : obj) {struct o} : res bytes :=
  let fix entries (d : dict) : res bytes :=
    match d with
    | [] => Ok []
    | (k, v) :: r =>
        let* value := ser (S depth) v in
        let* name := ascii k in
        let* tl := entries r in
        Ok (repeat 32 depth ++ name ++ [32] ++ value ++ [32] ++ tl)
    end in
  let fix items (l : list obj) : res bytes :=
    match l with
    | [] => Ok []
    | v :: r => let* value := ser 0 v in let* tl := items r in Ok (value ++ [32] ++ tl)
    end in
  match o with
  | PDict d => let* b := entries d in Ok ([60; 60; 32] ++ b ++ repeat 32 depth ++ [62; 62])
  | PStream d _ enc =>
      let* b := entries d in
      let content := match enc with
                     | Some (x :: c) => W_nl_stream ++ (x :: c) ++ W_nl_endstream
                     | _ => []
                     end in
      Ok ([60; 60; 32] ++ b ++ repeat 32 depth ++ [62; 62] ++ content)
  | PList l => let* b := items l in Ok ([91; 32] ++ b ++ [93])
  | _ => to_str o
  end.
Definition serialize (o : obj) : res bytes := ser 0 o.

(* complex == complex *)
Definition ref := (Z * Z)%type. (* (generation, number) *)
Definition ref_eqb (a b : ref) : bool := (fst a =? fst b) && (snd a =? snd b).
Fixpoint assoc_ref (r : ref) (m : list (ref * ref)) : option ref :=
  match m with [] => None | (k, v) :: t => if ref_eqb r k then Some v else assoc_ref r t end.

(* objects.py:500-511  deep_ref_retarget (the returned value; the in-place update is the
   subject of the heap model) *)
Fixpoint deep_ref_retarget (m : list (ref * ref)) (o : obj) : obj :=
  match o with
  | PRef g n => match assoc_ref (g, n) m with Some (g', n') => PRef g' n' | None => o end
  | PDict d => PDict (map (fun kv => match kv with (k, v) => (k, deep_ref_retarget m v) end) d)
  | PList l => PList (map (deep_ref_retarget m) l)
  | _ => o
  end.

(* objects.py:514-528  deep_ref_detect: the accumulated set as a list (in order of
   detection, with repetitions); None when the argument itself is a reference
   (set.add returns None). *)
Fixpoint deep_refs (o : obj) : list ref :=
  match o with
  | PRef g n => [(g, n)]
  | PDict d => flat_map (fun kv => match kv with (_, v) => deep_refs v end) d
  | PStream d _ _ => flat_map (fun kv => match kv with (_, v) => deep_refs v end) d
  | PList l => flat_map deep_refs l
  | _ => []
  end.
Definition deep_ref_detect (o : obj) : option (list ref) :=
  match o with PRef _ _ => None | _ => Some (deep_refs o) end.
