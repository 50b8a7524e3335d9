(* Model of pdfsyntax/filters.py, and the Python values manipulated by the library *)
From Coq Require Import String.
From Verif Require Import PyBase.

(* Python values standing for PDF objects.
   dict  : association list in insertion order, string keys (simplification: only
           string keys);
   complex(gen, num) : PRef gen num;  float : PReal m e (exact decimal m*10^e);
   Stream (objects.py:14-18) : entries, decoded bytes, encoded bytes; both may be
   None (objects.py:270,280 and filestruct.py:509). *)
Inductive obj : Type :=
| PNone
| PBool (b : bool)
| PInt (z : Z)
| PReal (m e : Z)
| PStr (s : bytes)
| PBytes (s : bytes)
| PRef (gen num : Z)
| PList (l : list obj)
| PDict (d : list (bytes * obj))
| PStream (d : list (bytes * obj)) (stream encoded : option bytes).

Definition dict := list (bytes * obj).

(* d.get(k) *)
Fixpoint dget (k : bytes) (d : dict) : option obj :=
  match d with
  | [] => None
  | (k', v) :: r => if beqb k k' then Some v else dget k r
  end.
Definition dhas (k : bytes) (d : dict) : bool :=
  match dget k d with Some _ => true | None => false end.
(* d[k] = v : keeps the position of an existing key, else appends *)
Fixpoint dset (k : bytes) (v : obj) (d : dict) : dict :=
  match d with
  | [] => [(k, v)]
  | (k', v') :: r => if beqb k k' then (k', v) :: r else (k', v') :: dset k v r
  end.
(* del d[k] *)
Definition ddel (k : bytes) (d : dict) : dict :=
  filter (fun kv => negb (beqb k (fst kv))) d.

(* zlib is an oracle: compress is total, decompress may raise (None) *)
Class Zlib := { z_compress : bytes -> bytes; z_decompress : bytes -> option bytes }.

(* int(x) on a Python value; None when it raises.  int(float) truncates. *)
Definition py_int_obj (o : obj) : option Z :=
  match o with
  | PInt z => Some z
  | PBool b => Some (if b then 1 else 0)
  | PReal m e => Some (if 0 <=? e then m * 10 ^ e else Z.quot m (10 ^ (- e)))
  | PStr s | PBytes s => py_int 10 s
  | _ => None
  end.

(* filters.py:9-23  decode_predictor.  The loop consumes [columns+1] bytes per turn.
   When columns+1 = 0 the index never advances: Loop.  When it is negative, prev_row is
   empty and data[0:columns+1] drops bytes from the end: any byte left raises
   IndexError; otherwise every later slice is empty too and the index decreases for
   ever: Loop. *)
Fixpoint predictor_rows (fuel : nat) (n : nat) (prev : list Z) (s : bytes) : bytes :=
  match fuel with
  | O => []
  | S f =>
    match s with
    | [] => []
    | _ =>
      let row := firstn n s in
      let decoded := map (fun iv => Z.land (snd iv + nth (fst iv) prev 0) 255)
                         (combine (seq 0 (length row)) row) in
      skipn 1 decoded ++ predictor_rows f n decoded (skipn n s)
    end
  end.
Definition decode_predictor (s : bytes) (columns : Z) : res bytes :=
  let cols := columns + 1 in
  if cols <=? 0 then
    match s with
    | [] => Ok []
    | _ => if (cols <? 0) && (0 <? Z.of_nat (length s) + cols) then Exc EIndexError else Loop
    end
  else Ok (predictor_rows (length s) (Z.to_nat cols) (repeat 0 (Z.to_nat cols)) s).

(* ---- base64.a85encode / a85decode with adobe=True (standard library) ---- *)
Definition a85_word (s : bytes) : Z := from_be s.
Definition a85_chunk (w : Z) : bytes :=
  [33 + w / 52200625; 33 + w / 614125 mod 85; 33 + w / 7225 mod 85; 33 + w / 85 mod 85; 33 + w mod 85].
Fixpoint a85_enc (fuel : nat) (s : bytes) : bytes :=
  match fuel with
  | O => []
  | S f =>
    match s with
    | [] => []
    | _ =>
      let c := firstn 4 s in
      let padding := (4 - length c)%nat in
      let w := a85_word (c ++ repeat 0 padding) in
      if Nat.eqb padding 0
      then (if w =? 0 then [122] else a85_chunk w) ++ a85_enc f (skipn 4 s)
      else firstn (5 - padding) (a85_chunk w)
    end
  end.
Definition a85encode (s : bytes) : bytes := B "<~" ++ a85_enc (length s) s ++ B "~>".

Fixpoint a85_dec (curr : list Z) (s : bytes) : option (bytes * list Z) :=
  match s with
  | [] => Some ([], curr)
  | x :: r =>
      if (33 <=? x) && (x <=? 117) then
        let curr' := curr ++ [x] in
        if Nat.eqb (length curr') 5 then
          let acc := fold_left (fun a y => 85 * a + (y - 33)) curr' 0 in
          if acc <? 4294967296
          then match a85_dec [] r with
               | Some (d, c) => Some (be_digits 4 acc ++ d, c) | None => None end
          else None
        else a85_dec curr' r
      else if x =? 122 then
        match curr with
        | [] => match a85_dec [] r with Some (d, c) => Some ([0; 0; 0; 0] ++ d, c) | None => None end
        | _ => None
        end
      else if inb x [32; 9; 10; 13; 11] then a85_dec curr r
      else None
  end.
Definition a85decode (s : bytes) : option bytes :=
  if negb (beqb (skipn (length s - 2) s) (B "~>")) then None
  else
    let body := if starts (B "<~") s then firstn (length s - 4) (skipn 2 s)
                else firstn (length s - 2) s in
    match a85_dec [] (body ++ [117; 117; 117; 117]) with
    | Some (d, curr) => Some (firstn (length d - (4 - length curr)) d)
    | None => None
    end.

(* filters.py:95-98  asciihex(stream) with columns = None *)
Definition asciihex (s : bytes) : bytes := hexlify_up s.

(* filters.py:112-117 *)
Definition ascii_hexdump_printable (c : Z) : Z :=
  if (32 <=? c) && (c <=? 126) then c else 46.

Definition K_Filter := Eval vm_compute in B "/Filter".
Definition K_DecodeParms := Eval vm_compute in B "/DecodeParms".
Definition K_Predictor := Eval vm_compute in B "/Predictor".
Definition K_Columns := Eval vm_compute in B "/Columns".
Definition F_Flate := Eval vm_compute in B "/FlateDecode".
Definition F_Hex := Eval vm_compute in B "/ASCIIHexDecode".
Definition F_A85 := Eval vm_compute in B "/ASCII85Decode".
Definition X_Flate := Eval vm_compute in B "#PDFSyntaxException: cannot decode Flate".
Definition X_Hex := Eval vm_compute in B "#PDFSyntaxException: cannot decode ASCIIHex".
Definition X_A85 := Eval vm_compute in B "#PDFSyntaxException: cannot decode ASCII85".
Definition X_Unsup := Eval vm_compute in B "#PDFSyntaxException: unsupported filter".

(* the values an iteration over [filters] yields (filters.py:41, 74); a value that is
   not iterable, or has no len(), raises TypeError *)
Definition iter_obj (o : obj) : res (list obj) :=
  match o with
  | PList l => Ok l
  | PDict d => Ok (map (fun kv => PStr (fst kv)) d)
  | PBytes s => Ok (map PInt s)
  | _ => Exc ETypeError
  end.

(* filters.py:45-48, the part inside the try block after decompression:
   "if parms[i] and '/Predictor' in parms[i]: ...".
   [Exc _] stands for any exception (caught by the bare except). *)
Definition apply_parm (p : option obj) (r : bytes) : res bytes :=
  match p with
  | None => Exc EIndexError
  | Some p =>
    match p with
    | PNone => Ok r
    | PDict d =>
        if dhas K_Predictor d then
          match dget K_Predictor d, dget K_Columns d with
          | Some pr, Some co =>
              match py_int_obj pr, py_int_obj co with
              | Some _, Some c => decode_predictor r c
              | _, _ => Exc EValueError
              end
          | _, _ => Exc EKeyError
          end
        else Ok r
    | PStr s => match find K_Predictor s 0 with None => Ok r | Some _ => Exc ETypeError end
    | PList l => if existsb (fun x => match x with PStr s => beqb s K_Predictor | _ => false end) l
                 then Exc ETypeError else Ok r
    | PBool false => Ok r
    | PInt z => if z =? 0 then Ok r else Exc ETypeError
    | PReal m _ => if m =? 0 then Ok r else Exc ETypeError
    | PBytes [] => Ok r
    | _ => Exc ETypeError
    end
  end.

Section WithZlib.
Context {ZL : Zlib}.

(* filters.py:41-63, the loop over filters: every filter is applied to the original
   bytes [s]; [acc] is the variable res (None: unbound).  [s] itself may be None
   (parse_obj on a malformed stream): then every decoder raises. *)
Fixpoint decode_loop (s : option bytes) (parms : nat -> option obj) (i : nat)
         (filters : list obj) (acc : option bytes) : res bytes :=
  match filters with
  | [] => match acc with Some r => Ok r | None => Exc EUnboundLocal end
  | f :: r =>
      match f with
      | PStr n =>
          if beqb n F_Flate then
            match match s with Some s => z_decompress s | None => None end with
            | None => Ok X_Flate
            | Some d => match apply_parm (parms i) d with
                        | Ok x => decode_loop s parms (S i) r (Some x)
                        | Exc _ => Ok X_Flate
                        | Loop => Loop
                        end
            end
          else if beqb n F_Hex then
            match match s with Some s => unhexlify s | None => None end with
            | None => Ok X_Hex
            | Some d => decode_loop s parms (S i) r (Some d)
            end
          else if beqb n F_A85 then
            match match s with Some s => a85decode s | None => None end with
            | None => Ok X_A85
            | Some d => decode_loop s parms (S i) r (Some d)
            end
          else Ok X_Unsup
      | _ => Ok X_Unsup
      end
  end.

(* filters.py:26-63  decode_stream.  parms[i] is only evaluated inside the try block,
   so an unusable value of /DecodeParms is the same as a missing item.  Simplification:
   a Stream (a Python tuple) as value of /Filter or /DecodeParms, which no parser
   result contains, is treated as unusable. *)
Definition decode_stream (s : option bytes) (d : dict) : res (option bytes) :=
  match dget K_Filter d with
  | None => Ok s
  | Some f =>
      let* fl := match f with PStr n => Ok (map PStr (split_ws n)) | _ => iter_obj f end in
      let parms := match dget K_DecodeParms d with
                   | None => fun _ => Some PNone
                   | Some (PDict p) => fun i => match i with O => Some (PDict p) | _ => None end
                   | Some (PList l) => nth_error l
                   | Some (PStr n) => nth_error (map (fun c => PStr [c]) n)
                   | Some (PBytes n) => nth_error (map PInt n)
                   | Some _ => fun _ => None
                   end in
      let* r := decode_loop s parms 0 fl None in
      Ok (Some r)
  end.

(* filters.py:74-92, the loop over filters: the output of one filter is the input of
   the next one; zlib.compress, hexlify and a85encode do not raise on bytes *)
Fixpoint encode_loop (s : bytes) (filters : list obj) : bytes :=
  match filters with
  | [] => s
  | PStr n :: r =>
      if beqb n F_Flate then encode_loop (z_compress s) r
      else if beqb n F_Hex then encode_loop (asciihex s) r
      else if beqb n F_A85 then encode_loop (a85encode s) r
      else X_Unsup
  | _ :: _ => X_Unsup
  end.

(* filters.py:66-92  encode_stream; a name is one filter (it is not split) *)
Definition encode_stream (s : bytes) (d : dict) : res bytes :=
  match dget K_Filter d with
  | None => Ok s
  | Some f =>
      let* fl := match f with PStr n => Ok [PStr n] | _ => iter_obj f end in
      Ok (encode_loop s fl)
  end.

End WithZlib.
