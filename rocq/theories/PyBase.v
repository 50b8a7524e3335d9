(* Python primitives used by pdfsyntax: bytes, exceptions as values, slices,
   decimal and hexadecimal conversions.  These model the Python language and its
   standard library, not code of /repo. *)
From Coq Require Import String Ascii.
From Coq Require Export List ZArith Lia Bool.
Export ListNotations.
Open Scope Z_scope.

(* bytes and str are both lists of numbers (byte values, resp. code points) *)
Definition bytes := list Z.

(* literal bytes: B "xref" is b'xref' *)
Definition B (s : string) : bytes :=
  map (fun c => Z.of_N (N_of_ascii c)) (list_ascii_of_string s).

(* exceptions as values; [Loop] stands for a computation that has not ended
   within the fuel given *)
Inductive pyexc :=
| ETypeError | EValueError | EKeyError | EIndexError | EAttributeError
| EUnicodeError | EUnboundLocal | EZeroDivision | EOverflow | EUnsupported.

Inductive res (A : Type) : Type :=
| Ok (a : A)
| Exc (e : pyexc)
| Loop.
Arguments Ok {A} a.
Arguments Exc {A} e.
Arguments Loop {A}.

Definition bind {A C} (r : res A) (f : A -> res C) : res C :=
  match r with Ok a => f a | Exc e => Exc e | Loop => Loop end.
Notation "'let*' x ':=' r 'in' f" := (bind r (fun x => f))
  (at level 200, x pattern, r at level 100, f at level 200).

Definition of_opt {A} (e : pyexc) (o : option A) : res A :=
  match o with Some a => Ok a | None => Exc e end.

(* b1 == b2 *)
Fixpoint beqb (a b : bytes) : bool :=
  match a, b with
  | [], [] => true
  | x :: a', y :: b' => (x =? y) && beqb a' b'
  | _, _ => false
  end.

(* single in set *)
Definition inb (c : Z) (l : bytes) : bool := existsb (Z.eqb c) l.

(* text[i:j] for 0 <= i *)
Definition sub (t : bytes) (i j : nat) : bytes := firstn (j - i) (skipn i t).

(* text[i:i+len(p)] == p, with rest = text[i:] *)
Definition starts (p rest : bytes) : bool := beqb (firstn (length p) rest) p.

(* text.find(p, i) relative to rest = text[i:]; None is -1 *)
Fixpoint find_from (p rest : bytes) (i : nat) : option nat :=
  if starts p rest then Some i
  else match rest with [] => None | _ :: r => find_from p r (S i) end.
Definition find (p t : bytes) (i : nat) : option nat :=
  if Nat.ltb (length t) i then None else find_from p (skipn i t) i.

(* text.rfind(p, i) *)
Fixpoint rfind_from (p rest : bytes) (i : nat) : option nat :=
  match match rest with [] => None | _ :: r => rfind_from p r (S i) end with
  | Some k => Some k
  | None => if starts p rest then Some i else None
  end.
Definition rfind (p t : bytes) (i : nat) : option nat :=
  if Nat.ltb (length t) i then None else rfind_from p (skipn i t) i.

(* ---------- decimal notation ---------- *)
Definition digit (d : Z) : Z := 48 + d.

(* digits of n >= 0, most significant first *)
Fixpoint digs (fuel : nat) (n : Z) : bytes :=
  match fuel with
  | O => [digit (n mod 10)]
  | S f => if n <? 10 then [digit n] else digs f (n / 10) ++ [digit (n mod 10)]
  end.
Definition dec_nat (n : Z) : bytes := digs (Z.to_nat (Z.log2 n)) n.

(* str(n).encode('ascii') *)
Definition dec (n : Z) : bytes :=
  if n <? 0 then 45 :: dec_nat (- n) else dec_nat n.

(* f'{n:0w}' : zero padded to width w, sign first *)
Definition pad0 (w : nat) (n : Z) : bytes :=
  let s := dec_nat (Z.abs n) in
  let sg := if n <? 0 then [45] else [] in
  sg ++ repeat 48 (w - (length sg + length s)) ++ s.

(* ASCII white space as understood by int(), float(), bytes.split(), bytes.strip() *)
Definition WS : bytes := [32; 9; 10; 13; 11; 12].

Fixpoint lstrip (set : bytes) (s : bytes) : bytes :=
  match s with c :: r => if inb c set then lstrip set r else s | [] => [] end.
Definition strip (set s : bytes) : bytes := rev (lstrip set (rev (lstrip set s))).

Definition dval (c : Z) : Z :=
  if (48 <=? c) && (c <=? 57) then c - 48
  else if (97 <=? c) && (c <=? 122) then c - 87
  else if (65 <=? c) && (c <=? 90) then c - 55
  else 99.

(* digits with single underscores between them, after a first digit *)
Fixpoint int_digits (base acc : Z) (s : bytes) : option Z :=
  match s with
  | [] => Some acc
  | c :: r =>
      if dval c <? base then int_digits base (base * acc + dval c) r
      else if c =? 95 then
        match r with
        | d :: r' => if dval d <? base then int_digits base (base * acc + dval d) r' else None
        | [] => None
        end
      else None
  end.

Definition split_sign (s : bytes) : Z * bytes :=
  match s with
  | c :: r => if c =? 45 then (-1, r) else if c =? 43 then (1, r) else (1, s)
  | [] => (1, [])
  end.

(* int(s, base); simplification: a '0x' / '0o' prefix is rejected *)
Definition py_int (base : Z) (s : bytes) : option Z :=
  let '(sg, r) := split_sign (strip WS s) in
  match r with
  | c :: r' => if dval c <? base then option_map (Z.mul sg) (int_digits base (dval c) r') else None
  | [] => None
  end.

(* ---------- floats as exact decimals m * 10^e ---------- *)
Fixpoint norm_dec (fuel : nat) (m e : Z) : Z * Z :=
  match fuel with
  | O => (m, e)
  | S f => if m =? 0 then (0, 0)
           else if m mod 10 =? 0 then norm_dec f (m / 10) (e + 1) else (m, e)
  end.
Definition mk_dec (m e : Z) : Z * Z := norm_dec (S (S (Z.to_nat (Z.log2 (Z.abs m))))) m e.

Fixpoint take_digits (s : bytes) : bytes * bytes :=
  match s with
  | c :: r => if (48 <=? c) && (c <=? 57)
              then let '(a, b) := take_digits r in (c :: a, b) else ([], s)
  | [] => ([], [])
  end.
Definition val_digits (s : bytes) : Z := fold_left (fun a c => 10 * a + (c - 48)) s 0.

(* float(s); simplifications: exact decimal value (no rounding to binary64, no
   negative zero), digit separators '_' and inf/nan are rejected *)
Definition py_float (s : bytes) : option (Z * Z) :=
  let '(sg, r) := split_sign (strip WS s) in
  let '(ip, r1) := take_digits r in
  let '(fp, r2) := match r1 with
                   | c :: r' => if c =? 46 then take_digits r' else ([], r1)
                   | [] => ([], []) end in
  let m := sg * val_digits (ip ++ fp) in
  let e0 := - Z.of_nat (length fp) in
  match ip ++ fp with
  | [] => None
  | _ =>
    match r2 with
    | [] => Some (mk_dec m e0)
    | c :: r3 =>
        if (c =? 101) || (c =? 69) then
          let '(esg, r4) := split_sign r3 in
          match take_digits r4 with
          | ((_ :: _) as ed, []) => Some (mk_dec m (e0 + esg * val_digits ed))
          | _ => None
          end
        else None
    end
  end.

(* str(x) for the float m * 10^e in normal form; Python's repr rule:
   positional notation when -4 < decpt <= 16, else scientific *)
Definition float_repr (m e : Z) : bytes :=
  if m =? 0 then B "0.0" else
  let sg := if m <? 0 then [45] else [] in
  let ds := dec_nat (Z.abs m) in
  let n := Z.of_nat (length ds) in
  let decpt := n + e in
  if (-4 <? decpt) && (decpt <=? 16) then
    if decpt <=? 0 then sg ++ B "0." ++ repeat 48 (Z.to_nat (- decpt)) ++ ds
    else if n <=? decpt then sg ++ ds ++ repeat 48 (Z.to_nat (decpt - n)) ++ B ".0"
    else sg ++ firstn (Z.to_nat decpt) ds ++ [46] ++ skipn (Z.to_nat decpt) ds
  else
    let x := decpt - 1 in
    sg ++ firstn 1 ds
       ++ (if n =? 1 then [] else 46 :: skipn 1 ds)
       ++ [101] ++ (if x <? 0 then [45] else [43]) ++ pad0 2 (Z.abs x).

(* ---------- splitting ---------- *)
(* s.split() : maximal runs of non white space *)
Fixpoint split_ws_aux (cur : bytes) (s : bytes) : list bytes :=
  match s with
  | [] => match cur with [] => [] | _ => [rev cur] end
  | c :: r => if inb c WS
              then match cur with [] => split_ws_aux [] r | _ => rev cur :: split_ws_aux [] r end
              else split_ws_aux (c :: cur) r
  end.
Definition split_ws (s : bytes) : list bytes := split_ws_aux [] s.

(* s.decode('ascii') / s.encode('ascii') *)
Definition is_ascii (s : bytes) : bool := forallb (fun c => (0 <=? c) && (c <? 128)) s.
Definition ascii (s : bytes) : res bytes := if is_ascii s then Ok s else Exc EUnicodeError.

(* ---------- big-endian integers ---------- *)
(* int.from_bytes(s, 'big') *)
Definition from_be (s : bytes) : Z := fold_left (fun a c => 256 * a + c) s 0.
(* n.to_bytes(b, 'big'), None when it overflows *)
Fixpoint be_digits (b : nat) (n : Z) : bytes :=
  match b with O => [] | S b' => be_digits b' (n / 256) ++ [n mod 256] end.
Definition to_be (b : nat) (n : Z) : option bytes :=
  if (0 <=? n) && (n <? 256 ^ Z.of_nat b) then Some (be_digits b n) else None.

(* ---------- hexadecimal ---------- *)
Definition hexdig (d : Z) : Z := if d <? 10 then 48 + d else 55 + d.      (* upper case *)
Definition hexdig_l (d : Z) : Z := if d <? 10 then 48 + d else 87 + d.    (* lower case *)
(* binascii.hexlify(s).upper() *)
Fixpoint hexlify_up (s : bytes) : bytes :=
  match s with [] => [] | c :: r => hexdig (c / 16) :: hexdig (c mod 16) :: hexlify_up r end.
(* binascii.unhexlify(s), None when it raises *)
Fixpoint unhexlify (s : bytes) : option bytes :=
  match s with
  | [] => Some []
  | a :: r => match r with
              | [] => None
              | b :: r' => if (dval a <? 16) && (dval b <? 16)
                           then option_map (cons (16 * dval a + dval b)) (unhexlify r') else None
              end
  end.
