(* Specification of content streams and of the text and graphics state, independent of the
   model's helpers *)
From Coq Require Import String QArith Qcanon.
From Verif Require Import PyBase Model_Filters.
From Verif Require Import Model_Graphics. (* the types mat, font *)
Open Scope Z_scope.

(* ---------- commands ---------- *)
(* an operator is a keyword, not a name *)
Definition operator (o : obj) : Prop := exists s, o = PStr s /\ forall r, s <> 47 :: r.
(* tokens cut into commands: operands then one operator; operands may be left at the end *)
Inductive splits : list obj -> list (list obj) -> Prop :=
| Sp_nil : splits [] []
| Sp_rest ops : ops <> [] -> Forall (fun o => ~ operator o) ops -> splits ops [ops]
| Sp_cmd ops o r cs : Forall (fun o => ~ operator o) ops -> operator o -> splits r cs ->
    splits (ops ++ o :: r) ((ops ++ [o]) :: cs).

(* a command whose operator is w *)
Definition is_cmd (w : string) (c : list obj) : Prop := exists ops, c = ops ++ [PStr (B w)].
Inductive balanced : list (list obj) -> Prop :=
| Bal_nil : balanced []
| Bal_other c r : ~ is_cmd "q" c -> ~ is_cmd "Q" c -> balanced r -> balanced (c :: r)
| Bal_group a s b r : is_cmd "q" a -> balanced s -> is_cmd "Q" b -> balanced r ->
    balanced (a :: s ++ b :: r).

(* ---------- geometry ---------- *)
Definition point := (Qc * Qc)%type.
(* [x y 1] times the matrix *)
Definition act (m : mat) (p : point) : point :=
  let '(x, y) := p in ((ma m * x + mc m * y + me m)%Qc, (mb m * x + md m * y + mf m)%Qc).
Definition shift (p d : point) : point := let '(x, y) := p in let '(a, b) := d in ((x + a)%Qc, (y + b)%Qc).

(* ---------- advance widths (9.4.3): strings advance, numbers go back ---------- *)
Fixpoint sum_q (l : list Qc) : Qc := match l with [] => 0%Qc | x :: r => (x + sum_q r)%Qc end.
Inductive tj_elem := TJStr (s : bytes) (us : bytes) (ws : list Qc) | TJNum (o : obj) (v : Qc).
Definition tj_obj (e : tj_elem) : obj := match e with TJStr s _ _ => PBytes s | TJNum o _ => o end.
Definition tj_advance (e : tj_elem) : Qc :=
  match e with TJStr _ _ ws => (sum_q ws / qc 1000)%Qc | TJNum _ v => (- (v / qc 1000))%Qc end.
Definition tj_count (l : list tj_elem) : Z :=
  fold_right (fun e n => match e with TJNum _ _ => n + 1 | _ => n end) 0 l.
(* the element is decoded by the font as announced *)
Definition tj_ok (f : font) (e : tj_elem) : Prop :=
  match e with
  | TJStr s us ws => exists chars, f_dec f s = Ok (us, chars) /\ Forall2 (fun c w => num_of (f_width f c) = Ok w) chars ws
  | TJNum o v => num_of o = Ok v
  end.

(* the commands that show text with Tj or TJ, in order *)
Definition shows (c : list obj) : Prop := is_cmd "Tj" c \/ is_cmd "TJ" c.
Inductive shown : list (list obj) -> list (list obj) -> Prop :=
| Sh_nil : shown [] []
| Sh_yes c r s : shows c -> shown r s -> shown (c :: r) (c :: s)
| Sh_no c r s : ~ shows c -> shown r s -> shown (c :: r) s.

(* ---------- displacement of a shown string (9.4.4, horizontal writing): each glyph moves the
   text position by its width, the character spacing, and the word spacing when its code is 32 ---------- *)
Definition glyph_shift (fs tc tw th w : Qc) (c : Z) : Qc :=
  ((w / qc 1000 * fs + tc + (if c =? 32 then tw else 0)) * th / qc 100)%Qc.
Definition string_shift (fs tc tw th : Qc) (chars : list Z) (ws : list Qc) : Qc :=
  sum_q (map (fun p => glyph_shift fs tc tw th (snd p) (fst p)) (combine chars ws)).
Definition spaces (chars : list Z) : Z := Z.of_nat (length (filter (fun c => c =? 32) chars)).
