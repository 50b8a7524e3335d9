(* Property C119 (predefined encodings of simple fonts) and more of C62 *)
From Coq Require Import String.
From Verif Require Import PyBase Model_Filters Model_Objects Spec_Objects Facts_Base Facts_Filters
  Model_Text Spec_Text Facts_Text Spec_Charsets Facts_Charsets.

(* ---------------- C62 ---------------- *)
(* all the literal notations of the same bytes, whatever these bytes: the same text, or the same failure *)
Theorem C62_literals_partial : forall enc raw s s', escapes raw s -> escapes raw s' ->
  apply_encoding enc (literal s) = apply_encoding enc (literal s').
Proof. exact same_notation. Qed.
Print Assumptions C62_literals_partial.
Example C62_literals_case :
  let s := [92; 51; 52; 49; 92; 40] in let s' := [225; 92; 48; 53; 48] in
  s <> s' /\ escapes [225; 40] s /\ escapes [225; 40] s'.
Proof.
  cbv zeta. split; [discriminate|]. split.
  - apply (Esc_octal 3 4 1 [40] [92; 40]); [lia|unfold octd; lia..|]. apply Esc_letter; [cbn; tauto|]. apply Esc_nil.
  - apply Esc_self; [lia|]. apply (Esc_octal 0 5 0 [] []); [lia|unfold octd; lia..|]. apply Esc_nil.
Qed.

(* the failure of C62_hex_refuted is general: no hexadecimal notation is decoded like a literal one *)
Theorem C62_hex_wrong : forall enc raw s, Forall isbyte raw -> raw <> [] -> escapes raw s ->
  apply_encoding enc (hexstr raw) <> apply_encoding enc (literal s).
Proof. exact hex_never_right. Qed.
Print Assumptions C62_hex_wrong.
Example C62_hex_case : Forall isbyte [225; 40] /\ [225; 40] <> [] /\ escapes [225; 40] [225; 92; 40].
Proof.
  split; [repeat (apply Forall_cons; [unfold isbyte; lia|]); apply Forall_nil|]. split; [discriminate|].
  apply Esc_self; [lia|]. apply Esc_letter; [cbn; tauto|]. apply Esc_nil.
Qed.

(* ---------------- C119 ---------------- *)
Theorem C119_winansi_partial : forall raw text s, spells winansi_char raw text -> escapes raw s ->
  apply_encoding (PStr (B "/WinAnsiEncoding")) (literal s) = Ok (text, raw).
Proof. exact winansi_encoding. Qed.
Print Assumptions C119_winansi_partial.
Theorem C119_macroman_partial : forall raw text s, spells macroman_char raw text -> ~ In 219 raw -> escapes raw s ->
  apply_encoding (PStr (B "/MacRomanEncoding")) (literal s) = Ok (text, raw).
Proof. exact macroman_encoding. Qed.
Print Assumptions C119_macroman_partial.
(* the sign of currencies is never obtained *)
Theorem C119_currency : forall raw s, In 219 raw -> escapes raw s -> forall text codes,
  apply_encoding (PStr (B "/MacRomanEncoding")) (literal s) = Ok (text, codes) -> ~ spells macroman_char raw text.
Proof. exact currency_lost. Qed.
Print Assumptions C119_currency.
(* a code that stands for the bullet makes the whole string fail *)
Theorem C119_bullet : forall raw s, Exists (fun c => winansi_bullet c /\ c <> 127) raw -> escapes raw s ->
  apply_encoding (PStr (B "/WinAnsiEncoding")) (literal s) = Exc EUnicodeError.
Proof. exact bullets_raise. Qed.
Print Assumptions C119_bullet.
Theorem C119_refuted :
  (macroman_char 219 = Some 164 /\ apply_encoding (PStr (B "/MacRomanEncoding")) (literal [219]) = Ok ([8364], [219])) /\
  (winansi_bullet 129 /\ apply_encoding (PStr (B "/WinAnsiEncoding")) (literal [65; 129]) = Exc EUnicodeError) /\
  (standard_quote 39 8217 /\ apply_encoding (PStr (B "/StandardEncoding")) (literal [39]) = Ok ([39], [39])).
Proof.
  split; [split; vm_compute; reflexivity|]. split; (split; [|vm_compute; reflexivity]).
  - unfold winansi_bullet. tauto.
  - unfold standard_quote. left. split; reflexivity.
Qed.
Print Assumptions C119_refuted.
(* 'Œ(€)' in one encoding, 'ŒÄ' in the other *)
Example C119_case :
  (spells winansi_char [140; 40; 128; 41] [338; 40; 8364; 41] /\ escapes [140; 40; 128; 41] [140; 92; 40; 92; 50; 48; 48; 92; 41]) /\
  (spells macroman_char [206; 128] [338; 196] /\ ~ In 219 [206; 128] /\ escapes [206; 128] [206; 128]) /\
  (In 219 [65; 219] /\ escapes [65; 219] [65; 219]) /\
  (Exists (fun c => winansi_bullet c /\ c <> 127) [65; 129] /\ escapes [65; 129] [65; 129]).
Proof.
  split; [split|split; [split; [|split]|split; [split|split]]].
  - repeat (apply Forall2_cons; [vm_compute; reflexivity|]). apply Forall2_nil.
  - apply Esc_self; [lia|]. apply Esc_letter; [cbn; tauto|]. apply (Esc_octal 2 0 0 [41] [92; 41]); [lia|unfold octd; lia..|]. apply Esc_letter; [cbn; tauto|]. apply Esc_nil.
  - repeat (apply Forall2_cons; [vm_compute; reflexivity|]). apply Forall2_nil.
  - cbn. lia.
  - repeat (apply Esc_self; [lia|]). apply Esc_nil.
  - cbn. tauto.
  - repeat (apply Esc_self; [lia|]). apply Esc_nil.
  - apply Exists_cons_tl, Exists_cons_hd. unfold winansi_bullet. lia.
  - repeat (apply Esc_self; [lia|]). apply Esc_nil.
Qed.
