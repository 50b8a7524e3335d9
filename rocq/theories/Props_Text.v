(* Properties C43-C45, C49, C61, C62: text strings, character maps, width tables *)
From Coq Require Import String.
From Verif Require Import PyBase Model_Filters Model_Objects Spec_Objects Facts_Base Facts_Filters
  Model_Text Spec_Text Facts_Text.

(* ---------------- C43 ---------------- *)
Theorem C43_length : forall s, length (decode_pdfdoc s) = length s.
Proof. exact pdfdoc_length. Qed.
Print Assumptions C43_length.
Theorem C43_injective : forall a b, Forall isbyte a -> Forall isbyte b ->
  decode_pdfdoc a = decode_pdfdoc b -> a = b.
Proof. exact pdfdoc_inj. Qed.
Print Assumptions C43_injective.
Theorem C43_table : forall s, Forall isbyte s -> Forall2 pdfdoc_char s (decode_pdfdoc s).
Proof. exact pdfdoc_spec. Qed.
Print Assumptions C43_table.
Example C43_case : decode_pdfdoc [72; 105; 32; 160; 24; 255] = [72; 105; 32; 8364; 728; 255].
Proof. reflexivity. Qed.

(* ---------------- C44 ---------------- *)
Theorem C44_unescape : forall raw s, escapes raw s -> unescape_literal_string s = Ok raw.
Proof. exact unescape_inverse. Qed.
Print Assumptions C44_unescape.
Theorem C44_writers : forall raw, Forall isbyte raw ->
  unescape_literal_string (escape_min raw) = Ok raw /\ unescape_literal_string (escape_octal raw) = Ok raw.
Proof.
  intros raw H. split; apply unescape_inverse; [apply escape_min_ok|now apply escape_octal_ok].
Qed.
Print Assumptions C44_writers.
Theorem C44_raises : forall raw s, escapes raw s -> unescape_literal_string (s ++ [92]) = Exc EValueError.
Proof. exact unescape_lone. Qed.
Print Assumptions C44_raises.
Theorem C44_octal_raises : forall raw s a b c d t, escapes raw s ->
  d = 56 \/ d = 57 -> 4 <= a < 8 -> 0 <= b < 8 -> 0 <= c < 8 ->
  unescape_literal_string (s ++ 92 :: d :: t) = Exc EValueError /\
  unescape_literal_string (s ++ 92 :: 48 + a :: 48 + b :: 48 + c :: t) = Exc EValueError.
Proof. intros. split; [now apply (unescape_89 raw)|now apply (unescape_400 raw)]. Qed.
Print Assumptions C44_octal_raises.
(* the standard also allows octal codes of one or two digits and escaped line ends *)
Theorem C44_iso_refuted : exists raw1 s1 raw2 s2,
  escapes_iso raw1 s1 /\ unescape_literal_string s1 = Exc EValueError /\
  escapes_iso raw2 s2 /\ unescape_literal_string s2 <> Ok raw2.
Proof.
  exists [43; 120], (92 :: 53 :: 51 :: [120]), [97; 98], (97 :: 92 :: 10 :: [98]).
  split; [|split; [reflexivity|split; [|vm_compute; discriminate]]].
  - change [43; 120] with (8 * 5 + 3 :: [120]). change 53 with (48 + 5). change 51 with (48 + 3).
    apply Iso_octal2; [unfold octd; lia|unfold octd; lia|intros d s' E; injection E as <- <-; lia|].
    apply Iso_base. repeat (apply Esc_self; [lia|]). apply Esc_nil.
  - (* a plain letter, then the escaped end of line: the standard reads "ab" *)
    assert (E : escapes_iso [98] [98]) by (apply Iso_base; apply Esc_self; [lia|apply Esc_nil]).
    apply Iso_self; [lia|]. apply Iso_eol. exact E.
Qed.
Print Assumptions C44_iso_refuted.
Example C44_case : escapes [40; 65; 10; 200; 36] (92 :: 40 :: 65 :: 92 :: 110 :: 92 :: 51 :: 49 :: 48 :: 92 :: 36 :: []).
Proof.
  apply (Esc_letter 40 40); [cbn; tauto|]. apply Esc_self; [lia|]. apply (Esc_letter 110 10); [cbn; tauto|].
  apply (Esc_octal 3 1 0); [lia|unfold octd; lia|unfold octd; lia|].
  apply Esc_ignored; [lia| |apply Esc_nil]. cbn. lia.
Qed.

(* ---------------- C45 ---------------- *)
Theorem C45_notations : forall raw s, Forall isbyte raw -> escapes raw s ->
  text_string (literal s) = text_string (hexstr raw).
Proof. exact text_notations. Qed.
Print Assumptions C45_notations.
Theorem C45_utf16 : forall cps s, Forall scalar cps -> escapes (254 :: 255 :: utf16_encode cps) s ->
  text_string (literal s) = Ok cps.
Proof. exact text_utf16. Qed.
Print Assumptions C45_utf16.
Theorem C45_pdfdoc : forall raw s, Forall isbyte raw -> escapes raw s -> firstn 2 raw <> [254; 255] ->
  exists t, text_string (literal s) = Ok t /\ Forall2 pdfdoc_char raw t.
Proof.
  intros raw s H E N. exists (decode_pdfdoc raw). split; [|now apply pdfdoc_spec].
  rewrite (text_literal _ _ E). unfold meaning. apply beqb_neq in N. now rewrite N.
Qed.
Print Assumptions C45_pdfdoc.
(* hexadecimal digits may also be in lower case; the UTF-16 mark is then missed *)
Theorem C45_lowercase_refuted :
  text_string (B "<FEFF0041>") = Ok [65] /\ text_string (B "<feff0041>") = Ok [254; 255; 0; 65].
Proof. split; vm_compute; reflexivity. Qed.
Print Assumptions C45_lowercase_refuted.
Example C45_case : let cps := [72; 233; 8364; 128512] in
  Forall scalar cps /\ text_string (literal (escape_min (254 :: 255 :: utf16_encode cps))) = Ok cps /\
  text_string (hexstr (254 :: 255 :: utf16_encode cps)) = Ok cps.
Proof. split; [|split; vm_compute; reflexivity]. repeat (constructor; [unfold scalar; lia|]). constructor. Qed.

(* ---------------- C49 ---------------- *)
(* the last declaration that covers the character, else the default *)
Theorem C49_cid : forall ds dw, ds <> [] ->
  exists f, prepare_w (PList (flat_map wdecl_code ds)) dw = Ok f /\
  forall c, f c = match first_some (wdecl_width c) (rev ds) with Some x => x | None => dw end.
Proof. exact widths_ok. Qed.
Print Assumptions C49_cid.
Theorem C49_simple : forall ws first c, prepare_widths ws first c =
  match (if first <=? c then nth_error ws (Z.to_nat (c - first)) else None) with Some w => w | None => PInt 500 end.
Proof. exact simple_widths. Qed.
Print Assumptions C49_simple.
(* without declarations the default width is ignored *)
Theorem C49_empty_refuted : exists dw f, prepare_w (PList []) dw = Ok f /\ forall c, f c <> dw.
Proof. exists (PInt 1000). eexists. split; [reflexivity|]. intros c. cbn. discriminate. Qed.
Print Assumptions C49_empty_refuted.
(* every character is then 500 wide *)
Theorem C49_empty : forall w dw, w = PNone \/ w = PList [] -> exists f, prepare_w w dw = Ok f /\ forall c, f c = PInt 500.
Proof. intros w dw [-> | ->]; eexists; split; reflexivity. Qed.
Print Assumptions C49_empty.
Example C49_empty_case : exists f, prepare_w PNone (PInt 1000) = Ok f /\ map f [0; 65; 300] = [PInt 500; PInt 500; PInt 500].
Proof. eexists. split; reflexivity. Qed.
Example C49_case : exists f, prepare_w (PList [PInt 1; PList [PInt 300; PInt 310]; PInt 2; PInt 9; PInt 700]) (PInt 1000) = Ok f /\
  map f [0; 1; 2; 9; 10] = [PInt 1000; PInt 300; PInt 700; PInt 700; PInt 1000].
Proof. eexists. split; [reflexivity|]. reflexivity. Qed.

(* ---------------- C61 ---------------- *)
Theorem C61_literal : forall wl l cs s, (0 < wl)%nat -> Forall (citem_ok wl) l -> has_section l ->
  Forall (code_ok wl) cs -> escapes (codes_bytes wl cs) s ->
  apply_tounicode (cmap_code wl l) (literal s) = Ok (concat (map (cmap_text l) cs), cs).
Proof. exact tounicode_literal. Qed.
Print Assumptions C61_literal.
Theorem C61_hex : forall wl l cs, (0 < wl)%nat -> Forall (citem_ok wl) l -> has_section l ->
  Forall (code_ok wl) cs ->
  apply_tounicode (cmap_code wl l) (hexstr (codes_bytes wl cs)) = Ok (concat (map (cmap_text l) cs), cs).
Proof. exact tounicode_hex. Qed.
Print Assumptions C61_hex.
(* a range over one-byte codes (what simple fonts use) raises *)
Theorem C61_onebyte_refuted : let l := [CRanges [RTo 65 90 65]] in
  cmap_text l 66 = [66] /\ apply_tounicode (cmap_code 1 l) (hexstr (codes_bytes 1 [66])) = Exc EUnicodeError.
Proof. split; vm_compute; reflexivity. Qed.
Print Assumptions C61_onebyte_refuted.
(* so does a map without any declaration *)
Theorem C61_nosection_refuted : apply_tounicode (cmap_code 1 [CSpace 0 255]) (hexstr [66]) = Exc EUnboundLocal.
Proof. vm_compute. reflexivity. Qed.
Print Assumptions C61_nosection_refuted.
Example C61_case : let l := [CWord (PStr (B "begincmap")); CSpace 0 65535; CChars [(3, [102; 105]); (7, [128512])];
                             CRanges [RTo 16 31 97; RList 40 [[120]; [121; 122]]]] in
  Forall (citem_ok 2) l /\ has_section l /\
  apply_tounicode (cmap_code 2 l) (hexstr (codes_bytes 2 [3; 17; 41; 99; 7])) =
    Ok ([102; 105; 98; 121; 122; 128512], [3; 17; 41; 99; 7]).
Proof.
  split; [|split; [|vm_compute; reflexivity]].
  - unfold citem_ok, rdecl_ok, code_ok.
    constructor; [vm_compute; intuition discriminate|]. constructor; [exact Logic.I|].
    constructor.
    { split; [discriminate|]. repeat (constructor; [cbn [fst snd]; split; [cbn; lia|repeat (constructor; [unfold scalar; lia|]); constructor]|]). constructor. }
    constructor; [|constructor]. split; [discriminate|].
    constructor.
    { split; [reflexivity|]. split; [cbn; lia|]. split; [cbn; lia|]. split; [lia|]. intros k Hk. unfold scalar. lia. }
    constructor; [|constructor]. split; [discriminate|]. split; [cbn; lia|]. split; [cbn; lia|].
    repeat (constructor; [repeat (constructor; [unfold scalar; lia|]); constructor|]). constructor.
  - exists (CChars [(3, [102; 105]); (7, [128512])]). split; [cbn; tauto|exact Logic.I].
Qed.

(* ---------------- C62 ---------------- *)
Theorem C62_ascii_partial : forall enc raw s, Forall (fun c => 0 <= c < 128) raw -> escapes raw s ->
  apply_encoding enc (literal s) = Ok (raw, raw).
Proof. exact encoding_ascii. Qed.
Print Assumptions C62_ascii_partial.
Theorem C62_hex_refuted : exists raw, Forall isbyte raw /\
  apply_encoding PNone (literal raw) = Ok ([72; 105], [72; 105]) /\
  apply_encoding PNone (hexstr raw) = Ok ([52; 56; 54; 57], [52; 56; 54; 57]).
Proof. exists [72; 105]. split; [|split; vm_compute; reflexivity]. repeat (constructor; [unfold isbyte; lia|]). constructor. Qed.
Print Assumptions C62_hex_refuted.
Example C62_case : apply_encoding (PStr N_MacRoman) (literal [128; 92; 51; 52; 49]) = Ok ([196; 183], [128; 225]).
Proof. vm_compute. reflexivity. Qed.
