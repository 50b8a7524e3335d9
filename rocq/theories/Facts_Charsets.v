(* Facts about the predefined encodings of simple fonts *)
From Coq Require Import String.
From Verif Require Import PyBase Model_Filters Model_Objects Spec_Objects Facts_Base Facts_Filters Model_Text Spec_Text Facts_Text Spec_Charsets.
From Coq Require Import ZifyBool ZifyNat.

Lemma row_range l : forall first c u, row_char first c l = Some u -> first <= c < first + Z.of_nat (length l).
Proof.
  induction l as [|x l IH]; intros first c u H; cbn [row_char length] in *; [discriminate|].
  destruct (c =? first) eqn:E; [lia|]. specialize (IH _ _ _ H). lia.
Qed.
Lemma sweep (P : Z -> bool) lo n : forallb P (map (fun k => lo + Z.of_nat k) (seq 0 n)) = true -> forall c, lo <= c < lo + Z.of_nat n -> P c = true.
Proof.
  intros H c R. rewrite forallb_forall in H. apply H. apply in_map_iff. exists (Z.to_nat (c - lo)). split; [lia|]. apply in_seq. lia.
Qed.
Definition same_win (c : Z) : bool :=
  match winansi_char c with None => true | Some u => match (if (128 <=? c) && (c <? 160) then let u := nth (Z.to_nat (c - 128)) CP1252_C1 0 in if u =? -1 then Exc EUnicodeError else Ok u else Ok c) with Ok v => v =? u | _ => false end end.
Definition same_mac (c : Z) : bool :=
  (c =? 219) || match macroman_char c with None => true | Some u => (if c <? 128 then c else nth (Z.to_nat (c - 128)) MAC_ROMAN 0) =? u end.
Lemma win_range c u : winansi_char c = Some u -> 0 <= c < 0 + Z.of_nat 256.
Proof. unfold winansi_char. destruct (_ || _) eqn:E; [lia|]. intros H. apply row_range in H. cbn [length] in H. lia. Qed.
Lemma mac_range c u : macroman_char c = Some u -> 0 <= c < 0 + Z.of_nat 256.
Proof. unfold macroman_char. destruct (_ && _) eqn:E; [lia|]. intros H. apply row_range in H. cbn [length] in H. lia. Qed.

Lemma winansi_text raw text : spells winansi_char raw text -> cp1252 raw = Ok text.
Proof.
  unfold spells, cp1252. induction 1 as [|c u raw text H _ IH]; [reflexivity|]. cbn [map_res]. rewrite IH.
  pose proof (sweep same_win 0 256 ltac:(vm_compute; reflexivity) c (win_range c u H)) as S. unfold same_win in S. rewrite H in S.
  destruct (if (128 <=? c) && (c <? 160) then _ else _) as [v| |]; try discriminate S. cbn [bind]. do 2 f_equal. lia.
Qed.
Lemma macroman_text raw text : spells macroman_char raw text -> ~ In 219 raw -> mac_roman raw = text.
Proof.
  unfold spells, mac_roman. induction 1 as [|c u raw text H _ IH]; intros N; [reflexivity|]. cbn [map]. rewrite IH by (intro I; apply N; now right).
  pose proof (sweep same_mac 0 256 ltac:(vm_compute; reflexivity) c (mac_range c u H)) as S. unfold same_mac in S. rewrite H in S.
  assert (c <> 219) by (intro; apply N; now left). f_equal. lia.
Qed.

Theorem winansi_encoding raw text s : spells winansi_char raw text -> escapes raw s -> apply_encoding (PStr (B "/WinAnsiEncoding")) (literal s) = Ok (text, raw).
Proof.
  intros H E. unfold apply_encoding, literal. rewrite inner1, (unescape_inverse _ _ E). cbn [bind]. change (beqb (B "/WinAnsiEncoding") N_MacRoman) with false. cbv iota. rewrite (winansi_text _ _ H). reflexivity.
Qed.
Theorem macroman_encoding raw text s : spells macroman_char raw text -> ~ In 219 raw -> escapes raw s -> apply_encoding (PStr (B "/MacRomanEncoding")) (literal s) = Ok (text, raw).
Proof.
  intros H N E. unfold apply_encoding, literal. rewrite inner1, (unescape_inverse _ _ E). cbn [bind]. change (beqb (B "/MacRomanEncoding") N_MacRoman) with true. cbv iota. cbn [bind]. now rewrite (macroman_text _ _ H N).
Qed.
Theorem same_notation enc raw s s' : escapes raw s -> escapes raw s' -> apply_encoding enc (literal s) = apply_encoding enc (literal s').
Proof. intros E E'. unfold apply_encoding, literal. now rewrite !inner1, (unescape_inverse _ _ E), (unescape_inverse _ _ E'). Qed.
Theorem currency_lost raw s : In 219 raw -> escapes raw s -> forall text codes, apply_encoding (PStr (B "/MacRomanEncoding")) (literal s) = Ok (text, codes) -> ~ spells macroman_char raw text.
Proof.
  intros I E text codes H SP. unfold apply_encoding, literal in H. rewrite inner1, (unescape_inverse _ _ E) in H. cbn [bind] in H. change (beqb (B "/MacRomanEncoding") N_MacRoman) with true in H. cbv iota in H. cbn [bind] in H.
  injection H as <- _. clear E. unfold spells, mac_roman in SP. induction raw as [|c raw IH]; [destruct I|]. cbn [map] in SP. inversion SP as [|? ? ? ? A1 A2]; subst. destruct I as [->|I]; [vm_compute in A1; discriminate A1|].
  apply IH; auto.
Qed.
Theorem bullets_raise raw s : Exists (fun c => winansi_bullet c /\ c <> 127) raw -> escapes raw s -> apply_encoding (PStr (B "/WinAnsiEncoding")) (literal s) = Exc EUnicodeError.
Proof.
  intros X E. unfold apply_encoding, literal. rewrite inner1, (unescape_inverse _ _ E). cbn [bind]. change (beqb (B "/WinAnsiEncoding") N_MacRoman) with false. cbv iota.
  assert (Y : cp1252 raw = Exc EUnicodeError); [|now rewrite Y]. clear E. unfold cp1252.
  induction X as [c raw (WB & N)|c raw X IH]; cbn [map_res].
  - unfold winansi_bullet in WB. destruct WB as [->|[->|[->|[->|[->| ->]]]]]; [contradiction|reflexivity..].
  - rewrite IH. destruct ((128 <=? c) && (c <? 160)); [|reflexivity]. cbv zeta. destruct (_ =? -1); reflexivity.
Qed.

Theorem hex_digits_shown enc raw : Forall isbyte raw -> apply_encoding enc (hexstr raw) = Ok (hexlify_up raw, hexlify_up raw).
Proof.
  intros H. pose proof (hexlify_hex raw H) as HH.
  change (apply_encoding enc (hexstr raw)) with (apply_encoding enc (60 :: hexlify_up raw ++ [62])).
  assert (X : apply_encoding enc (60 :: hexlify_up raw ++ [62]) = apply_encoding enc (literal (hexlify_up raw))) by (unfold apply_encoding, literal; now rewrite !inner1).
  rewrite X. apply encoding_ascii.
  - eapply Forall_impl; [|exact HH]. intros c. unfold ishex. lia.
  - clear X H. induction HH as [|c r Hc _ IH]; [apply Esc_nil|]. apply Esc_self; [unfold ishex in Hc; lia|exact IH].
Qed.
Theorem hex_never_right enc raw s : Forall isbyte raw -> raw <> [] -> escapes raw s -> apply_encoding enc (hexstr raw) <> apply_encoding enc (literal s).
Proof.
  intros H N E. rewrite (hex_digits_shown enc raw H). unfold apply_encoding, literal. rewrite inner1, (unescape_inverse _ _ E). cbn [bind].
  intros X. assert (L : hexlify_up raw = raw).
  { destruct (match enc with PStr e => _ | _ => _ end) as [us| |]; cbn [bind] in X; [|discriminate X..]. now injection X. }
  apply (f_equal (@length Z)) in L. rewrite hexlify_length in L. destruct raw; [now apply N|]. cbn [length] in L. lia.
Qed.
