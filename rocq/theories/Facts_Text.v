(* Facts about text strings, character maps and width tables *)
From Coq Require Import String ZifyBool ZifyNat.
From Verif Require Import PyBase Model_Filters Model_Objects Spec_Objects Facts_Base Facts_Filters
  Model_Text Spec_Text.

(* ---------- PDFDocEncoding ---------- *)
Fixpoint nodupb (l : list Z) : bool :=
  match l with [] => true | x :: r => negb (inb x r) && nodupb r end.
Lemma nodupb_NoDup l : nodupb l = true -> NoDup l.
Proof.
  induction l as [|x r IH]; cbn; intro H; constructor.
  - apply andb_prop in H. destruct H as [H _]. apply negb_true_iff in H. rewrite inb_not_In in H. exact H.
  - apply IH. apply andb_prop in H. tauto.
Qed.
Lemma charset_nodup : NoDup PDFDOC_CHARSET.
Proof. apply nodupb_NoDup. vm_compute. reflexivity. Qed.
Lemma charset_length : length PDFDOC_CHARSET = 256%nat. Proof. reflexivity. Qed.

Lemma pdfdoc_length s : length (decode_pdfdoc s) = length s.
Proof. apply map_length. Qed.
Lemma pdfdoc_inj a : forall b, Forall isbyte a -> Forall isbyte b ->
  decode_pdfdoc a = decode_pdfdoc b -> a = b.
Proof.
  induction a as [|x a IH]; intros [|y b] Ha Hb H; try discriminate; [reflexivity|].
  inversion Ha as [|? ? Hx Ha']; inversion Hb as [|? ? Hy Hb']; subst. unfold isbyte in *.
  cbn [decode_pdfdoc map] in H. injection H as H1 H2. f_equal; [|apply IH; auto].
  apply (proj1 (NoDup_nth PDFDOC_CHARSET 0) charset_nodup) in H1; rewrite ?charset_length; lia.
Qed.
Lemma all_bytes (P : Z -> bool) : forallb P (zrange 0 256) = true -> forall c, isbyte c -> P c = true.
Proof.
  intros H c Hc. rewrite forallb_forall in H. apply H. unfold isbyte in Hc.
  assert (E : forall n a x, a <= x < a + Z.of_nat n -> In x (zseq a n)).
  { induction n as [|n IH]; intros a0 x Hx; [lia|]. cbn [zseq]. destruct (Z.eq_dec x a0); [left; lia|right; apply IH; lia]. }
  apply E. lia.
Qed.
Lemma pdfdoc_spec s : Forall isbyte s -> Forall2 pdfdoc_char s (decode_pdfdoc s).
Proof.
  induction 1 as [|c r Hc _ IH]; constructor; [|exact IH].
  set (u := nth (Z.to_nat c) PDFDOC_CHARSET 0).
  assert (E : (if inb c (map fst pdfdoc_special)
               then existsb (fun p => (fst p =? c) && (snd p =? nth (Z.to_nat c) PDFDOC_CHARSET 0)) pdfdoc_special
               else nth (Z.to_nat c) PDFDOC_CHARSET 0 =? c) = true).
  { revert c Hc u. apply (all_bytes (fun c => if inb c (map fst pdfdoc_special)
               then existsb (fun p => (fst p =? c) && (snd p =? nth (Z.to_nat c) PDFDOC_CHARSET 0)) pdfdoc_special
               else nth (Z.to_nat c) PDFDOC_CHARSET 0 =? c)). vm_compute. reflexivity. }
  fold u in E. destruct (inb c (map fst pdfdoc_special)) eqn:I.
  - left. apply existsb_exists in E. destruct E as [[a b] [E1 E2]]. cbn [fst snd] in E2.
    assert (a = c /\ b = u) as [-> ->] by lia. exact E1.
  - right. rewrite inb_not_In in I. split; [exact I|]. lia.
Qed.

(* ---------- escapes ---------- *)
Lemma unescape_cons c r : c <> 92 ->
  unescape_literal_string (c :: r) = (let* t := unescape_literal_string r in Ok (c :: t)).
Proof. intro H. cbn [unescape_literal_string]. destruct (Z.eqb_spec c 92); [contradiction|reflexivity]. Qed.

Lemma octal3 a b c : 0 <= a <= 3 -> octd b -> octd c ->
  octal_byte [48 + a; 48 + b; 48 + c] = Ok (64 * a + 8 * b + c).
Proof.
  unfold octd. intros Ha Hb Hc.
  assert (a = 0 \/ a = 1 \/ a = 2 \/ a = 3) as A by lia.
  assert (b = 0 \/ b = 1 \/ b = 2 \/ b = 3 \/ b = 4 \/ b = 5 \/ b = 6 \/ b = 7) as A' by lia.
  assert (c = 0 \/ c = 1 \/ c = 2 \/ c = 3 \/ c = 4 \/ c = 5 \/ c = 6 \/ c = 7) as A'' by lia.
  clear Ha Hb Hc.
  repeat (destruct A as [->|A]; [|]); try subst a;
  (repeat (destruct A' as [->|A']; [|]); try subst b);
  (repeat (destruct A'' as [->|A'']; [|]); try subst c); reflexivity.
Qed.

Lemma unescape_app raw s : escapes raw s -> forall t,
  unescape_literal_string (s ++ t) = (let* u := unescape_literal_string t in Ok (raw ++ u)).
Proof.
  induction 1 as [|c raw s Hc _ IH|d c raw s Hd _ IH|a b c raw s Ha Hb Hc _ IH|c raw s Hd Hl _ IH]; intro t.
  - cbn [app]. destruct (unescape_literal_string t); reflexivity.
  - cbn [app]. rewrite unescape_cons by assumption. rewrite IH. destruct (unescape_literal_string t); reflexivity.
  - cbn [app unescape_literal_string]. change (92 =? 92) with true. cbv iota.
    assert (E : is_dec_digit d = false /\ escape_of d = Some c).
    { unfold escape_letters in Hd. cbn [In] in Hd.
      repeat (destruct Hd as [Hd|Hd]; [injection Hd as <- <-; split; reflexivity|]). contradiction. }
    destruct E as [-> ->]. rewrite IH. destruct (unescape_literal_string t); reflexivity.
  - cbn [app unescape_literal_string]. change (92 =? 92) with true. cbv iota.
    replace (is_dec_digit (48 + a)) with true by (unfold is_dec_digit; lia). cbv iota.
    rewrite octal3 by assumption. cbn [bind]. rewrite IH. destruct (unescape_literal_string t); reflexivity.
  - assert (D : is_dec_digit c = false) by (unfold is_dec_digit; lia).
    assert (L : c <> 92 /\ escape_of c = None).
    { cbn [escape_letters map fst In] in Hl.
      unfold escape_of. repeat (match goal with |- context [c =? ?k] => destruct (Z.eqb_spec c k); [exfalso; lia|] end).
      split; [assumption|reflexivity]. }
    destruct L as [L1 L2].
    change ((92 :: c :: s) ++ t) with (92 :: c :: (s ++ t)).
    cbn [unescape_literal_string]. change (92 =? 92) with true. cbv iota. rewrite D, L2. cbv iota.
    change (unescape_literal_string (c :: s ++ t) = (let* u := unescape_literal_string t in Ok ((c :: raw) ++ u))).
    rewrite unescape_cons by assumption. rewrite IH. destruct (unescape_literal_string t); reflexivity.
Qed.
Lemma unescape_inverse raw s : escapes raw s -> unescape_literal_string s = Ok raw.
Proof. intro H. rewrite <- (app_nil_r s). rewrite (unescape_app _ _ H []). cbn. now rewrite app_nil_r. Qed.

Lemma escape_min_ok raw : escapes raw (escape_min raw).
Proof.
  induction raw as [|c r IH]; [constructor|]. cbn [escape_min flat_map]. fold (escape_min r).
  destruct ((c =? 40) || (c =? 41) || (c =? 92)) eqn:E; cbn [app].
  - apply Esc_letter; [|exact IH]. assert (c = 40 \/ c = 41 \/ c = 92) as H by lia.
    destruct H as [->|[->| ->]]; cbn; tauto.
  - apply Esc_self; [lia|exact IH].
Qed.
Lemma escape_octal_ok raw : Forall isbyte raw -> escapes raw (escape_octal raw).
Proof.
  induction 1 as [|c r Hc _ IH]; [constructor|]. cbn [escape_octal flat_map app]. fold (escape_octal r).
  unfold isbyte in Hc.
  assert (E : c = 64 * (c / 64) + 8 * (c / 8 mod 8) + c mod 8) by lia.
  rewrite E at 1. apply Esc_octal; unfold octd; try lia. exact IH.
Qed.

(* a lone backslash at the end, or one before 8 or 9, raises *)
Lemma unescape_lone raw s : escapes raw s -> unescape_literal_string (s ++ [92]) = Exc EValueError.
Proof. intro H. rewrite (unescape_app _ _ H). reflexivity. Qed.
Lemma py_int8_bad d r : d = 56 \/ d = 57 -> py_int 8 (d :: r) = None.
Proof.
  intros Hd. unfold py_int, strip.
  assert (E : lstrip WS (d :: r) = d :: r) by (apply lstrip_id; unfold WS; cbn [In]; lia).
  rewrite E.
  assert (E2 : exists r', rev (lstrip WS (rev (d :: r))) = d :: r').
  { cbn [rev]. generalize (rev r). intro l. exists (rev (lstrip WS l)).
    assert (X : lstrip WS (l ++ [d]) = lstrip WS l ++ [d]).
    { induction l as [|x l IH].
      - cbn [lstrip app]. replace (inb d WS) with false; [reflexivity|]. symmetry. apply inb_not_In. unfold WS; cbn [In]; lia.
      - cbn [app lstrip]. destruct (inb x WS); [exact IH|reflexivity]. }
    rewrite X, rev_app_distr. reflexivity. }
  destruct E2 as [r' ->]. unfold split_sign.
  replace (d =? 45) with false by lia. replace (d =? 43) with false by lia. cbv iota.
  replace (dval d <? 8) with false; [reflexivity|]. destruct Hd; subst; reflexivity.
Qed.

Lemma unescape_89 raw s d t : escapes raw s -> d = 56 \/ d = 57 ->
  unescape_literal_string (s ++ 92 :: d :: t) = Exc EValueError.
Proof.
  intros H Hd. rewrite (unescape_app _ _ H). cbn [unescape_literal_string]. change (92 =? 92) with true. cbv iota.
  replace (is_dec_digit d) with true by (unfold is_dec_digit; lia). unfold octal_byte.
  destruct t as [|e [|f t]]; now rewrite py_int8_bad by assumption.
Qed.
Lemma py_int8_three a b c : 0 <= a < 8 -> 0 <= b < 8 -> 0 <= c < 8 ->
  py_int 8 [48 + a; 48 + b; 48 + c] = Some (64 * a + 8 * b + c).
Proof.
  intros A Bb Cc.
  assert (Ha : In a [0;1;2;3;4;5;6;7]) by (cbn [In]; lia). assert (Hb : In b [0;1;2;3;4;5;6;7]) by (cbn [In]; lia).
  assert (Hc : In c [0;1;2;3;4;5;6;7]) by (cbn [In]; lia). clear A Bb Cc.
  cbn [In] in Ha, Hb, Hc. intuition (subst; reflexivity).
Qed.
Lemma unescape_400 raw s a b c t : escapes raw s -> 4 <= a < 8 -> 0 <= b < 8 -> 0 <= c < 8 ->
  unescape_literal_string (s ++ 92 :: 48 + a :: 48 + b :: 48 + c :: t) = Exc EValueError.
Proof.
  intros H A Bb Cc. rewrite (unescape_app _ _ H). cbn [unescape_literal_string]. change (92 =? 92) with true. cbv iota.
  replace (is_dec_digit (48 + a)) with true by (unfold is_dec_digit; lia). unfold octal_byte.
  rewrite py_int8_three by lia. replace ((0 <=? 64 * a + 8 * b + c) && (64 * a + 8 * b + c <? 256)) with false by lia. reflexivity.
Qed.

(* ---------- UTF-16 ---------- *)
Lemma utf16_char_ok u r : scalar u ->
  utf16be (utf16_char u ++ r) = (let* t := utf16be r in Ok (u :: t)).
Proof.
  unfold scalar, utf16_char. intro H. destruct (Z.ltb_spec u 65536).
  - cbn [unit_be app utf16be]. replace (256 * (u / 256) + u mod 256) with u by lia.
    replace ((55296 <=? u) && (u <? 56320)) with false by lia.
    replace ((56320 <=? u) && (u <? 57344)) with false by lia. reflexivity.
  - cbn [unit_be app utf16be].
    set (h := 55296 + (u - 65536) / 1024). set (l := 56320 + (u - 65536) mod 1024).
    assert (Hh : 55296 <= h < 56320) by (unfold h; lia). assert (Hl : 56320 <= l < 57344) by (unfold l; lia).
    replace (256 * (h / 256) + h mod 256) with h by lia. replace (256 * (l / 256) + l mod 256) with l by lia.
    replace ((55296 <=? h) && (h <? 56320)) with true by lia.
    replace ((56320 <=? l) && (l <? 57344)) with true by lia.
    destruct (utf16be r); cbn [bind]; [|reflexivity|reflexivity]. do 2 f_equal. unfold h, l. lia.
Qed.
Lemma utf16_ok cps : Forall scalar cps -> utf16be (utf16_encode cps) = Ok cps.
Proof.
  induction 1 as [|u r Hu _ IH]; [reflexivity|]. cbn [utf16_encode flat_map]. fold (utf16_encode r).
  rewrite utf16_char_ok by assumption. now rewrite IH.
Qed.
Lemma utf16_char_bytes u : scalar u -> Forall isbyte (utf16_char u).
Proof.
  unfold scalar, utf16_char. intro H. destruct (Z.ltb_spec u 65536); cbn [unit_be app];
  repeat (constructor; [unfold isbyte; lia|]); constructor.
Qed.
Lemma utf16_bytes cps : Forall scalar cps -> Forall isbyte (utf16_encode cps).
Proof.
  induction 1 as [|u r Hu _ IH]; [constructor|]. cbn [utf16_encode flat_map]. apply Forall_app. split; [now apply utf16_char_bytes|exact IH].
Qed.

(* ---------- hexadecimal ---------- *)
Definition ishex (c : Z) : Prop := 48 <= c <= 57 \/ 65 <= c <= 70.
Lemma hexdig_hex d : 0 <= d < 16 -> ishex (hexdig d).
Proof. unfold hexdig, ishex. intro. destruct (Z.ltb_spec d 10); lia. Qed.
Lemma hexlify_hex s : Forall isbyte s -> Forall ishex (hexlify_up s).
Proof.
  induction 1 as [|c r Hc _ IH]; [constructor|]. unfold isbyte in Hc. cbn [hexlify_up].
  repeat (constructor; [apply hexdig_hex; lia|]). exact IH.
Qed.
Lemma hex_unescape s : Forall ishex s -> forall t,
  unescape_literal_string (s ++ t) = (let* u := unescape_literal_string t in Ok (s ++ u)).
Proof.
  induction 1 as [|c r Hc _ IH]; intro t; [cbn [app]; destruct (unescape_literal_string t); reflexivity|].
  cbn [app]. rewrite unescape_cons by (unfold ishex in Hc; lia). rewrite IH. destruct (unescape_literal_string t); reflexivity.
Qed.
Lemma fromhex_hex s : Forall isbyte s -> fromhex (hexlify_up s) = Ok s.
Proof.
  induction 1 as [|c r Hc _ IH]; [reflexivity|]. unfold isbyte in Hc. cbn [hexlify_up fromhex].
  assert (Hh := hexdig_hex (c / 16) ltac:(lia)).
  assert (E : inb (hexdig (c / 16)) WS = false).
  { apply inb_not_In. unfold ishex in Hh. unfold WS; cbn [In]. lia. }
  rewrite E, !dval_hexdig by lia. replace ((c / 16 <? 16) && (c mod 16 <? 16)) with true by lia.
  rewrite IH. cbn [bind]. do 2 f_equal. lia.
Qed.
Lemma hex_pdfdoc s : Forall ishex s -> decode_pdfdoc s = s.
Proof.
  induction 1 as [|c r Hc _ IH]; [reflexivity|]. cbn [decode_pdfdoc map]. f_equal; [|exact IH].
  assert (B : isbyte c) by (unfold ishex, isbyte in *; lia).
  assert (E : negb ((48 <=? c) && (c <=? 57) || (65 <=? c) && (c <=? 70)) || (nth (Z.to_nat c) PDFDOC_CHARSET 0 =? c) = true).
  { revert c Hc B. intros c Hc B. revert c B Hc. intros c B _. revert c B.
    apply (all_bytes (fun c => negb ((48 <=? c) && (c <=? 57) || (65 <=? c) && (c <=? 70)) || (nth (Z.to_nat c) PDFDOC_CHARSET 0 =? c))).
    vm_compute. reflexivity. }
  unfold ishex in Hc. lia.
Qed.
Lemma hex_ascii s : Forall ishex s -> ascii s = Ok s.
Proof.
  intro H. unfold ascii. replace (is_ascii s) with true; [reflexivity|]. symmetry.
  apply forallb_forall. intros c Hc. rewrite Forall_forall in H. specialize (H c Hc). unfold ishex in H. lia.
Qed.

Lemma inner1 c s d : inner 1 (c :: s ++ [d]) = s.
Proof.
  unfold inner, sub. cbn [length skipn]. rewrite app_length. cbn [length].
  replace (S (length s + 1) - 1 - 1)%nat with (length s) by lia. apply firstn_app_len.
Qed.
Lemma innerk p s d : inner (length p) (p ++ s ++ [d]) = s.
Proof.
  unfold inner, sub. rewrite skipn_app_len. rewrite !app_length. cbn [length].
  replace (length p + (length s + 1) - 1 - length p)%nat with (length s) by lia. apply firstn_app_len.
Qed.

(* what a text string means *)
Definition meaning (raw : bytes) : res bytes :=
  if beqb (firstn 2 raw) [254; 255] then utf16be (skipn 2 raw) else Ok (decode_pdfdoc raw).

Lemma bom_split raw : beqb (firstn 2 raw) [254; 255] = true -> raw = 254 :: 255 :: skipn 2 raw.
Proof. intro H. apply beqb_eq in H. destruct raw as [|a [|b r]]; try discriminate. cbn in H. injection H as -> ->. reflexivity. Qed.

Lemma text_literal raw s : escapes raw s -> text_string (literal s) = meaning raw.
Proof.
  intro H. unfold text_string, literal.
  assert (E : unescape_literal_string (40 :: s ++ [41]) = Ok (40 :: raw ++ [41])).
  { rewrite unescape_cons by lia. rewrite (unescape_app _ _ H). reflexivity. }
  rewrite E. cbn [bind firstn]. change (beqb [40] [40]) with true. cbv iota.
  unfold meaning. destruct (beqb (firstn 2 raw) [254; 255]) eqn:Eb.
  - rewrite (bom_split _ Eb). set (r := skipn 2 raw).
    change (sub (40 :: (254 :: 255 :: r) ++ [41]) 1 3) with [254; 255]. change (beqb [254; 255] [254; 255]) with true. cbv iota.
    change (skipn 2 (254 :: 255 :: r)) with r. f_equal. exact (innerk [40; 254; 255] r 41).
  - replace (beqb (sub (40 :: raw ++ [41]) 1 3) [254; 255]) with false; [now rewrite inner1|].
    symmetry. apply beqb_neq. apply beqb_neq in Eb. intro C. apply Eb.
    destruct raw as [|a [|b r]]; cbn in C |- *; try discriminate; exact C.
Qed.

Lemma hexdig_inj a b : 0 <= a < 16 -> 0 <= b < 16 -> hexdig a = hexdig b -> a = b.
Proof. unfold hexdig. intros. destruct (Z.ltb_spec a 10), (Z.ltb_spec b 10); lia. Qed.

Lemma text_hex raw : Forall isbyte raw -> text_string (hexstr raw) = meaning raw.
Proof.
  intro H. unfold text_string, hexstr. pose proof (hexlify_hex raw H) as HH.
  assert (E : unescape_literal_string (60 :: hexlify_up raw ++ [62]) = Ok (60 :: hexlify_up raw ++ [62])).
  { rewrite unescape_cons by lia. rewrite (hex_unescape _ HH). reflexivity. }
  rewrite E. cbn [bind firstn]. change (beqb [60] [40]) with false. change (beqb [60] [60]) with true. cbv iota.
  unfold meaning. destruct (beqb (firstn 2 raw) [254; 255]) eqn:Eb.
  - rewrite (bom_split _ Eb) in *. set (r := skipn 2 raw) in *.
    inversion H as [|? ? _ H1]; subst. inversion H1 as [|? ? _ H2]; subst.
    change (sub (60 :: hexlify_up (254 :: 255 :: r) ++ [62]) 1 5) with W_FEFF. rewrite beqb_refl.
    change (inner 5 (60 :: hexlify_up (254 :: 255 :: r) ++ [62])) with (inner (length [60; 70; 69; 70; 70]) ([60; 70; 69; 70; 70] ++ hexlify_up r ++ [62])).
    rewrite innerk. rewrite (hex_ascii _ (hexlify_hex _ H2)). cbn [bind]. rewrite (fromhex_hex _ H2). reflexivity.
  - replace (beqb (sub (60 :: hexlify_up raw ++ [62]) 1 5) W_FEFF) with false.
    + rewrite inner1. rewrite (hex_pdfdoc _ HH). rewrite (fromhex_hex _ H). reflexivity.
    + symmetry. apply beqb_neq. apply beqb_neq in Eb. intro C. apply Eb.
      destruct raw as [|a [|b r]]; [discriminate C|discriminate C|].
      inversion H as [|? ? Ha H1]; subst. inversion H1 as [|? ? Hb H2]; subst. unfold isbyte in *.
      cbn in C. injection C as C1 C2 C3 C4.
      change 70 with (hexdig 15) in C1, C3, C4. change 69 with (hexdig 14) in C2.
      apply hexdig_inj in C1, C2, C3, C4; try lia. cbn [firstn]. f_equal; [lia|f_equal; lia].
Qed.
Lemma text_notations raw s : Forall isbyte raw -> escapes raw s -> text_string (literal s) = text_string (hexstr raw).
Proof. intros H E. rewrite (text_literal _ _ E), text_hex by assumption. reflexivity. Qed.
Lemma text_utf16 cps s : Forall scalar cps -> escapes (254 :: 255 :: utf16_encode cps) s ->
  text_string (literal s) = Ok cps.
Proof. intros H E. rewrite (text_literal _ _ E). unfold meaning. cbn [firstn skipn]. now apply utf16_ok. Qed.

(* ---------- character codes ---------- *)
Lemma int16_digits s : forall acc, Forall isbyte s ->
  int_digits 16 acc (hexlify_up s) = Some (fold_left (fun a c => 256 * a + c) s acc).
Proof.
  induction s as [|c r IH]; intros acc H; [reflexivity|].
  inversion H as [|? ? Hc Hr]; subst. unfold isbyte in Hc.
  change (hexlify_up (c :: r)) with (hexdig (c / 16) :: hexdig (c mod 16) :: hexlify_up r).
  cbn [int_digits]. rewrite !dval_hexdig by lia.
  replace (c / 16 <? 16) with true by lia. replace (c mod 16 <? 16) with true by lia. cbv iota.
  rewrite IH by assumption. cbn [fold_left]. do 2 f_equal. lia.
Qed.
Lemma py_int16 s : Forall isbyte s -> s <> [] -> py_int 16 (hexlify_up s) = Some (from_be s).
Proof.
  intros H Hn. unfold py_int. rewrite strip_id.
  2:{ eapply Forall_impl; [|exact (hexlify_hex _ H)]. cbv beta. unfold ishex, WS. intros c Hc. cbn [In]. lia. }
  destruct s as [|c r]; [contradiction|]. inversion H as [|? ? Hc Hr]; subst. unfold isbyte in Hc.
  change (hexlify_up (c :: r)) with (hexdig (c / 16) :: hexdig (c mod 16) :: hexlify_up r).
  pose proof (hexdig_hex (c / 16) ltac:(lia)) as Hh. unfold ishex in Hh.
  unfold split_sign. replace (hexdig (c / 16) =? 45) with false by lia. replace (hexdig (c / 16) =? 43) with false by lia.
  cbv iota. rewrite dval_hexdig by lia. replace (c / 16 <? 16) with true by lia.
  cbn [int_digits]. rewrite dval_hexdig by lia. replace (c mod 16 <? 16) with true by lia.
  rewrite int16_digits by assumption. cbn [option_map]. unfold from_be. cbn [fold_left]. f_equal.
  replace (16 * (c / 16) + c mod 16) with (256 * 0 + c) by lia. destruct (fold_left _ r _); reflexivity.
Qed.

Lemma chunks_pieces n l : (0 < n)%nat -> Forall (fun p : bytes => length p = n) l -> forall f,
  (length (concat l) <= f)%nat -> chunks_aux f n (concat l) = l.
Proof.
  intros Hn H. induction H as [|p r Hp _ IH]; intros f Hf; [destruct f; reflexivity|].
  cbn [concat] in *. rewrite app_length in Hf. destruct f as [|f]; [lia|]. cbn [chunks_aux].
  destruct (p ++ concat r) eqn:E.
  - apply (f_equal (@length Z)) in E. rewrite app_length in E. cbn in E. lia.
  - rewrite <- E. f_equal.
    + rewrite <- Hp. apply firstn_app_len.
    + rewrite <- Hp at 2. rewrite skipn_app_len. apply IH. lia.
Qed.
Lemma chunks_ok n l : (0 < n)%nat -> Forall (fun p : bytes => length p = n) l -> chunks n (concat l) = l.
Proof. intros. unfold chunks. now apply chunks_pieces. Qed.

(* the bytes of a string of character codes of wl bytes each *)
Lemma codes_isbyte wl cs : Forall isbyte (codes_bytes wl cs).
Proof. induction cs as [|c r IH]; [constructor|]. unfold codes_bytes. cbn [map concat]. apply Forall_app. split; [apply be_digits_byte|exact IH]. Qed.
Lemma hexlify_app a b : hexlify_up (a ++ b) = hexlify_up a ++ hexlify_up b.
Proof. induction a as [|x r IH]; [reflexivity|]. cbn [app hexlify_up]. now rewrite IH. Qed.
Lemma hexlify_length a : length (hexlify_up a) = (2 * length a)%nat.
Proof. induction a as [|x r IH]; [reflexivity|]. cbn [hexlify_up length]. rewrite IH. lia. Qed.

Lemma tokenize_literal wl cs s : (0 < wl)%nat -> Forall (code_ok wl) cs -> escapes (codes_bytes wl cs) s ->
  tokenize_string (literal s) wl = Ok cs.
Proof.
  intros Hw Hc E. unfold tokenize_string, literal. cbn [firstn]. change (beqb [40] [40]) with true. cbv iota.
  rewrite inner1, (unescape_inverse _ _ E). cbn [bind].
  destruct (Nat.eqb_spec wl 0); [lia|]. unfold codes_bytes. rewrite chunks_ok; [|assumption|].
  - f_equal. rewrite map_map. clear E. induction Hc as [|c r Hc0 _ IH]; [reflexivity|]. cbn [map]. f_equal; [|exact IH].
    now apply from_be_digits.
  - apply Forall_map. apply Forall_forall. intros. apply be_digits_length.
Qed.
Lemma map_res_map {A C D} (f : C -> res D) (g : A -> C) l : map_res f (map g l) = map_res (fun x => f (g x)) l.
Proof. induction l as [|x r IH]; [reflexivity|]. cbn. now rewrite IH. Qed.
Lemma map_res_ok {A C} (f : A -> res C) (g : A -> C) l : (forall x, In x l -> f x = Ok (g x)) -> map_res f l = Ok (map g l).
Proof.
  induction l as [|x r IH]; intro H; [reflexivity|]. cbn. rewrite (H x (or_introl eq_refl)). cbn.
  rewrite IH; [reflexivity|]. intros y Hy. apply H. now right.
Qed.
Lemma tokenize_hex wl cs : (0 < wl)%nat -> Forall (code_ok wl) cs ->
  tokenize_string (hexstr (codes_bytes wl cs)) wl = Ok cs.
Proof.
  intros Hw Hc. unfold tokenize_string, hexstr. cbn [firstn]. change (beqb [60] [40]) with false. cbv iota.
  destruct (Nat.eqb_spec wl 0); [lia|]. rewrite inner1.
  assert (E : hexlify_up (codes_bytes wl cs) = concat (map (fun c => hexlify_up (be_digits wl c)) cs)).
  { clear. induction cs as [|c r IH]; [reflexivity|]. unfold codes_bytes in *. cbn [map concat]. now rewrite hexlify_app, IH. }
  rewrite E, chunks_ok.
  - rewrite map_res_map. rewrite (map_res_ok _ (fun c => c)); [now rewrite map_id|].
    intros c Hi. rewrite Forall_forall in Hc. specialize (Hc c Hi).
    rewrite py_int16; [|apply be_digits_byte|].
    + cbn. f_equal. now apply from_be_digits.
    + intro C. apply (f_equal (@length Z)) in C. rewrite be_digits_length in C. cbn in C. lia.
  - lia.
  - apply Forall_map. apply Forall_forall. intros. rewrite hexlify_length, be_digits_length. lia.
Qed.

(* ---------- ToUnicode ---------- *)
Lemma hex_int_ok wl c : (0 < wl)%nat -> code_ok wl c -> hex_int (PBytes (hexstr (be_digits wl c))) = Ok c.
Proof.
  intros Hw Hc. unfold hex_int, hex_body, hexstr. cbn [bind]. rewrite inner1.
  rewrite py_int16; [|apply be_digits_byte|].
  - cbn. f_equal. now apply from_be_digits.
  - intro C. apply (f_equal (@length Z)) in C. rewrite be_digits_length in C. cbn in C. lia.
Qed.
Lemma hex_text_ok t : Forall scalar t -> hex_text (PBytes (hexstr (utf16_encode t))) = Ok t.
Proof.
  intro H. unfold hex_text, hex_body, hexstr. cbn [bind]. rewrite inner1.
  rewrite (hex_ascii _ (hexlify_hex _ (utf16_bytes _ H))). cbn [bind].
  rewrite fromhex_hex by now apply utf16_bytes. cbn [bind]. now apply utf16_ok.
Qed.
Lemma unit_be_digits x : 0 <= x < 65536 -> unit_be x = be_digits 2 x.
Proof. intro H. unfold unit_be. cbn [be_digits app]. f_equal. lia. Qed.
Lemma hexdigs1 f n : 0 <= n < 16 -> hexdigs f n = [hexdig n].
Proof. intro H. destruct f; cbn [hexdigs]; [now rewrite Z.mod_small by lia|]. now replace (n <? 16) with true by lia. Qed.
Lemma hexdigsS f n : 16 <= n -> hexdigs (S f) n = hexdigs f (n / 16) ++ [hexdig (n mod 16)].
Proof. intro H. cbn [hexdigs]. now replace (n <? 16) with false by lia. Qed.
Lemma hex_pad4 n : 0 <= n < 65536 -> hex_pad 4 n = hexlify_up (unit_be n).
Proof.
  intro H. unfold hex_pad, unit_be.
  cbn [hexlify_up]. remember (Z.to_nat (Z.log2 n)) as f.
  destruct (Z_lt_dec n 16).
  { rewrite hexdigs1 by lia. cbn [length Nat.sub repeat app].
    replace (n / 256 / 16) with 0 by lia. replace (n / 256 mod 16) with 0 by lia.
    replace (n mod 256 / 16) with 0 by lia. replace (n mod 256 mod 16) with n by lia. reflexivity. }
  assert (L : 4 <= Z.log2 n) by (change 4 with (Z.log2 16); apply Z.log2_le_mono; lia).
  destruct f as [|[|[|f]]]; [lia|lia|lia|]. rewrite hexdigsS by lia.
  replace (n mod 16) with (n mod 256 mod 16) by lia.
  destruct (Z_lt_dec n 256).
  { rewrite hexdigs1 by lia. cbn [length app Nat.sub repeat].
    replace (n / 256 / 16) with 0 by lia. replace (n / 256 mod 16) with 0 by lia.
    replace (n mod 256 / 16) with (n / 16) by lia. reflexivity. }
  rewrite hexdigsS by lia. replace (n / 16 mod 16) with (n mod 256 / 16) by lia.
  destruct (Z_lt_dec n 4096).
  { rewrite hexdigs1 by lia. cbn [length app Nat.sub repeat].
    replace (n / 256 / 16) with 0 by lia. replace (n / 16 / 16) with (n / 256 mod 16) by lia. reflexivity. }
  rewrite hexdigsS by lia. rewrite hexdigs1 by lia. cbn [length app Nat.sub repeat].
  replace (n / 16 / 16 / 16) with (n / 256 / 16) by lia. replace (n / 16 / 16 mod 16) with (n / 256 mod 16) by lia. reflexivity.
Qed.
Lemma range_target x : scalar x -> x < 65536 ->
  (let* b := fromhex (hex_pad 4 x) in let* s := utf16be b in Ok (TText s)) = Ok (TText [x]).
Proof.
  intros Hs Hx. unfold scalar in Hs. rewrite hex_pad4 by lia.
  rewrite fromhex_hex; [|unfold unit_be; repeat (constructor; [unfold isbyte; lia|]); constructor].
  cbn [bind].
  assert (E : utf16_encode [x] = unit_be x).
  { cbn [utf16_encode flat_map]. unfold utf16_char. replace (x <? 65536) with true by lia. apply app_nil_r. }
  rewrite <- E, utf16_ok; [reflexivity|]. constructor; [exact Hs|constructor].
Qed.

(* one declaration, on a token *)
Definition apply_decl (f : Z -> option (list Z)) (t : tkn) : tkn :=
  match t with TCode c => match f c with Some s => TText s | None => t end | TText _ => t end.
Definition pair_text (p : Z * list Z) (c : Z) : option (list Z) := if fst p =? c then Some (snd p) else None.

Lemma bfchar_ok wl p t : (0 < wl)%nat -> code_ok wl (fst p) -> Forall scalar (snd p) ->
  bfchar_token (PBytes (hexstr (be_digits wl (fst p)))) (Ok (PBytes (hexstr (utf16_encode (snd p))))) t =
  Ok (apply_decl (pair_text p) t).
Proof.
  intros Hw Hc Hs. unfold bfchar_token. rewrite hex_int_ok by assumption. cbn [bind].
  destruct t as [z|s]; [|reflexivity]. unfold apply_decl, pair_text. rewrite (Z.eqb_sym (fst p) z).
  destruct (z =? fst p); [|reflexivity]. rewrite hex_text_ok by assumption. reflexivity.
Qed.
Lemma bfrange_ok wl r t : (0 < wl)%nat -> rdecl_ok wl r -> forall o1 o2 o3, rdecl_code wl r = [o1; o2; o3] ->
  (forall c, t = TCode c -> 0 <= c) ->
  bfrange_token wl o1 (Ok o2) (Ok o3) t = Ok (apply_decl (fun c => rdecl_text c r) t).
Proof.
  intros Hw Hr o1 o2 o3 E Hp. destruct r as [a z x|a l]; cbn [rdecl_code] in E; injection E as <- <- <-; cbn [rdecl_ok] in Hr.
  - destruct Hr as (-> & Ha & Hz & Hx & Hk). unfold bfrange_token. rewrite hex_int_ok by assumption. cbn [bind].
    rewrite hex_int_ok by assumption. cbn [bind]. destruct t as [n|s]; [|reflexivity].
    unfold apply_decl, rdecl_text. destruct ((a <=? n) && (n <=? z)) eqn:Ein; [|reflexivity].
    rewrite (unit_be_digits x Hx). rewrite (hex_int_ok 2); [|lia|unfold code_ok; cbn; lia]. cbn [bind].
    change (Nat.eqb 2 2) with true. cbv iota. destruct (Hk n ltac:(lia)) as [H1 H2]. exact (range_target _ H1 H2).
  - destruct Hr as (Hne & Ha & Hz & Hs). unfold bfrange_token. rewrite hex_int_ok by assumption. cbn [bind].
    rewrite hex_int_ok by assumption. cbn [bind]. destruct t as [n|s]; [|reflexivity].
    unfold apply_decl, rdecl_text. destruct (Z.leb_spec a n); cbn [andb]; [|reflexivity].
    destruct (Z.leb_spec n (a + Z.of_nat (length l) - 1)).
    + rewrite nth_error_map. destruct (nth_error l (Z.to_nat (n - a))) as [u|] eqn:En; cbn [option_map of_opt bind].
      * rewrite hex_text_ok; [reflexivity|]. rewrite Forall_forall in Hs. apply Hs. eapply nth_error_In; eauto.
      * apply nth_error_None in En. lia.
    + replace (nth_error l (Z.to_nat (n - a))) with (@None (list Z)); [reflexivity|].
      symmetry. apply nth_error_None. lia.
Qed.

(* the loop over a list of items *)
Definition item_texts (it : citem) : list (Z -> option (list Z)) :=
  match it with
  | CChars ps => map pair_text ps
  | CRanges rs => map (fun r c => rdecl_text c r) rs
  | _ => []
  end.
Definition apply_all (fs : list (Z -> option (list Z))) (t : tkn) : tkn := fold_left (fun t f => apply_decl f t) fs t.
Lemma apply_all_text fs s : apply_all fs (TText s) = TText s.
Proof. induction fs as [|f r IH]; [reflexivity|exact IH]. Qed.
Lemma apply_all_code fs c : apply_all fs (TCode c) = match first_some (fun f => f c) fs with Some s => TText s | None => TCode c end.
Proof.
  induction fs as [|f r IH]; [reflexivity|]. cbn [apply_all fold_left first_some apply_decl]. fold (apply_all r).
  destruct (f c); [apply apply_all_text|exact IH].
Qed.
Lemma apply_all_app a b t : apply_all (a ++ b) t = apply_all b (apply_all a t).
Proof. apply fold_left_app. Qed.

Definition started (it : citem) : bool := match it with CChars _ | CRanges _ => true | _ => false end.
Definition nonneg (t : tkn) : Prop := match t with TCode c => 0 <= c | TText _ => True end.
Lemma apply_decl_nonneg f t : nonneg t -> nonneg (apply_decl f t).
Proof. destruct t as [c|s]; cbn; [|auto]. destruct (f c); cbn; auto. Qed.

Lemma nth_mid {A} (p : list A) x r : nth_error (p ++ x :: r) (length p) = Some x.
Proof. rewrite nth_error_app2 by lia. now rewrite Nat.sub_diag. Qed.
Lemma nth_mid1 {A} (p : list A) x y r : nth_error (p ++ x :: y :: r) (length p + 1) = Some y.
Proof. rewrite nth_error_app2 by lia. now replace (length p + 1 - length p)%nat with 1%nat by lia. Qed.
Lemma nth_mid2 {A} (p : list A) x y z r : nth_error (p ++ x :: y :: z :: r) (length p + 2) = Some z.
Proof. rewrite nth_error_app2 by lia. now replace (length p + 2 - length p)%nat with 2%nat by lia. Qed.

Ltac words := repeat match goal with |- context [is_word ?a (PStr ?b)] =>
  let v := eval vm_compute in (is_word a (PStr b)) in change (is_word a (PStr b)) with v end; cbn [andb negb].
Lemma chars_loop wl str ps : (0 < wl)%nat -> Forall (fun p => code_ok wl (fst p) /\ Forall scalar (snd p)) ps ->
  forall pre post f toks bk wl' cmap,
  cmap = pre ++ flat_map (fun p => [PBytes (hexstr (be_digits wl (fst p))); PBytes (hexstr (utf16_encode (snd p)))]) ps
             ++ PStr (B "endbfchar") :: post ->
  tu_loop (S (length ps) + f) cmap str (length pre) SecChar wl' toks bk =
  tu_loop f cmap str (length pre + 2 * length ps + 1) SecNone wl' (map (apply_all (map pair_text ps)) toks) bk.
Proof.
  intros Hw H. induction H as [|p ps Hp _ IH]; intros pre post f toks bk wl' cmap Ec.
  - cbn [length Nat.add flat_map app] in *. cbn [tu_loop]. subst cmap. rewrite nth_mid. words.
    cbn [map]. replace (map (apply_all []) toks) with toks by (symmetry; apply map_id).
    f_equal. lia.
  - cbn [flat_map app] in Ec. destruct Hp as [Hp1 Hp2].
    change (S (length (p :: ps)) + f)%nat with (S (S (length ps) + f))%nat. cbn [tu_loop].
    assert (E0 : nth_error cmap (length pre) = Some (PBytes (hexstr (be_digits wl (fst p))))) by (subst cmap; apply nth_mid).
    assert (E1 : nth_error cmap (length pre + 1) = Some (PBytes (hexstr (utf16_encode (snd p))))) by (subst cmap; apply nth_mid1).
    rewrite E0. unfold is_word at 1 2 3. cbn [andb negb].
    unfold cmap_at. rewrite E1. cbn [of_opt].
    rewrite (map_res_ok _ (apply_decl (pair_text p))) by (intros; now apply bfchar_ok). cbn [bind].
    replace (length pre + 2)%nat with (length (pre ++ [PBytes (hexstr (be_digits wl (fst p))); PBytes (hexstr (utf16_encode (snd p)))])) by (rewrite app_length; reflexivity).
    rewrite (IH _ post). 2:{ rewrite Ec, <- app_assoc. reflexivity. }
    rewrite app_length. cbn [length]. rewrite map_map. f_equal. lia.
Qed.
Lemma rdecl_three wl r : exists o1 o2 o3, rdecl_code wl r = [PBytes o1; o2; o3].
Proof. destruct r; cbn; eauto. Qed.
Lemma ranges_loop wl str rs : (0 < wl)%nat -> Forall (rdecl_ok wl) rs ->
  forall pre post f toks bk cmap, Forall nonneg toks ->
  cmap = pre ++ flat_map (rdecl_code wl) rs ++ PStr (B "endbfrange") :: post ->
  tu_loop (S (length rs) + f) cmap str (length pre) SecRange wl toks bk =
  tu_loop f cmap str (length pre + 3 * length rs + 1) SecNone wl (map (apply_all (map (fun r c => rdecl_text c r) rs)) toks) bk.
Proof.
  intros Hw H. induction H as [|p ps Hp _ IH]; intros pre post f toks bk cmap Hn Ec.
  - cbn [length Nat.add flat_map app] in *. cbn [tu_loop]. subst cmap. rewrite nth_mid. words.
    cbn [map]. replace (map (apply_all []) toks) with toks by (symmetry; apply map_id).
    f_equal. lia.
  - destruct (rdecl_three wl p) as (o1 & o2 & o3 & E). cbn [flat_map] in Ec. rewrite E in Ec. cbn [app] in Ec.
    change (S (length (p :: ps)) + f)%nat with (S (S (length ps) + f))%nat. cbn [tu_loop].
    assert (E0 : nth_error cmap (length pre) = Some (PBytes o1)) by (subst cmap; apply nth_mid).
    assert (E1 : nth_error cmap (length pre + 1) = Some o2) by (subst cmap; apply nth_mid1).
    assert (E2 : nth_error cmap (length pre + 2) = Some o3) by (subst cmap; apply nth_mid2).
    rewrite E0. unfold is_word at 1 2 3 4. cbn [andb negb is_word].
    unfold cmap_at. rewrite E1, E2. cbn [of_opt].
    rewrite (map_res_ok _ (apply_decl (fun c => rdecl_text c p))).
    2:{ intros t Ht. rewrite Forall_forall in Hn. specialize (Hn t Ht). apply bfrange_ok; auto. intros c ->. exact Hn. }
    cbn [bind].
    replace (length pre + 3)%nat with (length (pre ++ [PBytes o1; o2; o3])) by (rewrite app_length; reflexivity).
    rewrite (IH _ post).
    2:{ apply Forall_map. eapply Forall_impl; [|exact Hn]. intros. now apply apply_decl_nonneg. }
    2:{ rewrite Ec, <- app_assoc. reflexivity. }
    rewrite app_length. cbn [length]. rewrite map_map. f_equal. lia.
Qed.

Lemma is_word_iff w o : is_word w o = true <-> o = PStr w.
Proof.
  unfold is_word. destruct o; split; intro H; try discriminate.
  - apply beqb_eq in H. now subst.
  - injection H as ->. apply beqb_refl.
Qed.
Lemma is_word_no w o : o <> PStr w -> is_word w o = false.
Proof. intro H. destruct (is_word w o) eqn:E; [|reflexivity]. apply is_word_iff in E. contradiction. Qed.

Lemma hexstr_len wl c : length (hexstr (be_digits wl c)) = (2 * wl + 2)%nat.
Proof. unfold hexstr. cbn [length]. rewrite app_length, hexlify_length, be_digits_length. cbn. lia. Qed.
Lemma start_new wl str cs cmap i c bk wl' : tokenize_string str wl = Ok cs ->
  nth_error cmap (S i) = Some (PBytes (hexstr (be_digits wl c))) ->
  start_section cmap i str wl' [] bk = Ok (wl, map TCode cs, Some cs).
Proof.
  intros Ht En. unfold start_section, cmap_at. rewrite En. cbn [of_opt bind]. rewrite hexstr_len.
  replace (Nat.div (2 * wl + 2 - 2) 2) with wl.
  2:{ replace (2 * wl + 2 - 2)%nat with (wl * 2)%nat by lia. symmetry. apply Nat.div_mul. lia. }
  rewrite Ht. reflexivity.
Qed.
Lemma start_again wl str cs cmap i c toks : tokenize_string str wl = Ok cs -> (toks = [] -> cs = []) ->
  nth_error cmap (S i) = Some (PBytes (hexstr (be_digits wl c))) ->
  start_section cmap i str wl toks (Some cs) = Ok (wl, toks, Some cs).
Proof.
  intros Ht Hc En. destruct toks as [|t r]; [|reflexivity].
  rewrite (start_new wl str cs cmap i c) by assumption. rewrite (Hc eq_refl). reflexivity.
Qed.

(* one item, when the string has already been split into codes *)
Lemma section_first wl it : started it = true -> citem_ok wl it -> forall pre post,
  exists c, nth_error (pre ++ citem_code wl it ++ post) (S (length pre)) = Some (PBytes (hexstr (be_digits wl c))).
Proof.
  intros Hs Hi pre post. rewrite nth_error_app2 by lia. replace (S (length pre) - length pre)%nat with 1%nat by lia.
  destruct it as [o|lo hi|ps|rs]; try discriminate; cbn [citem_ok] in Hi; destruct Hi as [Hn _].
  - destruct ps as [|p ps]; [contradiction|]. eexists. reflexivity.
  - destruct rs as [|[a z x|a l] rs]; [contradiction| |]; eexists; reflexivity.
Qed.
Definition item_turns (it : citem) : nat :=
  match it with CChars ps => S (S (length ps)) | CRanges rs => S (S (length rs)) | _ => 1%nat end.
Lemma item_turns_le wl it : (item_turns it <= length (citem_code wl it))%nat.
Proof.
  destruct it as [o|lo hi|ps|rs]; cbn [item_turns citem_code length]; try lia; rewrite app_length; cbn [length].
  - assert (length ps <= length (flat_map (fun p : Z * list Z => [PBytes (hexstr (be_digits wl (fst p))); PBytes (hexstr (utf16_encode (snd p)))]) ps))%nat; [|lia].
    induction ps as [|p r IH]; [cbn; lia|]. cbn [flat_map app length]. lia.
  - assert (length rs <= length (flat_map (rdecl_code wl) rs))%nat; [|lia].
    induction rs as [|p r IH]; [cbn; lia|]. cbn [flat_map length]. rewrite app_length.
    destruct (rdecl_three wl p) as (? & ? & ? & ->). cbn [length]. lia.
Qed.
Lemma section_run wl str cs it : (0 < wl)%nat -> citem_ok wl it -> started it = true ->
  forall pre post f toks0 toks bk0 wl0, Forall nonneg toks ->
  start_section (pre ++ citem_code wl it ++ post) (length pre) str wl0 toks0 bk0 = Ok (wl, toks, Some cs) ->
  tu_loop (item_turns it + f) (pre ++ citem_code wl it ++ post) str (length pre) SecNone wl0 toks0 bk0 =
  tu_loop f (pre ++ citem_code wl it ++ post) str (length pre + length (citem_code wl it)) SecNone wl
    (map (apply_all (item_texts it)) toks) (Some cs).
Proof.
  intros Hw Hi Hs pre post f toks0 toks bk0 wl0 Hn Hst.
  destruct it as [o|lo hi|ps|rs]; try discriminate; cbn [citem_ok] in Hi; destruct Hi as [Hne Hok].
  - assert (L : length (citem_code wl (CChars ps)) = (2 * length ps + 2)%nat).
    { cbn [citem_code length]. rewrite app_length. cbn [length]. clear. induction ps as [|p r IH]; [reflexivity|]. cbn [flat_map app length]. lia. }
    rewrite L.
    change (item_turns (CChars ps) + f)%nat with (S (S (length ps) + f)). cbn [tu_loop].
    assert (E0 : nth_error (pre ++ citem_code wl (CChars ps) ++ post) (length pre) = Some (PStr (B "beginbfchar"))) by (cbn [citem_code app]; apply nth_mid).
    rewrite E0. words. rewrite Hst. cbn [bind].
    replace (length pre + 1)%nat with (length (pre ++ [PStr (B "beginbfchar")])) by (rewrite app_length; reflexivity).
    rewrite (chars_loop wl str ps Hw Hok _ post).
    2:{ rewrite <- app_assoc. cbn [citem_code app]. rewrite <- app_assoc. reflexivity. }
    rewrite app_length. cbn [length item_texts]. f_equal. lia.
  - assert (L : length (citem_code wl (CRanges rs)) = (3 * length rs + 2)%nat).
    { cbn [citem_code length]. rewrite app_length. cbn [length]. clear. induction rs as [|p r IH]; [reflexivity|]. cbn [flat_map]. rewrite app_length.
      destruct (rdecl_three wl p) as (? & ? & ? & ->). cbn [length]. lia. }
    rewrite L.
    change (item_turns (CRanges rs) + f)%nat with (S (S (length rs) + f)). cbn [tu_loop].
    assert (E0 : nth_error (pre ++ citem_code wl (CRanges rs) ++ post) (length pre) = Some (PStr (B "beginbfrange"))) by (cbn [citem_code app]; apply nth_mid).
    rewrite E0. words. rewrite Hst. cbn [bind].
    replace (length pre + 1)%nat with (length (pre ++ [PStr (B "beginbfrange")])) by (rewrite app_length; reflexivity).
    rewrite (ranges_loop wl str rs Hw Hok _ post); [|assumption|].
    2:{ rewrite <- app_assoc. cbn [citem_code app]. rewrite <- app_assoc. reflexivity. }
    rewrite app_length. cbn [length item_texts]. f_equal. lia.
Qed.
Lemma other_run wl str it : citem_ok wl it -> started it = false ->
  forall pre post f toks bk wl0,
  tu_loop (S f) (pre ++ citem_code wl it ++ post) str (length pre) SecNone wl0 toks bk =
  tu_loop f (pre ++ citem_code wl it ++ post) str (length pre + length (citem_code wl it)) SecNone wl0 toks bk.
Proof.
  intros Hi Hs pre post f toks bk wl0. destruct it as [o|lo hi|ps|rs]; try discriminate; cbn [tu_loop].
  - cbn [citem_code app]. rewrite nth_mid. cbn [citem_ok map In] in Hi.
    rewrite !is_word_no; [reflexivity|..]; intro C; apply Hi; rewrite C; cbn; tauto.
  - cbn [citem_code app]. rewrite nth_mid. words. reflexivity.
Qed.
Lemma nonneg_all fs toks : Forall nonneg toks -> Forall nonneg (map (apply_all fs) toks).
Proof.
  intro H. apply Forall_map. eapply Forall_impl; [|exact H]. intros t Ht. revert t Ht.
  induction fs as [|f r IH]; intros t Ht; [exact Ht|]. cbn [apply_all fold_left]. apply IH. now apply apply_decl_nonneg.
Qed.
Lemma loop_end f cmap str wl toks bk : tu_loop (S f) cmap str (length cmap) SecNone wl toks bk = Ok (toks, bk).
Proof. cbn [tu_loop]. replace (nth_error cmap (length cmap)) with (@None obj); [reflexivity|]. symmetry. apply nth_error_None. lia. Qed.

Lemma items_started wl str cs l : (0 < wl)%nat -> tokenize_string str wl = Ok cs -> Forall (citem_ok wl) l ->
  forall pre f toks, Forall nonneg toks -> (toks = [] -> cs = []) -> (length (cmap_code wl l) < f)%nat ->
  tu_loop f (pre ++ cmap_code wl l) str (length pre) SecNone wl toks (Some cs) =
  Ok (map (apply_all (flat_map item_texts l)) toks, Some cs).
Proof.
  intros Hw Ht H. induction H as [|it l Hi _ IH]; intros pre f toks Hn Hc Hf.
  - destruct f as [|f]; [cbn in Hf; lia|]. cbn [cmap_code flat_map] in *. rewrite app_nil_r. rewrite loop_end. do 2 f_equal. symmetry. apply map_id.
  - cbn [cmap_code flat_map] in *. fold (cmap_code wl l) in *. rewrite app_length in Hf.
    assert (G : forall f', (length (cmap_code wl l) < f')%nat -> forall toks', Forall nonneg toks' -> (toks' = [] -> cs = []) ->
      tu_loop f' (pre ++ citem_code wl it ++ cmap_code wl l) str (length pre + length (citem_code wl it)) SecNone wl toks' (Some cs) =
      Ok (map (apply_all (flat_map item_texts l)) toks', Some cs)).
    { intros f' Hf' toks' Hn' Hc'. rewrite <- (IH (pre ++ citem_code wl it) f' toks' Hn' Hc' Hf').
      rewrite app_length, <- app_assoc. reflexivity. }
    pose proof (item_turns_le wl it) as HT.
    replace f with (item_turns it + (f - item_turns it))%nat by lia.
    destruct (started it) eqn:Es.
    + destruct (section_first wl it Es Hi pre (cmap_code wl l)) as [c Ec].
      pose proof (start_again wl str cs _ _ c toks Ht Hc Ec) as St.
      rewrite (section_run wl str cs it Hw Hi Es pre (cmap_code wl l) _ toks toks (Some cs) wl Hn St).
      rewrite G; [|lia|now apply nonneg_all|destruct toks; [auto|discriminate]].
      rewrite map_map. do 2 f_equal. apply map_ext. intro t. symmetry. apply apply_all_app.
    + assert (T : item_turns it = 1%nat /\ item_texts it = []) by (destruct it; try discriminate; split; reflexivity).
      destruct T as [T1 ->]. rewrite T1 in *. change (1 + (f - 1))%nat with (S (f - 1)). rewrite other_run by assumption.
      rewrite G; [reflexivity|lia|assumption|assumption].
Qed.
Lemma items_fresh wl str cs l : (0 < wl)%nat -> tokenize_string str wl = Ok cs -> Forall (fun c => 0 <= c) cs ->
  Forall (citem_ok wl) l -> has_section l ->
  forall pre f wl0, (length (cmap_code wl l) < f)%nat ->
  tu_loop f (pre ++ cmap_code wl l) str (length pre) SecNone wl0 [] None =
  Ok (map (apply_all (flat_map item_texts l)) (map TCode cs), Some cs).
Proof.
  intros Hw Ht Hcs H. induction H as [|it l Hi Hl IH]; intros Hsec pre f wl0 Hf.
  - destruct Hsec as (it & C & _). contradiction.
  - cbn [cmap_code flat_map] in *. fold (cmap_code wl l) in *. rewrite app_length in Hf.
    pose proof (item_turns_le wl it) as HT.
    replace f with (item_turns it + (f - item_turns it))%nat by lia.
    destruct (started it) eqn:Es.
    + destruct (section_first wl it Es Hi pre (cmap_code wl l)) as [c Ec].
      pose proof (start_new wl str cs _ _ c None wl0 Ht Ec) as St.
      assert (Hn : Forall nonneg (map TCode cs)) by (apply Forall_map; exact Hcs).
      rewrite (section_run wl str cs it Hw Hi Es pre (cmap_code wl l) _ [] (map TCode cs) None wl0 Hn St).
      pose proof (items_started wl str cs l Hw Ht Hl (pre ++ citem_code wl it) (f - item_turns it) (map (apply_all (item_texts it)) (map TCode cs))) as G.
      rewrite app_length, <- app_assoc in G. rewrite G; [|now apply nonneg_all|destruct cs; [auto|discriminate]|lia].
      rewrite map_map. do 2 f_equal. apply map_ext. intro t. symmetry. apply apply_all_app.
    + assert (T : item_turns it = 1%nat /\ item_texts it = []) by (destruct it; try discriminate; split; reflexivity).
      destruct T as [T1 ->]. rewrite T1 in *. change (1 + (f - 1))%nat with (S (f - 1)). rewrite other_run by assumption.
      assert (Hs' : has_section l).
      { destruct Hsec as (x & [<-|Hx] & Hy); [destruct it; try discriminate; contradiction|]. exists x. auto. }
      pose proof (IH Hs' (pre ++ citem_code wl it) (f - 1)%nat wl0) as G.
      rewrite app_length, <- app_assoc in G. rewrite G; [reflexivity|lia].
Qed.
Lemma first_some_map {A C D} (g : A -> C) (f : C -> option D) l : first_some f (map g l) = first_some (fun x => f (g x)) l.
Proof. induction l as [|x r IH]; [reflexivity|]. cbn. now rewrite IH. Qed.
Lemma first_some_app {A C} (f : A -> option C) a b : first_some f (a ++ b) = match first_some f a with Some x => Some x | None => first_some f b end.
Proof. induction a as [|x r IH]; [reflexivity|]. cbn. destruct (f x); [reflexivity|exact IH]. Qed.
Lemma first_some_ext {A C} (f g : A -> option C) l : (forall x, f x = g x) -> first_some f l = first_some g l.
Proof. intro H. induction l as [|x r IH]; [reflexivity|]. cbn. rewrite H, IH. reflexivity. Qed.
Lemma items_text l c : first_some (fun f => f c) (flat_map item_texts l) = first_some (citem_text c) l.
Proof.
  induction l as [|it l IH]; [reflexivity|]. cbn [flat_map first_some]. rewrite first_some_app, IH.
  replace (first_some (fun f => f c) (item_texts it)) with (citem_text c it); [reflexivity|].
  destruct it as [o|lo hi|ps|rs]; cbn [item_texts citem_text]; try reflexivity; rewrite first_some_map; reflexivity.
Qed.

Lemma tounicode_ok wl l cs str : (0 < wl)%nat -> Forall (citem_ok wl) l -> has_section l ->
  Forall (code_ok wl) cs -> tokenize_string str wl = Ok cs ->
  apply_tounicode (cmap_code wl l) str = Ok (concat (map (cmap_text l) cs), cs).
Proof.
  intros Hw Hl Hs Hc Ht. unfold apply_tounicode.
  assert (Hn : Forall (fun c => 0 <= c) cs) by (eapply Forall_impl; [|exact Hc]; unfold code_ok; cbv beta; intros; lia).
  pose proof (items_fresh wl str cs l Hw Ht Hn Hl Hs [] (S (length (cmap_code wl l))) 2%nat) as E.
  cbn [app length] in E. rewrite E by lia. cbn [bind of_opt]. do 2 f_equal. f_equal.
  rewrite !map_map. apply map_ext. intro c. rewrite apply_all_code, items_text. unfold cmap_text.
  destruct (first_some (citem_text c) l); reflexivity.
Qed.
Lemma tounicode_literal wl l cs s : (0 < wl)%nat -> Forall (citem_ok wl) l -> has_section l ->
  Forall (code_ok wl) cs -> escapes (codes_bytes wl cs) s ->
  apply_tounicode (cmap_code wl l) (literal s) = Ok (concat (map (cmap_text l) cs), cs).
Proof. intros. apply tounicode_ok; auto. now apply tokenize_literal. Qed.
Lemma tounicode_hex wl l cs : (0 < wl)%nat -> Forall (citem_ok wl) l -> has_section l ->
  Forall (code_ok wl) cs ->
  apply_tounicode (cmap_code wl l) (hexstr (codes_bytes wl cs)) = Ok (concat (map (cmap_text l) cs), cs).
Proof. intros. apply tounicode_ok; auto. now apply tokenize_hex. Qed.

(* ---------- widths ---------- *)
Lemma put_run_get l : forall k t c d, tab_get (put_run k l t) c d =
  match (if k <=? c then nth_error l (Z.to_nat (c - k)) else None) with Some x => x | None => tab_get t c d end.
Proof.
  induction l as [|x r IH]; intros k t c d.
  - cbn [put_run]. destruct (k <=? c); [destruct (Z.to_nat (c - k)); reflexivity|reflexivity].
  - cbn [put_run]. rewrite IH. destruct (Z.leb_spec (k + 1) c) as [H|H].
    + replace (k <=? c) with true by lia.
      replace (Z.to_nat (c - k)) with (S (Z.to_nat (c - (k + 1)))) by lia. cbn [nth_error].
      destruct (nth_error r _) eqn:E; [reflexivity|]. cbn [tab_get]. now replace (k =? c) with false by lia.
    + cbn [tab_get]. destruct (Z.eqb_spec k c) as [->|Hn].
      * rewrite Z.leb_refl, Z.sub_diag. reflexivity.
      * now replace (k <=? c) with false by lia.
Qed.
Lemma put_range_get a b x t c d : tab_get (put_range a b x t) c d =
  if (a <=? c) && (c <=? b) then x else tab_get t c d.
Proof.
  unfold put_range, zrange.
  assert (G : forall n a t, tab_get (fold_left (fun t k => (k, x) :: t) (zseq a n) t) c d =
     if (a <=? c) && (c <? a + Z.of_nat n) then x else tab_get t c d).
  { induction n as [|n IH]; intros a0 t0.
    - cbn [zseq fold_left]. now replace ((a0 <=? c) && (c <? a0 + Z.of_nat 0)) with false by lia.
    - cbn [zseq fold_left]. rewrite IH. cbn [tab_get]. destruct (Z.eqb_spec a0 c).
      + replace ((a0 <=? c) && (c <? a0 + Z.of_nat (S n))) with true by lia. now destruct ((a0 + 1 <=? c) && _).
      + replace ((a0 <=? c) && (c <? a0 + Z.of_nat (S n))) with ((a0 + 1 <=? c) && (c <? a0 + 1 + Z.of_nat n)) by lia. reflexivity. }
  rewrite G. replace ((a <=? c) && (c <? a + Z.of_nat (Z.to_nat (b + 1 - a)))) with ((a <=? c) && (c <=? b)) by lia. reflexivity.
Qed.
Lemma w_loop_ok ds : forall t, exists t', w_loop (flat_map wdecl_code ds) t = Ok t' /\
  forall c d, tab_get t' c d = match first_some (wdecl_width c) (rev ds) with Some x => x | None => tab_get t c d end.
Proof.
  induction ds as [|w ds IH]; intro t; [exists t; split; reflexivity|].
  cbn [flat_map]. destruct w as [a ws|a z x].
  - cbn [wdecl_code app w_loop].
    assert (E : (let* k := match ws with [] => Ok 0 | _ => as_code (PInt a) end in w_loop (flat_map wdecl_code ds) (put_run k ws t)) =
                w_loop (flat_map wdecl_code ds) (put_run a ws t)) by (destruct ws; reflexivity).
    rewrite E. destruct (IH (put_run a ws t)) as (t' & E' & G). exists t'. split; [exact E'|].
    intros c d. rewrite G. cbn [rev]. rewrite first_some_app. destruct (first_some (wdecl_width c) (rev ds)); [reflexivity|].
    rewrite put_run_get. cbn [first_some wdecl_width]. destruct (if a <=? c then _ else _); reflexivity.
  - cbn [wdecl_code app]. change (w_loop (PInt a :: PInt z :: x :: flat_map wdecl_code ds) t)
      with (w_loop (flat_map wdecl_code ds) (put_range a z x t)).
    destruct (IH (put_range a z x t)) as (t' & E' & G). exists t'. split; [exact E'|].
    intros c d. rewrite G. cbn [rev]. rewrite first_some_app. destruct (first_some (wdecl_width c) (rev ds)); [reflexivity|].
    rewrite put_range_get. cbn [first_some wdecl_width]. destruct ((a <=? c) && (c <=? z)); reflexivity.
Qed.
Lemma widths_ok ds dw : ds <> [] -> exists f, prepare_w (PList (flat_map wdecl_code ds)) dw = Ok f /\
  forall c, f c = match first_some (wdecl_width c) (rev ds) with Some x => x | None => dw end.
Proof.
  intro Hn. destruct (w_loop_ok ds []) as (t & E & G).
  destruct (flat_map wdecl_code ds) as [|o l] eqn:Ef.
  { destruct ds as [|[?|?] ?]; [contradiction|discriminate|discriminate]. }
  unfold prepare_w. rewrite E. eexists. split; [reflexivity|]. intro c. cbn [bind]. rewrite G. reflexivity.
Qed.
Lemma simple_widths ws first c : prepare_widths ws first c =
  match (if first <=? c then nth_error ws (Z.to_nat (c - first)) else None) with Some w => w | None => PInt 500 end.
Proof.
  unfold prepare_widths. destruct (Z.leb_spec first c).
  - replace (c - first <? 0) with false by lia. cbn [orb].
    destruct (Z.leb_spec (Z.of_nat (length ws)) (c - first)).
    + replace (nth_error ws (Z.to_nat (c - first))) with (@None obj); [reflexivity|]. symmetry. apply nth_error_None. lia.
    + rewrite (nth_error_nth' ws PNone) by lia. reflexivity.
  - now replace (c - first <? 0) with true by lia.
Qed.

(* ---------- simple fonts ---------- *)
Lemma mac_ascii raw : Forall (fun c => 0 <= c < 128) raw -> mac_roman raw = raw.
Proof. induction 1 as [|c r Hc _ IH]; [reflexivity|]. cbn [mac_roman map]. replace (c <? 128) with true by lia. f_equal. exact IH. Qed.
Lemma cp1252_ascii raw : Forall (fun c => 0 <= c < 128) raw -> cp1252 raw = Ok raw.
Proof.
  intro H. unfold cp1252. rewrite (map_res_ok _ (fun c => c)); [now rewrite map_id|].
  intros c Hc. rewrite Forall_forall in H. specialize (H c Hc). cbv beta in H.
  now replace ((128 <=? c) && (c <? 160)) with false by lia.
Qed.
Lemma encoding_ascii enc raw s : Forall (fun c => 0 <= c < 128) raw -> escapes raw s ->
  apply_encoding enc (literal s) = Ok (raw, raw).
Proof.
  intros H E. unfold apply_encoding, literal. rewrite inner1, (unescape_inverse _ _ E). cbn [bind].
  destruct enc as [| | | |e| | | | |]; try (rewrite cp1252_ascii by assumption; reflexivity).
  destruct (beqb e N_MacRoman); [now rewrite mac_ascii|now rewrite cp1252_ascii].
Qed.
