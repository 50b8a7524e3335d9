(* Filters: lemmas behind C11-C14 *)
From Coq Require Import String ZifyBool ZifyNat.
From Verif Require Import PyBase Model_Filters Model_Objects Spec_Objects Spec_Filters Facts_Base Facts_Token Facts_Obj.

Definition isbyte (c : Z) : Prop := 0 <= c < 256.

(* ---------- big-endian numbers ---------- *)
Lemma from_be_app s c : from_be (s ++ [c]) = 256 * from_be s + c.
Proof. unfold from_be. rewrite fold_left_app. auto. Qed.

Lemma from_be_range s : Forall isbyte s -> 0 <= from_be s < 256 ^ Z.of_nat (length s).
Proof.
  induction s as [|c s IH] using rev_ind; intros H; [cbn; lia|].
  apply Forall_app in H as [H1 H2]. inversion H2; subst. unfold isbyte in *. specialize (IH H1).
  rewrite from_be_app, app_length. cbn [length].
  replace (Z.of_nat (length s + 1)) with (Z.succ (Z.of_nat (length s))) by lia. rewrite Z.pow_succ_r by lia. lia.
Qed.

Lemma be_digits_from_be s : Forall isbyte s -> be_digits (length s) (from_be s) = s.
Proof.
  induction s as [|c s IH] using rev_ind; intros H; auto.
  apply Forall_app in H as [H1 H2]. inversion H2; subst. unfold isbyte in *.
  rewrite from_be_app, app_length. cbn [length]. rewrite Nat.add_1_r. cbn [be_digits].
  replace ((256 * from_be s + c) / 256) with (from_be s) by lia.
  replace ((256 * from_be s + c) mod 256) with c by lia. rewrite IH; auto.
Qed.

Lemma be_digits_length b : forall n, length (be_digits b n) = b.
Proof. induction b; intros n; cbn; auto. rewrite app_length, IHb. cbn. lia. Qed.

Lemma be_digits_byte b : forall n, Forall isbyte (be_digits b n).
Proof.
  induction b; intros n; cbn; [constructor|]. apply Forall_app; split; auto. constructor; auto. unfold isbyte. lia.
Qed.

Lemma from_be_digits b : forall n, 0 <= n < 256 ^ Z.of_nat b -> from_be (be_digits b n) = n.
Proof.
  induction b; intros n H; [cbn in *; lia|]. cbn [be_digits]. rewrite from_be_app.
  replace (Z.of_nat (S b)) with (Z.succ (Z.of_nat b)) in H by lia. rewrite Z.pow_succ_r in H by lia.
  rewrite IHb; lia.
Qed.

(* ---------- hexadecimal ---------- *)
Lemma dval_hexdig d : 0 <= d < 16 -> dval (hexdig d) = d.
Proof. intros H. unfold hexdig, dval. destruct (d <? 10) eqn:E; repeat (match goal with |- context [if ?b then _ else _] => destruct b eqn:? end); lia. Qed.

Lemma unhex_hex s : Forall isbyte s -> unhexlify (hexlify_up s) = Some s.
Proof.
  induction 1 as [|c s H HS IH]; auto. unfold isbyte in H. cbn [hexlify_up unhexlify].
  rewrite !dval_hexdig by lia. replace (c / 16 <? 16) with true by lia. replace (c mod 16 <? 16) with true by lia.
  cbn [andb]. rewrite IH. cbn [option_map]. f_equal. f_equal. lia.
Qed.

(* ---------- ASCII 85 ---------- *)
Lemma a85_chunk_acc w : 0 <= w < 4294967296 ->
  fold_left (fun a y => 85 * a + (y - 33)) (a85_chunk w) 0 = w /\
  Forall (fun c => 33 <= c <= 117) (a85_chunk w).
Proof.
  intros H. unfold a85_chunk.
  set (q1 := w / 85). set (q2 := q1 / 85). set (q3 := q2 / 85). set (q4 := q3 / 85).
  assert (E2 : w / 7225 = q2) by (unfold q2, q1; rewrite Z.div_div by lia; auto).
  assert (E3 : w / 614125 = q3) by (unfold q3, q2, q1; rewrite !Z.div_div by lia; auto).
  assert (E4 : w / 52200625 = q4) by (unfold q4, q3, q2, q1; rewrite !Z.div_div by lia; auto).
  rewrite E2, E3, E4. cbn [fold_left].
  assert (B4 : 0 <= q4 < 85) by (rewrite <- E4; lia).
  split; [unfold q4, q3, q2, q1 in *; lia|].
  repeat constructor; lia.
Qed.

Lemma a85_dec_step curr x r : 33 <= x <= 117 -> (length curr < 4)%nat -> a85_dec curr (x :: r) = a85_dec (curr ++ [x]) r.
Proof.
  intros H L. cbn [a85_dec]. replace ((33 <=? x) && (x <=? 117)) with true by lia.
  replace (Nat.eqb (length (curr ++ [x])) 5) with false; auto.
  symmetry. apply Nat.eqb_neq. rewrite app_length. cbn [length]. lia.
Qed.

Lemma a85_dec_last curr x r d c : 33 <= x <= 117 -> length curr = 4%nat ->
  fold_left (fun a y => 85 * a + (y - 33)) (curr ++ [x]) 0 < 4294967296 ->
  a85_dec [] r = Some (d, c) ->
  a85_dec curr (x :: r) = Some (be_digits 4 (fold_left (fun a y => 85 * a + (y - 33)) (curr ++ [x]) 0) ++ d, c).
Proof.
  intros H L A R. cbn [a85_dec]. replace ((33 <=? x) && (x <=? 117)) with true by lia.
  replace (Nat.eqb (length (curr ++ [x])) 5) with true.
  2:{ symmetry. apply Nat.eqb_eq. rewrite app_length. cbn [length]. lia. }
  replace (fold_left (fun a y => 85 * a + (y - 33)) (curr ++ [x]) 0 <? 4294967296) with true by lia.
  rewrite R. auto.
Qed.

(* five characters of the alphabet decode to a word *)
Lemma a85_dec_five x1 x2 x3 x4 x5 r d c :
  Forall (fun c => 33 <= c <= 117) [x1; x2; x3; x4; x5] ->
  fold_left (fun a y => 85 * a + (y - 33)) [x1; x2; x3; x4; x5] 0 < 4294967296 ->
  a85_dec [] r = Some (d, c) ->
  a85_dec [] (x1 :: x2 :: x3 :: x4 :: x5 :: r) =
    Some (be_digits 4 (fold_left (fun a y => 85 * a + (y - 33)) [x1; x2; x3; x4; x5] 0) ++ d, c).
Proof.
  intros F A R. inversion F as [|? ? F1 G1]; inversion G1 as [|? ? F2 G2]; inversion G2 as [|? ? F3 G3];
  inversion G3 as [|? ? F4 G4]; inversion G4 as [|? ? F5 G5]; subst.
  rewrite !a85_dec_step by (cbn; auto; lia). cbn [app]. rewrite (a85_dec_last _ x5 r d c); auto.
Qed.

Lemma a85_dec_z r d c : a85_dec [] r = Some (d, c) -> a85_dec [] (122 :: r) = Some ([0; 0; 0; 0] ++ d, c).
Proof. intros R. cbn [a85_dec]. cbn [Z.leb Z.compare Pos.compare Pos.compare_cont andb Z.eqb Pos.eqb]. rewrite R. auto. Qed.

Lemma be4 n : be_digits 4 n = [n / 16777216 mod 256; n / 65536 mod 256; n / 256 mod 256; n mod 256].
Proof.
  cbn [be_digits app]. rewrite !Z.div_div by lia. auto.
Qed.

Definition uu : bytes := [117; 117; 117; 117].

Lemma a85_dec_uu : a85_dec [] uu = Some ([], uu).
Proof. reflexivity. Qed.
Lemma a85_dec_u k : (k <= 4)%nat -> a85_dec [] (repeat 117 k) = Some ([], repeat 117 k).
Proof. intros. do 5 (destruct k as [|k]; [reflexivity|]). lia. Qed.

(* encoding then decoding, with the 'uuuu' padding of the decoder *)
Lemma a85_roundtrip s : Forall isbyte s -> forall f, (length s <= f)%nat ->
  exists d curr, a85_dec [] (a85_enc f s ++ uu) = Some (d, curr) /\
    (length curr <= 4)%nat /\ length d = (length s + (4 - length curr))%nat /\ firstn (length s) d = s.
Proof.
  induction s as [s IH] using list_len_ind. intros H f L.
  destruct s as [|a s].
  { exists [], uu. destruct f; auto. }
  destruct f as [|f]; [cbn in L; lia|].
  destruct s as [|b s]; [|destruct s as [|c s]; [|destruct s as [|d s]]].
  - (* one byte *)
    inversion H; subst. unfold isbyte in *. cbn [a85_enc firstn length Nat.sub Nat.eqb repeat app].
    set (w := a85_word [a; 0; 0; 0]).
    assert (Ew : w = a * 16777216) by (unfold w, a85_word, from_be; cbn [fold_left]; lia).
    destruct (a85_chunk_acc w ltac:(lia)) as [A F].
    unfold a85_chunk in *. cbn [firstn app].
    inversion F as [|? ? F1 G1]; inversion G1 as [|? ? F2 G2]; subst.
    set (x1 := 33 + w / 52200625) in *. set (x2 := 33 + w / 614125 mod 85) in *.
    exists (be_digits 4 (fold_left (fun a y => 85 * a + (y - 33)) [x1; x2; 117; 117; 117] 0) ++ []), [117].
    assert (R : a < (256 : Z)) by lia.
    assert (V : a * 16777216 <= fold_left (fun a y => 85 * a + (y - 33)) [x1; x2; 117; 117; 117] 0 < (a + 1) * 16777216).
    { cbn [fold_left] in *. lia. }
    split; [|split; [cbn; lia|split; [rewrite app_nil_r, be_digits_length; cbn; lia|]]].
    + apply a85_dec_five; auto. repeat constructor; lia. lia.
    + rewrite app_nil_r, be4. cbn [length firstn]. f_equal. lia.
  - (* two bytes *)
    assert (J : isbyte a /\ isbyte b) by (inversion H as [|? ? J1 J']; inversion J' as [|? ? J2 J'']; auto). destruct J as (J1 & J2). unfold isbyte in *. cbn [a85_enc firstn length Nat.sub Nat.eqb repeat app].
    set (w := a85_word [a; b; 0; 0]).
    assert (Ew : w = a * 16777216 + b * 65536) by (unfold w, a85_word, from_be; cbn [fold_left]; lia).
    destruct (a85_chunk_acc w ltac:(lia)) as [A F].
    unfold a85_chunk in *. cbn [firstn app].
    inversion F as [|? ? F1 G1]; inversion G1 as [|? ? F2 G2]; inversion G2 as [|? ? F3 G3]; subst.
    set (x1 := 33 + w / 52200625) in *. set (x2 := 33 + w / 614125 mod 85) in *. set (x3 := 33 + w / 7225 mod 85) in *.
    exists (be_digits 4 (fold_left (fun a y => 85 * a + (y - 33)) [x1; x2; x3; 117; 117] 0) ++ []), [117; 117].
    assert (V : a * 16777216 + b * 65536 <= fold_left (fun a y => 85 * a + (y - 33)) [x1; x2; x3; 117; 117] 0 < a * 16777216 + (b + 1) * 65536).
    { cbn [fold_left] in *. lia. }
    split; [|split; [cbn; lia|split; [rewrite app_nil_r, be_digits_length; cbn; lia|]]].
    + apply a85_dec_five; auto. repeat constructor; lia. lia.
    + rewrite app_nil_r, be4. cbn [length firstn]. f_equal; [|f_equal]; lia.
  - (* three bytes *)
    assert (J : isbyte a /\ isbyte b /\ isbyte c) by (inversion H as [|? ? J1 J']; inversion J' as [|? ? J2 J'']; inversion J'' as [|? ? J3 J4]; auto). destruct J as (J1 & J2 & J3). unfold isbyte in *. cbn [a85_enc firstn length Nat.sub Nat.eqb repeat app].
    set (w := a85_word [a; b; c; 0]).
    assert (Ew : w = a * 16777216 + b * 65536 + c * 256) by (unfold w, a85_word, from_be; cbn [fold_left]; lia).
    destruct (a85_chunk_acc w ltac:(lia)) as [A F].
    unfold a85_chunk in *. cbn [firstn app].
    inversion F as [|? ? F1 G1]; inversion G1 as [|? ? F2 G2]; inversion G2 as [|? ? F3 G3]; inversion G3 as [|? ? F4 G4]; subst.
    set (x1 := 33 + w / 52200625) in *. set (x2 := 33 + w / 614125 mod 85) in *. set (x3 := 33 + w / 7225 mod 85) in *.
    set (x4 := 33 + w / 85 mod 85) in *.
    exists (be_digits 4 (fold_left (fun a y => 85 * a + (y - 33)) [x1; x2; x3; x4; 117] 0) ++ []), [117; 117; 117].
    assert (V : a * 16777216 + b * 65536 + c * 256 <= fold_left (fun a y => 85 * a + (y - 33)) [x1; x2; x3; x4; 117] 0 < a * 16777216 + b * 65536 + (c + 1) * 256).
    { cbn [fold_left] in *. lia. }
    split; [|split; [cbn; lia|split; [rewrite app_nil_r, be_digits_length; cbn; lia|]]].
    + apply a85_dec_five; auto. repeat constructor; lia. lia.
    + rewrite app_nil_r, be4. cbn [length firstn]. f_equal; [|f_equal; [|f_equal]]; lia.
  - (* four bytes or more *)
    assert (HB : Forall isbyte [a; b; c; d]).
    { repeat match goal with H : Forall _ (_ :: _) |- _ => inversion H; clear H; subst end. repeat (apply Forall_cons; [assumption|]); apply Forall_nil. }
    assert (HS : Forall isbyte s).
    { repeat match goal with H : Forall _ (_ :: _) |- _ => inversion H; clear H; subst end. auto. }
    destruct (IH s ltac:(cbn; lia) HS f ltac:(cbn in L; lia)) as (dd & curr & D & LC & LD & FR).
    cbn [a85_enc firstn length Nat.sub Nat.eqb repeat app skipn].
    set (w := a85_word [a; b; c; d]).
    pose proof (from_be_range _ HB) as RG. change (from_be [a; b; c; d]) with w in RG.
    change (256 ^ Z.of_nat (length [a; b; c; d])) with 4294967296 in RG.
    pose proof (be_digits_from_be _ HB) as BD. change (from_be [a; b; c; d]) with w in BD.
    change (length [a; b; c; d]) with 4%nat in BD.
    assert (X : exists dd', a85_dec [] (((if w =? 0 then [122] else a85_chunk w) ++ a85_enc f s) ++ uu) = Some ([a; b; c; d] ++ dd', curr) /\ dd' = dd).
    { exists dd. split; auto. destruct (w =? 0) eqn:E.
      - assert (W0 : w = 0) by lia. rewrite W0 in BD. cbn [app]. rewrite (a85_dec_z _ _ _ D). vm_compute in BD. inversion BD. reflexivity.
      - destruct (a85_chunk_acc w RG) as [A F].
        assert (AC : a85_chunk w = [33 + w / 52200625; 33 + w / 614125 mod 85; 33 + w / 7225 mod 85; 33 + w / 85 mod 85; 33 + w mod 85]) by reflexivity.
        rewrite AC in *. cbn [app].
        rewrite (a85_dec_five _ _ _ _ _ _ dd curr); auto; rewrite A; [rewrite BD; auto|lia]. }
    destruct X as (dd' & X & ->). exists ([a; b; c; d] ++ dd), curr. split; auto. split; auto.
    split; [cbn [app length]; rewrite LD; destruct (length curr) as [|[|[|[|?]]]]; lia|]. cbn [app length firstn]. rewrite FR. auto.
Qed.

Lemma skipn_app_2 (a b : Z) r : skipn 2 (a :: b :: r) = r. Proof. reflexivity. Qed.

Theorem a85_inverse s : Forall isbyte s -> a85decode (a85encode s) = Some s.
Proof.
  intros H. destruct (a85_roundtrip s H (length s) ltac:(lia)) as (d & curr & D & LC & LD & FR).
  unfold a85decode, a85encode.
  change (B "<~") with [60; 126]. change (B "~>") with [126; 62].
  set (e := a85_enc (length s) s) in *.
  assert (L : length ([60; 126] ++ e ++ [126; 62]) = (length e + 4)%nat) by (rewrite !app_length; cbn; lia).
  rewrite L.
  replace (skipn (length e + 4 - 2) ([60; 126] ++ e ++ [126; 62])) with [126; 62].
  2:{ rewrite app_assoc. replace (length e + 4 - 2)%nat with (length ([60; 126] ++ e)) by (rewrite app_length; cbn; lia).
      symmetry. apply skipn_app_len. }
  cbn [beqb Z.eqb Pos.eqb andb negb].
  replace (starts [60; 126] ([60; 126] ++ e ++ [126; 62])) with true by reflexivity.
  replace (firstn (length e + 4 - 4) (skipn 2 ([60; 126] ++ e ++ [126; 62]))) with e.
  2:{ cbn [app]. rewrite skipn_app_2. replace (length e + 4 - 4)%nat with (length e) by lia. symmetry. apply firstn_app_len. }
  change [117; 117; 117; 117] with uu. rewrite D. f_equal. rewrite LD.
  replace (length s + (4 - length curr) - (4 - length curr))%nat with (length s) by lia. auto.
Qed.

Section WithZlib.
Context {ZL : Zlib}.

Lemma split_ws_nospace s : s <> [] -> Forall (fun c => inb c WS = false) s -> split_ws s = [s].
Proof.
  intros N H. unfold split_ws.
  assert (G : forall s cur, Forall (fun c => inb c WS = false) s -> cur <> [] -> split_ws_aux cur s = [rev cur ++ s]).
  { clear. induction s as [|c s IH]; intros cur H NE.
    - destruct cur; [congruence|]. cbn. rewrite app_nil_r. auto.
    - inversion H; subst. cbn [split_ws_aux]. rewrite H2. rewrite IH by (auto; discriminate). cbn [rev]. rewrite <- app_assoc. auto. }
  destruct s as [|c s]; [congruence|]. inversion H; subst. cbn [split_ws_aux]. rewrite H2.
  rewrite G by (auto; discriminate). auto.
Qed.

Definition single_filter (d : dict) (n : bytes) : Prop :=
  (dget K_Filter d = Some (PStr n) \/ dget K_Filter d = Some (PList [PStr n])) /\ dget K_DecodeParms d = None.

Theorem filter_roundtrip d n c :
  (forall b, Forall isbyte b -> z_decompress (z_compress b) = Some b) ->
  Forall isbyte c -> single_filter d n -> n = F_Flate \/ n = F_Hex \/ n = F_A85 ->
  exists e, encode_stream c d = Ok e /\ decode_stream (Some e) d = Ok (Some c).
Proof.
  intros Z H [F P] N.
  assert (SW : split_ws n = [n]).
  { destruct N as [->|[->| ->]]; reflexivity. }
  exists (encode_loop c [PStr n]). split.
  - unfold encode_stream. destruct F as [F|F]; rewrite F; reflexivity.
  - unfold decode_stream. rewrite P.
    assert (E : decode_loop (Some (encode_loop c [PStr n])) (fun _ => Some PNone) 0 [PStr n] None = Ok c).
    { destruct N as [->|[->| ->]].
      - change (encode_loop c [PStr F_Flate]) with (z_compress c). cbn [decode_loop]. rewrite beqb_refl, Z by auto. reflexivity.
      - change (encode_loop c [PStr F_Hex]) with (hexlify_up c). cbn [decode_loop].
        change (beqb F_Hex F_Flate) with false. rewrite beqb_refl, unhex_hex by auto. reflexivity.
      - change (encode_loop c [PStr F_A85]) with (a85encode c). cbn [decode_loop].
        change (beqb F_A85 F_Flate) with false. change (beqb F_A85 F_Hex) with false. rewrite beqb_refl, a85_inverse by auto. reflexivity. }
    destruct F as [F|F]; rewrite F; cbn [bind iter_obj]; [rewrite SW; cbn [map]|]; rewrite E; reflexivity.
Qed.

Theorem nofilter_roundtrip d c : dget K_Filter d = None ->
  encode_stream c d = Ok c /\ decode_stream (Some c) d = Ok (Some c).
Proof. intros F. unfold encode_stream, decode_stream. rewrite F. auto. Qed.

(* several filters: the last one alone is applied, to the original bytes *)
Definition dec1 (s : bytes) (n : bytes) : option bytes :=
  if beqb n F_Flate then z_decompress s
  else if beqb n F_Hex then unhexlify s
  else if beqb n F_A85 then a85decode s else None.

Lemma decode_loop_last s fl : forall i acc, fl <> [] -> (forall n, In n fl -> dec1 s n <> None) ->
  exists r, dec1 s (last fl []) = Some r /\ decode_loop (Some s) (fun _ => Some PNone) i (map PStr fl) acc = Ok r.
Proof.
  induction fl as [|n fl IH]; intros i acc NE H; [congruence|].
  assert (D : dec1 s n <> None) by (apply H; left; auto).
  assert (St : forall r, dec1 s n = Some r -> decode_loop (Some s) (fun _ => Some PNone) i (map PStr (n :: fl)) acc
      = decode_loop (Some s) (fun _ => Some PNone) (S i) (map PStr fl) (Some r)).
  { intros r E. unfold dec1 in E. cbn [map decode_loop].
    destruct (beqb n F_Flate). { rewrite E. reflexivity. }
    destruct (beqb n F_Hex). { rewrite E. reflexivity. }
    destruct (beqb n F_A85). { rewrite E. reflexivity. } discriminate. }
  destruct (dec1 s n) as [r|] eqn:E; [|congruence]. rewrite (St r eq_refl).
  destruct fl as [|m fl].
  - exists r. split; auto.
  - destruct (IH (S i) (Some r)) as (r' & E' & L'); [discriminate|intros; apply H; right; auto|].
    exists r'. split; auto.
Qed.

End WithZlib.

(* ---------- PNG Up predictor ---------- *)
Lemma land255 x : Z.land x 255 = x mod 256.
Proof. change 255 with (Z.ones 8). rewrite Z.land_ones by lia. auto. Qed.

Lemma decoded_row (f : Z -> Z -> Z) row : forall pre prev k, k = length pre -> length row = length prev ->
  map (fun iv => f (snd iv) (nth (fst iv) (pre ++ prev) 0)) (combine (seq k (length row)) row)
  = map (fun ab => f (fst ab) (snd ab)) (combine row prev).
Proof.
  induction row as [|x row IH]; intros pre prev k K L; auto. destruct prev as [|y prev]; [discriminate|].
  cbn [length seq combine map fst snd]. f_equal.
  - subst k. rewrite app_nth2, Nat.sub_diag by lia. auto.
  - rewrite <- (IH (pre ++ [y]) prev (S k)); auto.
    + rewrite <- app_assoc. auto.
    + rewrite app_length. cbn. lia.
Qed.

Lemma up_row_inverse row : forall prev, length row = length prev -> Forall isbyte row ->
  map (fun ab => Z.land (fst ab + snd ab) 255) (combine (up_diff row prev) prev) = row.
Proof.
  induction row as [|x row IH]; intros [|y prev] L H; try discriminate; auto.
  inversion H; subst. cbn [up_diff combine map fst snd]. f_equal.
  - rewrite land255. unfold isbyte in *. lia.
  - apply IH; auto.
Qed.

Lemma up_diff_length row : forall prev, length row = length prev -> length (up_diff row prev) = length row.
Proof. induction row as [|x row IH]; intros [|y prev] L; try discriminate; auto. cbn. rewrite IH; auto. Qed.

Lemma predictor_rows_up n rows : forall prev x f,
  length prev = n ->
  Forall (fun tr => length (snd tr) = n /\ Forall isbyte (snd tr)) rows ->
  (length (up_encode prev rows) <= f)%nat ->
  predictor_rows f (S n) (x :: prev) (up_encode prev rows) = concat (map snd rows).
Proof.
  induction rows as [|[tag row] rows IH]; intros prev x f LP H L.
  - destruct f; auto.
  - inversion H as [|? ? [H1 H2] H3]; subst. cbn [fst snd] in *.
    cbn [up_encode] in *. destruct f as [|f]; [cbn in L; lia|].
    cbn [predictor_rows].
    assert (LD : length (up_diff row prev) = length prev) by (rewrite up_diff_length; auto).
    assert (FN : firstn (S (length prev)) (tag :: up_diff row prev ++ up_encode row rows) = tag :: up_diff row prev).
    { cbn [firstn]. rewrite <- LD. rewrite firstn_app_len. auto. }
    assert (SN : skipn (S (length prev)) (tag :: up_diff row prev ++ up_encode row rows) = up_encode row rows).
    { cbn [skipn]. rewrite <- LD. apply skipn_app_len. }
    rewrite FN, SN.
    pose proof (decoded_row (fun v p => Z.land (v + p) 255) (tag :: up_diff row prev) [] (x :: prev) 0 eq_refl ltac:(cbn; lia)) as D.
    cbn [app] in D. rewrite D. cbn [combine map fst snd]. rewrite up_row_inverse by (auto; lia).
    cbn [skipn concat map snd]. f_equal. apply IH; auto.
    cbn [length] in L. rewrite app_length in L. lia.
Qed.

Theorem predictor_up rows n : 
  Forall (fun tr => length (snd tr) = n /\ Forall isbyte (snd tr)) rows ->
  decode_predictor (up_encode (repeat 0 n) rows) (Z.of_nat n) = Ok (concat (map snd rows)).
Proof.
  intros H. unfold decode_predictor. replace (Z.of_nat n + 1 <=? 0) with false by lia.
  replace (Z.to_nat (Z.of_nat n + 1)) with (S n) by lia. cbn [repeat]. f_equal.
  apply predictor_rows_up; auto. apply repeat_length.
Qed.

Section Predictor.
Context {ZL : Zlib}.

Theorem flate_predictor d p n rows e pr :
  dget K_Filter d = Some (PStr F_Flate) \/ dget K_Filter d = Some (PList [PStr F_Flate]) ->
  dget K_DecodeParms d = Some (PDict p) \/ dget K_DecodeParms d = Some (PList [PDict p]) ->
  dget K_Predictor p = Some (PInt pr) -> dget K_Columns p = Some (PInt (Z.of_nat n)) ->
  Forall (fun tr => length (snd tr) = n /\ Forall isbyte (snd tr)) rows ->
  z_decompress e = Some (up_encode (repeat 0 n) rows) ->
  decode_stream (Some e) d = Ok (Some (concat (map snd rows))).
Proof.
  intros F D P C R Z. unfold decode_stream.
  assert (E : forall parms, parms 0%nat = Some (PDict p) -> decode_loop (Some e) parms 0 [PStr F_Flate] None = Ok (concat (map snd rows))).
  { intros parms E. cbn [decode_loop]. rewrite beqb_refl, Z, E. cbn [apply_parm].
    unfold dhas. rewrite P, C. cbn [py_int_obj]. rewrite predictor_up by auto. reflexivity. }
  destruct F as [F|F], D as [D|D]; rewrite F, D; cbn [bind iter_obj];
    try change (map PStr (split_ws F_Flate)) with [PStr F_Flate]; rewrite E by reflexivity; reflexivity.
Qed.

(* /Columns -1: no end *)
Theorem predictor_diverges d p e pr x s :
  dget K_Filter d = Some (PStr F_Flate) -> dget K_DecodeParms d = Some (PDict p) ->
  dget K_Predictor p = Some (PInt pr) -> dget K_Columns p = Some (PInt (-1)) ->
  z_decompress e = Some (x :: s) -> decode_stream (Some e) d = Loop.
Proof.
  intros F D P C Z. unfold decode_stream. rewrite F, D. cbn [bind].
  change (map PStr (split_ws F_Flate)) with [PStr F_Flate]. cbn [decode_loop]. rewrite beqb_refl, Z. cbn [apply_parm].
  unfold dhas. rewrite P, C. reflexivity.
Qed.

(* any other /Columns: an answer *)
Theorem predictor_converges s c : c <> -1 -> (0 <= c \/ (c < -1 /\ - c <= Z.of_nat (length s))) -> decode_predictor s c <> Loop.
Proof.
  intros N C. unfold decode_predictor. destruct (c + 1 <=? 0) eqn:E; [|discriminate].
  destruct s as [|x s]; [discriminate|].
  replace ((c + 1 <? 0) && (0 <? Z.of_nat (length (x :: s)) + (c + 1))) with true by lia. discriminate.
Qed.

Theorem decode_last_only d fl s : fl <> [] -> dget K_Filter d = Some (PList (map PStr fl)) -> dget K_DecodeParms d = None ->
  (forall n, In n fl -> dec1 s n <> None) ->
  decode_stream (Some s) d = Ok (dec1 s (last fl [])).
Proof.
  intros N F D H. unfold decode_stream. rewrite F, D. cbn [bind iter_obj].
  destruct (decode_loop_last s fl 0 None N H) as (r & E & L). rewrite L, E. reflexivity.
Qed.

(* encoding applies the filters in the order of the array *)
Definition enc1 (s : bytes) (n : bytes) : bytes :=
  if beqb n F_Flate then z_compress s else if beqb n F_Hex then hexlify_up s else a85encode s.
Theorem encode_in_order d fl s : dget K_Filter d = Some (PList (map PStr fl)) ->
  Forall (fun n => n = F_Flate \/ n = F_Hex \/ n = F_A85) fl ->
  encode_stream s d = Ok (fold_left enc1 fl s).
Proof.
  intros F H. unfold encode_stream. rewrite F. cbn [bind iter_obj]. f_equal. clear F. revert s.
  induction H as [|n fl N H IH]; intros s; auto. cbn [map encode_loop fold_left]. unfold enc1 at 2.
  destruct (beqb n F_Flate) eqn:E1; [apply IH|].
  destruct (beqb n F_Hex) eqn:E2; [apply IH|].
  assert (E3 : beqb n F_A85 = true).
  { destruct N as [->|[->| ->]]; [rewrite beqb_refl in E1; discriminate|rewrite beqb_refl in E2; discriminate|apply beqb_refl]. }
  rewrite E3. apply IH.
Qed.
End Predictor.
