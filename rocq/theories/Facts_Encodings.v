(* The two ASCII encodings, as other programs write them *)
From Coq Require Import String ZifyBool.
From Verif Require Import PyBase Model_Filters Spec_Filters Spec_Encodings Facts_Base Facts_Token Facts_Filters.

Lemma decode_single {ZL : Zlib} d n s r : single_filter d n -> n = F_Hex \/ n = F_A85 ->
  decode_loop (Some s) (fun _ => Some PNone) 0 [PStr n] None = Ok r ->
  decode_stream (Some s) d = Ok (Some r).
Proof.
  intros [F P] N E. assert (SW : split_ws n = [n]) by (destruct N as [->| ->]; reflexivity).
  unfold decode_stream. rewrite P.
  destruct F as [F|F]; rewrite F; cbn [bind iter_obj]; [rewrite SW; cbn [map]|]; rewrite E; reflexivity.
Qed.

(* ---- ASCIIHex ---- *)
Lemma dval_digit v x : hex_digit v x -> dval x = v.
Proof. intros [R D]. unfold dval. repeat (match goal with |- context [if ?b then _ else _] => destruct b eqn:? | H : context [if ?b then _ else _] |- _ => destruct b eqn:? end); lia. Qed.
Lemma unhex_pairs c t : hex_pairs c t -> unhexlify t = Some c.
Proof.
  induction 1 as [|h l a b c t H1 H2 H IH]; auto. cbn [unhexlify]. rewrite (dval_digit _ _ H1), (dval_digit _ _ H2), IH.
  destruct H1, H2. replace ((h <? 16) && (l <? 16)) with true by lia. reflexivity.
Qed.
(* every character but the digits makes unhexlify raise *)
Lemma unhex_bad s x : In x s -> dval x >= 16 -> unhexlify s = None.
Proof.
  induction s as [s IH] using list_len_ind. intros I D. destruct s as [|a [|b s]]; [destruct I|reflexivity|].
  cbn [unhexlify]. destruct I as [<-|[<-|I]].
  - replace (dval a <? 16) with false by lia. reflexivity.
  - replace (dval b <? 16) with false by lia. rewrite andb_false_r. reflexivity.
  - rewrite (IH s) by (auto; cbn; lia). destruct (_ && _); reflexivity.
Qed.
Lemma unhex_some s : forall c, unhexlify s = Some c -> Forall (fun x => 0 <= dval x) s -> hex_pairs c s.
Proof.
  induction s as [s IH] using list_len_ind. intros c U D. destruct s as [|a [|b s]].
  - inversion U. constructor.
  - discriminate.
  - cbn [unhexlify] in U. destruct ((dval a <? 16) && (dval b <? 16)) eqn:E; [|discriminate].
    destruct (unhexlify s) as [c'|] eqn:U'; [|discriminate]. inversion U. subst c. clear U.
    inversion D as [|? ? D1 D']. inversion D' as [|? ? D2 D'']. subst.
    assert (G : forall x, 0 <= dval x < 16 -> hex_digit (dval x) x).
    { intros x R. split; auto. unfold dval in *.
      repeat (match goal with |- context [if ?b then _ else _] => destruct b eqn:? | H : context [if ?b then _ else _] |- _ => destruct b eqn:? end); lia. }
    constructor; try (apply G; lia). apply IH; auto. cbn. lia.
Qed.

Theorem hex_bare {ZL : Zlib} d c t : single_filter d F_Hex -> hex_pairs c t ->
  decode_stream (Some t) d = Ok (Some c).
Proof.
  intros S H. apply (decode_single d F_Hex); auto. cbn [decode_loop]. change (beqb F_Hex F_Flate) with false.
  rewrite beqb_refl, (unhex_pairs _ _ H). reflexivity.
Qed.
Theorem hex_not_bare {ZL : Zlib} d s : single_filter d F_Hex -> ~ (exists c, hex_pairs c s) -> Forall (fun x => 0 <= dval x) s ->
  decode_stream (Some s) d = Ok (Some X_Hex).
Proof.
  intros S N D. apply (decode_single d F_Hex); auto. cbn [decode_loop]. change (beqb F_Hex F_Flate) with false.
  rewrite beqb_refl. destruct (unhexlify s) as [c|] eqn:U; auto. destruct N. exists c. apply unhex_some; auto.
Qed.
Lemma dval_pos x : 0 <= dval x.
Proof. unfold dval. repeat (match goal with |- context [if ?b then _ else _] => destruct b eqn:? end); lia. Qed.
Lemma hex_pairs_digits c t x : hex_pairs c t -> In x t -> dval x < 16.
Proof.
  induction 1 as [|h l a b c t H1 H2 H IH]; [intros []|]. intros [<-|[<-|I]]; auto.
  - rewrite (dval_digit _ _ H1). apply H1.
  - rewrite (dval_digit _ _ H2). apply H2.
Qed.
Theorem hex_marked {ZL : Zlib} d c s : single_filter d F_Hex -> hex_data c s ->
  decode_stream (Some s) d = Ok (Some X_Hex).
Proof.
  intros S (t & u & _ & _ & ->). apply hex_not_bare; auto.
  - intros (c' & H). assert (D : dval 62 < 16) by (eapply hex_pairs_digits; [eassumption|apply in_or_app; right; left; auto]).
    vm_compute in D. discriminate.
  - apply Forall_forall. intros. apply dval_pos.
Qed.

(* ---- ASCII85 ---- *)
Lemma quintet_chunk w x : quintet w x -> x = a85_chunk w.
Proof.
  intros (L & F & V). destruct x as [|x1 [|x2 [|x3 [|x4 [|x5 [|? ?]]]]]]; try discriminate L.
  repeat match goal with H : Forall _ (_ :: _) |- _ => inversion H; clear H; subst end.
  cbn [fold_left]. unfold a85_chunk.
  set (w := 85 * (85 * (85 * (85 * (85 * 0 + (x1 - 33)) + (x2 - 33)) + (x3 - 33)) + (x4 - 33)) + (x5 - 33)).
  assert (E1 : w / 85 = 85 * (85 * (85 * (x1 - 33) + (x2 - 33)) + (x3 - 33)) + (x4 - 33)) by (unfold w; lia).
  assert (E2 : w / 7225 = 85 * (85 * (x1 - 33) + (x2 - 33)) + (x3 - 33)).
  { change 7225 with (85 * 85). rewrite <- Z.div_div, E1 by lia. lia. }
  assert (E3 : w / 614125 = 85 * (x1 - 33) + (x2 - 33)).
  { change 614125 with (7225 * 85). rewrite <- Z.div_div, E2 by lia. lia. }
  assert (E4 : w / 52200625 = x1 - 33).
  { change 52200625 with (614125 * 85). rewrite <- Z.div_div, E3 by lia. lia. }
  assert (E0 : w mod 85 = x5 - 33) by (unfold w; lia).
  rewrite E0, E1, E2, E3, E4. repeat f_equal; lia.
Qed.
Lemma a85_groups_enc c t : a85_groups c t -> forall f, (length c <= f)%nat -> a85_enc f c = t.
Proof.
  induction 1 as [|c t H IH|b x c t L N Q H IH|b x L Q]; intros f LF.
  - destruct f; reflexivity.
  - destruct f as [|f]; [cbn in LF; lia|]. cbn [a85_enc firstn length Nat.sub Nat.eqb repeat app skipn].
    change (a85_word [0; 0; 0; 0] =? 0) with true. cbn [app]. rewrite IH; auto. cbn in LF. lia.
  - destruct b as [|b1 [|b2 [|b3 [|b4 [|? ?]]]]]; try discriminate L.
    destruct f as [|f]; [cbn in LF; lia|]. cbn [a85_enc firstn length Nat.sub Nat.eqb repeat app skipn].
    change (a85_word [b1; b2; b3; b4]) with (big_endian [b1; b2; b3; b4]).
    replace (big_endian [b1; b2; b3; b4] =? 0) with false by lia. rewrite (quintet_chunk _ _ Q), IH; auto.
    cbn in LF. lia.
  - rewrite (quintet_chunk _ _ Q). clear Q x.
    destruct b as [|b1 [|b2 [|b3 [|? ?]]]]; cbn [length] in L; try lia;
      (destruct f as [|f]; [cbn in LF; lia|]); reflexivity.
Qed.
Lemma a85_alphabet c t : a85_groups c t -> Forall (fun y => 33 <= y <= 117 \/ y = 122) t.
Proof.
  assert (G : forall x, Forall (fun y => 33 <= y <= 117) x -> Forall (fun y => 33 <= y <= 117 \/ y = 122) x).
  { intros x. apply Forall_impl. auto. }
  induction 1 as [|c t H IH|b x c t L N (_ & Q & _) H IH|b x L (_ & Q & _)]; auto.
  - apply Forall_app; auto.
  - apply G in Q. rewrite <- (firstn_skipn (length b + 1) x) in Q. apply Forall_app in Q. apply Q.
Qed.
Lemma a85_not_lone c t : a85_groups c t -> t = [60] -> False.
Proof.
  intros G E. destruct G as [|c t G|b x c t L N (L' & _) G|b x L (L' & _)]; try discriminate E.
  - apply (f_equal (@length Z)) in E. rewrite app_length in E. cbn [length] in E. lia.
  - apply (f_equal (@length Z)) in E. rewrite firstn_length in E. cbn [length] in E. lia.
Qed.
Lemma a85_dec_white w t s : (forall x, w x = true -> inb x [32; 9; 10; 13; 11] = true) -> spaced w t s ->
  forall curr v, a85_dec curr (s ++ v) = a85_dec curr (t ++ v).
Proof.
  intros W. induction 1 as [|x t s H IH|x t s X H IH]; intros curr v; auto.
  - cbn [app a85_dec]. rewrite !IH. reflexivity.
  - cbn [app a85_dec]. specialize (W x X). rewrite W.
    assert (X' : In x [32; 9; 10; 13; 11]).
    { unfold inb in W. apply existsb_exists in W. destruct W as (y & I & E). replace x with y by lia. auto. }
    replace ((33 <=? x) && (x <=? 117)) with false by (cbn in X'; lia).
    replace (x =? 122) with false by (cbn in X'; lia). apply IH.
Qed.
Theorem a85_decoded w c s : (forall x, w x = true -> inb x [32; 9; 10; 13; 11] = true) ->
  Forall isbyte c -> a85_data w c s -> a85decode s = Some c.
Proof.
  intros W HB (t & u & G & SP & ->). unfold a85decode. change (B "<~") with [60; 126]. change (B "~>") with [126; 62].
  rewrite app_length. cbn [length]. replace (length u + 2 - 2)%nat with (length u) by lia.
  rewrite skipn_app_len. cbn [beqb Z.eqb Pos.eqb andb negb].
  replace (starts [60; 126] (u ++ [126; 62])) with false.
  2:{ assert (AU : Forall (fun y => (33 <= y <= 117 \/ y = 122) \/ w y = true) u).
      { pose proof (a85_alphabet _ _ G) as A. clear - SP A. induction SP; [constructor|inversion A; subst; constructor; auto|constructor; auto]. }
      destruct u as [|x1 [|x2 u]]; auto.
      - cbn [app starts]. cbn.
        destruct (x1 =? 60) eqn:E; [|reflexivity]. exfalso. assert (x1 = 60) by lia. subst x1. clear E.
        inversion SP as [|? ? ? SP'|? ? ? X SP']; subst.
        + inversion SP'; subst. exact (a85_not_lone _ _ G eq_refl).
        + specialize (W _ X). discriminate.
      - cbn. destruct (x2 =? 126) eqn:E; [|destruct (x1 =? 60); reflexivity].
        exfalso. assert (x2 = 126) by lia. subst x2. inversion AU as [|? ? A1 A']. inversion A' as [|? ? A2 A'']. subst.
        destruct A2 as [A2|A2]; [lia|]. specialize (W _ A2). discriminate. }
  rewrite firstn_app_len. rewrite (a85_dec_white w t u W SP). rewrite <- (a85_groups_enc c t G (length c)) by auto.
  destruct (a85_roundtrip c HB (length c) ltac:(lia)) as (d & curr & D & LC & LD & FR).
  change [117; 117; 117; 117] with uu. rewrite D. f_equal. rewrite LD.
  replace (length c + (4 - length curr) - (4 - length curr))%nat with (length c) by lia. auto.
Qed.
Theorem a85_stream {ZL : Zlib} d c s : single_filter d F_A85 -> Forall isbyte c -> a85_data common_white c s ->
  decode_stream (Some s) d = Ok (Some c).
Proof.
  intros S HB H. apply (decode_single d F_A85); auto. cbn [decode_loop].
  change (beqb F_A85 F_Flate) with false. change (beqb F_A85 F_Hex) with false.
  rewrite beqb_refl, (a85_decoded common_white c s); auto.
  intros x X. unfold common_white in X. unfold inb. cbn [existsb]. lia.
Qed.

(* ---- predictors ---- *)
Lemma png_row_up row : forall left upleft prev, png_row 2 left upleft row prev = up_diff row prev.
Proof. induction row as [|a r IH]; intros left upleft [|b p]; cbn; auto. rewrite IH. reflexivity. Qed.
Lemma png_encode_up rows : forall prev, Forall (fun tr => fst tr = 2) rows -> png_encode prev rows = up_encode prev rows.
Proof.
  induction rows as [|[tag r] rows IH]; intros prev H; auto. inversion H as [|? ? H1 H2]. cbn in H1. subst.
  cbn [png_encode up_encode]. rewrite png_row_up, IH; auto.
Qed.
Lemma png_row_none row : forall left upleft k, png_row 0 left upleft row (repeat 0 k) = up_diff row (repeat 0 k).
Proof. induction row as [|a r IH]; intros left upleft [|k]; cbn; auto. rewrite IH. reflexivity. Qed.
Theorem png_decoded {ZL : Zlib} d p n tag tags rows e pr :
  dget K_Filter d = Some (PStr F_Flate) \/ dget K_Filter d = Some (PList [PStr F_Flate]) ->
  dget K_DecodeParms d = Some (PDict p) \/ dget K_DecodeParms d = Some (PList [PDict p]) ->
  dget K_Predictor p = Some (PInt pr) -> dget K_Columns p = Some (PInt (Z.of_nat n)) ->
  Forall (fun r => length r = n /\ Forall isbyte r) rows -> length (tag :: tags) = length rows ->
  tag = 0 \/ tag = 2 -> Forall (fun t => t = 2) tags ->
  z_decompress e = Some (png_encode (repeat 0 n) (combine (tag :: tags) rows)) ->
  decode_stream (Some e) d = Ok (Some (concat rows)).
Proof.
  intros F D P C R L T TS Z. destruct rows as [|r rows]; [discriminate L|]. cbn [combine] in *.
  rewrite (flate_predictor d p n ((tag, r) :: combine tags rows) e pr); auto.
  - cbn [map snd concat]. do 4 f_equal. injection L as L. clear - L. revert rows L.
    induction tags as [|t tags IH]; intros [|r rows] L; try discriminate; auto. cbn. rewrite IH; auto.
  - inversion R as [|? ? R1 R2]; subst. constructor; auto. apply Forall_forall. intros [t x] I. apply in_combine_r in I.
    rewrite Forall_forall in R2. exact (R2 _ I).
  - rewrite Z. f_equal. cbn [png_encode up_encode]. do 2 f_equal.
    + destruct T as [->| ->]; [apply png_row_none|apply png_row_up].
    + apply png_encode_up. apply Forall_forall. intros [t x] I. apply in_combine_l in I. rewrite Forall_forall in TS.
      exact (TS _ I).
Qed.
