(* Properties C94 and C95: ASCII encodings and predictors as the format defines them *)
From Coq Require Import String.
From Verif Require Import PyBase Model_Filters Spec_Filters Spec_Encodings Facts_Base Facts_Filters Facts_Encodings.

(* ---------------- C94 ---------------- *)
(* full statement: a text that stands for c (hex_data c s, a85_data format_white c s) is
   decoded to c.  It fails for every ASCIIHex text, because of its end mark: *)
Theorem C94_hex_refuted {ZL : Zlib} : forall d c s, single_filter d F_Hex -> hex_data c s ->
  decode_stream (Some s) d = Ok (Some (B "#PDFSyntaxException: cannot decode ASCIIHex")).
Proof. exact hex_marked. Qed.
Print Assumptions C94_hex_refuted.
(* the digits alone, in even number and of either case, are decoded; nothing else is *)
Theorem C94_hex_partial {ZL : Zlib} : forall d c t, single_filter d F_Hex -> hex_pairs c t ->
  decode_stream (Some t) d = Ok (Some c).
Proof. exact hex_bare. Qed.
Print Assumptions C94_hex_partial.
Theorem C94_hex_only {ZL : Zlib} : forall d s, single_filter d F_Hex -> ~ (exists c, hex_pairs c s) ->
  decode_stream (Some s) d = Ok (Some (B "#PDFSyntaxException: cannot decode ASCIIHex")).
Proof. intros d s S N. apply hex_not_bare; auto. apply Forall_forall. intros x _. apply dval_pos. Qed.
Print Assumptions C94_hex_only.
(* an ASCII85 text is decoded, white space included except NUL and FF *)
Theorem C94_a85_partial {ZL : Zlib} : forall d c s, single_filter d F_A85 -> Forall isbyte c ->
  a85_data common_white c s -> decode_stream (Some s) d = Ok (Some c).
Proof. exact a85_stream. Qed.
Print Assumptions C94_a85_partial.
Theorem C94_a85_refuted {ZL : Zlib} : exists c s, Forall isbyte c /\ a85_data format_white c s /\
  decode_stream (Some s) [(K_Filter, PStr F_A85)] = Ok (Some (B "#PDFSyntaxException: cannot decode ASCII85")).
Proof.
  exists [0; 0; 0; 0; 7], [122; 12; 35; 54; 126; 62]. split; [|split; [|vm_compute; reflexivity]].
  - repeat (apply Forall_cons; [unfold isbyte; lia|]). apply Forall_nil.
  - exists [122; 35; 54], [122; 12; 35; 54]. split; [|split; [|reflexivity]].
    + apply Ag_zero. apply (Ag_tail [7] [35; 54; 52; 96; 40]); [cbn; lia|].
      split; [reflexivity|split; [repeat constructor; lia|vm_compute; reflexivity]].
    + apply Sp_same. apply Sp_white; [reflexivity|]. repeat apply Sp_same. apply Sp_nil.
Qed.
Print Assumptions C94_a85_refuted.
(* "9aF>" stands for the bytes 9A F0, "9aF0" is decoded; a text of ASCII85 over two lines *)
Example C94_hex_case : hex_data [154; 240] (B "9a F>") /\ hex_pairs [154; 240] (B "9aF0") /\
  @decode_stream store_codec (Some (B "9aF0")) [(K_Filter, PStr F_Hex)] = Ok (Some [154; 240]).
Proof.
  split; [|split; [|vm_compute; reflexivity]].
  - exists [57; 97; 70], [57; 97; 32; 70]. split; [|split; [|reflexivity]].
    + apply (Hd_odd [154] [57; 97] 15 70); [|split; [lia|cbn; auto]].
      apply (Hp_cons 9 10 57 97 [] []); [split; [lia|cbn; auto]|split; [lia|cbn; auto]|constructor].
    + apply Sp_same, Sp_same, Sp_white, Sp_same, Sp_nil. reflexivity.
  - apply (Hp_cons 9 10 57 97 [240] [70; 48]); [split; [lia|cbn; auto]|split; [lia|cbn; auto]|].
    apply (Hp_cons 15 0 70 48 [] []); [split; [lia|cbn; auto]|split; [lia|cbn; auto]|constructor].
Qed.
Example C94_a85_case : a85_data common_white [0; 0; 0; 0; 7] [122; 10; 35; 32; 54; 126; 62] /\
  @decode_stream store_codec (Some [122; 10; 35; 32; 54; 126; 62]) [(K_Filter, PStr F_A85)] = Ok (Some [0; 0; 0; 0; 7]).
Proof.
  split; [|vm_compute; reflexivity].
  exists [122; 35; 54], [122; 10; 35; 32; 54]. split; [|split; [|reflexivity]].
  - apply Ag_zero. apply (Ag_tail [7] [35; 54; 52; 96; 40]); [cbn; lia|].
    split; [reflexivity|split; [repeat constructor; lia|vm_compute; reflexivity]].
  - apply Sp_same, Sp_white, Sp_same, Sp_white, Sp_same, Sp_nil; reflexivity.
Qed.

(* ---------------- C95 ---------------- *)
(* full statement: predicted pr n rows s, s compressed under /Predictor pr /Columns n, is
   decoded to the rows.  It holds of PNG data whose rows are all filtered Up; the first
   one may also be unfiltered *)
Theorem C95_png_partial {ZL : Zlib} : forall d p n tag tags rows e pr,
  dget K_Filter d = Some (PStr F_Flate) \/ dget K_Filter d = Some (PList [PStr F_Flate]) ->
  dget K_DecodeParms d = Some (PDict p) \/ dget K_DecodeParms d = Some (PList [PDict p]) ->
  dget K_Predictor p = Some (PInt pr) -> dget K_Columns p = Some (PInt (Z.of_nat n)) ->
  Forall (fun r => length r = n /\ Forall isbyte r) rows -> length (tag :: tags) = length rows ->
  tag = 0 \/ tag = 2 -> Forall (fun t => t = 2) tags ->
  z_decompress e = Some (png_encode (repeat 0 n) (combine (tag :: tags) rows)) ->
  decode_stream (Some e) d = Ok (Some (concat rows)).
Proof. exact png_decoded. Qed.
Print Assumptions C95_png_partial.
Definition predictor_dict (pr : Z) (n : nat) : dict :=
  [(K_Filter, PStr F_Flate); (K_DecodeParms, PDict [(K_Predictor, PInt pr); (K_Columns, PInt (Z.of_nat n))])].
(* every other predictor, and every other filter of a row, is read as Up too *)
Theorem C95_other_refuted :
  (forall pr, pr = 1 \/ pr = 2 -> exists n rows s, predicted pr n rows s /\
     @decode_stream store_codec (Some s) (predictor_dict pr n) <> Ok (Some (concat rows))) /\
  (forall pr tag, 10 <= pr <= 15 -> tag = 0 \/ tag = 1 \/ tag = 3 \/ tag = 4 ->
     exists n rows tags s, predicted pr n rows s /\ Forall (fun t => t = tag) tags /\
     s = png_encode (repeat 0 n) (combine tags rows) /\ length tags = length rows /\
     @decode_stream store_codec (Some s) (predictor_dict pr n) <> Ok (Some (concat rows))).
Proof.
  assert (R : Forall (fun r : bytes => length r = 2%nat /\ Forall isbyte r) [[10; 20]; [30; 50]]).
  { repeat constructor; unfold isbyte; lia. }
  split.
  - intros pr [->| ->].
    + exists 2%nat, [[10; 20]; [30; 50]], [10; 20; 30; 50]. split; [split; auto|vm_compute; discriminate].
    + exists 2%nat, [[10; 20]; [30; 50]], [10; 10; 30; 20]. split; [split; auto|vm_compute; discriminate].
  - intros pr tag P T. exists 2%nat, [[10; 20]; [30; 50]], [tag; tag], (png_encode [0; 0] [(tag, [10; 20]); (tag, [30; 50])]).
    split; [|split; [repeat constructor|split; [reflexivity|split; [reflexivity|]]]].
    + split; auto. right. right. split; auto. exists [tag; tag]. split; [reflexivity|split; [|reflexivity]].
      repeat constructor; lia.
    + destruct T as [->|[->|[->| ->]]]; vm_compute; discriminate.
Qed.
Print Assumptions C95_other_refuted.
Example C95_case : let rows := [[10; 20]; [30; 50]; [0; 255]] in let s := [0; 10; 20; 2; 20; 30; 2; 226; 205] in
  png_encode [0; 0] (combine [0; 2; 2] rows) = s /\ predicted 15 2 rows s /\
  @decode_stream store_codec (Some s) (predictor_dict 15 2) = Ok (Some [10; 20; 30; 50; 0; 255]).
Proof.
  split; [reflexivity|split; [|vm_compute; reflexivity]]. split.
  - repeat constructor; unfold isbyte; lia.
  - right. right. split; [lia|]. exists [0; 2; 2]. split; [reflexivity|split; [|reflexivity]]. repeat constructor; lia.
Qed.
