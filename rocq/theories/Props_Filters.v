(* Properties C11-C15: filters and streams *)
From Coq Require Import String.
From Verif Require Import PyBase Model_Filters Model_Objects Spec_Objects Spec_Filters
  Facts_Base Facts_Token Facts_Obj Facts_Ser Facts_Parse Facts_Top Facts_Stream Facts_Filters Facts_Refs.

(* ---------------- C11 ---------------- *)
(* single_filter d n: /Filter is the name n or the array [n], no /DecodeParms *)
Theorem C11_single_filter {ZL : Zlib} : forall d n c,
  (forall b, Forall isbyte b -> z_decompress (z_compress b) = Some b) ->
  Forall isbyte c -> single_filter d n -> n = F_Flate \/ n = F_Hex \/ n = F_A85 ->
  exists e, encode_stream c d = Ok e /\ decode_stream (Some e) d = Ok (Some c).
Proof. exact filter_roundtrip. Qed.
Print Assumptions C11_single_filter.
Theorem C11_no_filter {ZL : Zlib} : forall d c, dget K_Filter d = None ->
  encode_stream c d = Ok c /\ decode_stream (Some c) d = Ok (Some c).
Proof. exact nofilter_roundtrip. Qed.
Print Assumptions C11_no_filter.
Theorem C11_ascii85 : forall s, Forall isbyte s -> a85decode (a85encode s) = Some s.
Proof. exact a85_inverse. Qed.
Print Assumptions C11_ascii85.
Example C11_case {ZL : Zlib} :
  encode_stream [0; 0; 0; 0; 255; 7] [(K_Filter, PStr F_A85)] = Ok (B "<~zrrr~>") \/
  exists e, encode_stream [0; 0; 0; 0; 255; 7] [(K_Filter, PStr F_A85)] = Ok e /\ (length e > 4)%nat.
Proof. right. eexists. split; [vm_compute; reflexivity|cbn; lia]. Qed.

(* ---------------- C12 ---------------- *)
(* full statement: for every list of supported filters decode inverts encode.  It fails: *)
Theorem C12_pipeline_refuted : exists c d e,
  Forall isbyte c /\ d = [(K_Filter, PList [PStr F_Hex; PStr F_A85])] /\
  @encode_stream store_codec c d = Ok e /\ @decode_stream store_codec (Some e) d <> Ok (Some c).
Proof.
  exists [1], [(K_Filter, PList [PStr F_Hex; PStr F_A85])]. eexists. split; [|split; [reflexivity|split; [vm_compute; reflexivity|]]].
  - apply Forall_cons; [unfold isbyte; lia|apply Forall_nil].
  - vm_compute. discriminate.
Qed.
Print Assumptions C12_pipeline_refuted.
(* what the code does with an array of filters *)
Theorem C12_decode_partial {ZL : Zlib} : forall d fl s, fl <> [] ->
  dget K_Filter d = Some (PList (map PStr fl)) -> dget K_DecodeParms d = None ->
  (forall n, In n fl -> dec1 s n <> None) ->
  decode_stream (Some s) d = Ok (dec1 s (last fl [])).
Proof. exact decode_last_only. Qed.
Print Assumptions C12_decode_partial.
Theorem C12_encode_partial {ZL : Zlib} : forall d fl s, dget K_Filter d = Some (PList (map PStr fl)) ->
  Forall (fun n => n = F_Flate \/ n = F_Hex \/ n = F_A85) fl ->
  encode_stream s d = Ok (fold_left enc1 fl s).
Proof. exact encode_in_order. Qed.
Print Assumptions C12_encode_partial.
Example C12_case : let e := B "<~0E=L~>" in
  @dec1 store_codec e F_Flate <> None /\ @dec1 store_codec e F_A85 <> None.
Proof. split; vm_compute; discriminate. Qed.

(* ---------------- C13 ---------------- *)
Theorem C13_predictor_up : forall rows n,
  Forall (fun tr => length (snd tr) = n /\ Forall isbyte (snd tr)) rows ->
  decode_predictor (up_encode (repeat 0 n) rows) (Z.of_nat n) = Ok (concat (map snd rows)).
Proof. exact predictor_up. Qed.
Print Assumptions C13_predictor_up.
Theorem C13_flate_predictor {ZL : Zlib} : forall d p n rows e pr,
  dget K_Filter d = Some (PStr F_Flate) \/ dget K_Filter d = Some (PList [PStr F_Flate]) ->
  dget K_DecodeParms d = Some (PDict p) \/ dget K_DecodeParms d = Some (PList [PDict p]) ->
  dget K_Predictor p = Some (PInt pr) -> dget K_Columns p = Some (PInt (Z.of_nat n)) ->
  Forall (fun tr => length (snd tr) = n /\ Forall isbyte (snd tr)) rows ->
  z_decompress e = Some (up_encode (repeat 0 n) rows) ->
  decode_stream (Some e) d = Ok (Some (concat (map snd rows))).
Proof. exact flate_predictor. Qed.
Print Assumptions C13_flate_predictor.
Theorem C13_columns_refuted {ZL : Zlib} : forall d p e pr x s,
  dget K_Filter d = Some (PStr F_Flate) -> dget K_DecodeParms d = Some (PDict p) ->
  dget K_Predictor p = Some (PInt pr) -> dget K_Columns p = Some (PInt (-1)) ->
  z_decompress e = Some (x :: s) -> decode_stream (Some e) d = Loop.
Proof. exact predictor_diverges. Qed.
Print Assumptions C13_columns_refuted.
Example C13_case : decode_predictor [2; 10; 250; 2; 1; 10] 2 = Ok [10; 250; 11; 4] /\
  up_encode [0; 0] [(2, [10; 250]); (2, [11; 4])] = [2; 10; 250; 2; 1; 10].
Proof. split; reflexivity. Qed.

(* ---------------- C14 ---------------- *)
(* full statement: the /Length written is length enc.  It fails, always by one: *)
Theorem C14_length_partial {ZL : Zlib} : forall d content d' s enc len,
  forge_stream d content = Ok (PStream d' s (Some enc), len) ->
  s = Some content /\ encode_stream content d = Ok enc /\
  len = Z.of_nat (length enc) + 1 /\
  (forall z, dget K_Length d = Some (PInt z) -> dget K_Length d' = Some (PInt (Z.of_nat (length enc) + 1))) /\
  ((forall z, dget K_Length d <> Some (PInt z)) -> d' = d) /\
  (forall k, k <> K_Length -> dget k d' = dget k d).
Proof. exact forge_length. Qed.
Print Assumptions C14_length_partial.
Theorem C14_length_refuted {ZL : Zlib} : exists d o len,
  forge_stream d (B "abc") = Ok (o, len) /\ serialize o = Ok (B "<< /Length 4 >>" ++ [10] ++ B "stream" ++ [10] ++ B "abc" ++ [10] ++ B "endstream").
Proof. exists [(K_Length, PInt 0)]. eexists _, _. split; reflexivity. Qed.
Print Assumptions C14_length_refuted.

(* ---------------- C15 ---------------- *)
Theorem C15_stream_roundtrip_partial {ZL : Zlib} : forall d s enc sc,
  wfv (PDict d) -> enc <> [] -> ~ occurs W_endstream enc -> last enc 0 <> 13 ->
  (forall x, dget K_Filter d <> Some (PDict x)) ->
  decode_stream (Some enc) d = Ok sc ->
  exists v d', serialize (PStream d s (Some enc)) = Ok v /\ peq (PDict d) (PDict d') /\
  forall pre tail, parse_obj (pre ++ v ++ tail) (length pre) = Ok (PStream d' sc (Some enc)).
Proof. exact stream_roundtrip. Qed.
Print Assumptions C15_stream_roundtrip_partial.
Theorem C15_stream_roundtrip_refuted {ZL : Zlib} :
  (exists v, serialize (PStream [] (Some []) (Some [])) = Ok v /\ parse_obj v 0 = Ok (PDict [])) /\
  (exists v, serialize (PStream [] (Some [65; 13]) (Some [65; 13])) = Ok v /\ parse_obj v 0 = Ok (PStream [] (Some [65]) (Some [65]))) /\
  (let c := B "AendstreamB" in exists v o, serialize (PStream [] (Some c) (Some c)) = Ok v /\ parse_obj v 0 = Ok o /\ o <> PStream [] (Some c) (Some c)).
Proof.
  split; [|split].
  - eexists. split; [reflexivity|]. vm_compute. reflexivity.
  - eexists. split; [reflexivity|]. vm_compute. reflexivity.
  - eexists _, _. split; [reflexivity|]. split; [vm_compute; reflexivity|]. discriminate.
Qed.
Print Assumptions C15_stream_roundtrip_refuted.
Example C15_case {ZL : Zlib} : let d := [(K_Length, PInt 4)] in let enc := [13; 10; 0; 93] in
  serialize (PStream d None (Some enc)) = Ok (B "<< /Length 4 >>" ++ [10] ++ B "stream" ++ [10] ++ enc ++ [10] ++ B "endstream") /\
  parse_obj (B "<< /Length 4 >>" ++ [10] ++ B "stream" ++ [10] ++ enc ++ [10] ++ B "endstream") 0 = Ok (PStream d (Some enc) (Some enc)).
Proof. split; vm_compute; reflexivity. Qed.
