(* Properties C01-C10 and C21: tokens, values, references.
   Every theorem quantifies over the zlib oracle when it mentions parse_obj. *)
From Coq Require Import String.
From Verif Require Import PyBase Model_Filters Model_Objects Spec_Objects Spec_Filters
  Facts_Base Facts_Token Facts_Obj Facts_Ser Facts_Parse Facts_Top Facts_Stream Facts_Refs.

Ltac wfc :=
  repeat first
    [ apply wf_bool | apply wf_int
    | apply wf_name; eexists; split; [reflexivity|repeat (apply Forall_cons; [unfold regular, white, delim; lia|]); apply Forall_nil]
    | apply wf_keyword; eexists _, _; split; [reflexivity|split; [unfold letter; lia|split; [repeat (apply Forall_cons; [unfold regular, white, delim; lia|]); apply Forall_nil|split; [discriminate|split; [discriminate|split; [discriminate|intros [? ?]; discriminate]]]]]]
    | apply wf_ref; first [reflexivity|exact Logic.I]
    | apply wf_list | apply wf_dict; [repeat constructor; cbn; intuition discriminate|]
    | apply Forall_nil | apply Forall_cons
    | cbn [fst snd]; split; [eexists; split; [reflexivity|repeat (apply Forall_cons; [unfold regular, white, delim; lia|]); apply Forall_nil]|] ].
Ltac wfb := match goal with |- wfv ?o => let o' := eval vm_compute in o in change (wfv o') end; wfc.

(* ---------------- C01 ---------------- *)
Theorem C01_serialize_parse {ZL : Zlib} : forall o, wf_top o ->
  exists v, serialize o = Ok v /\
    forall pre tail, follows tail \/ (tail = [] /\ closed o) ->
      exists o', parse_obj (pre ++ v ++ tail) (length pre) = Ok o' /\ peq o o'.
Proof. exact serialize_parse. Qed.
Print Assumptions C01_serialize_parse.
Definition ex_obj : obj := Eval vm_compute in
  PDict [(B "/Type", PStr (B "/Page")); (B "/Kids", PList [PRef 0 12; PInt (-3); PStr (B "null")]);
         (B "/D", PDict [(B "/K", PBool true)])].
Example C01_case : wf_top ex_obj /\
  serialize ex_obj = Ok (B "<< /Type /Page /Kids [ 12 0 R -3 null ] /D <<  /K true  >> >>") /\
  closed ex_obj.
Proof.
  split; [apply wt_val; [unfold ex_obj; wfc|discriminate]|split; [vm_compute; reflexivity|exact Logic.I]].
Qed.
(* a number, name, boolean or keyword that ends the buffer is not recognised *)
Theorem C01_end_of_buffer_refuted {ZL : Zlib} :
  serialize (PInt 12) = Ok (B "12") /\ parse_obj (B "12") 0 = Ok (PBytes (B "12")).
Proof. split; reflexivity. Qed.
Print Assumptions C01_end_of_buffer_refuted.

(* ---------------- C02 ---------------- *)
Theorem C02_token_bounds : forall t i h j k, (i <= length t)%nat -> next_token t i = (h, j, k) ->
  (i <= h)%nat /\ (h <= j)%nat /\ (j <= length t)%nat /\ (k <> None -> (h < j)%nat).
Proof. exact next_token_bounds. Qed.
Print Assumptions C02_token_bounds.
Theorem C02_token_local : forall p t i h j k, next_token t i = (h, j, k) ->
  next_token (p ++ t) (length p + i) = (length p + h, length p + j, k)%nat.
Proof. intros p t i h j k E. rewrite next_token_app, E. reflexivity. Qed.
Print Assumptions C02_token_local.
Theorem C02_progress : forall t i h j k,
  (i < length t)%nat -> nth i t 0 <> 93 -> next_token t i = (h, j, k) -> (i < j)%nat.
Proof. exact next_token_progress. Qed.
Print Assumptions C02_progress.
Theorem C02_parse_local {ZL : Zlib} : forall p t i, parse_obj (p ++ t) (length p + i) = parse_obj t i.
Proof. exact parse_obj_shift. Qed.
Print Assumptions C02_parse_local.
Example C02_case : next_token (B "ab [ 1 2 ] 3") 2 = (3, 10, Some TArray)%nat.
Proof. reflexivity. Qed.

(* ---------------- C03 ---------------- *)
Theorem C03_token_stable : forall t x i h j k, (i <= length t)%nat ->
  next_token t i = (h, j, Some k) -> next_token (t ++ x) i = (h, j, Some k).
Proof. exact next_token_stable. Qed.
Print Assumptions C03_token_stable.
Example C03_case : next_token (B "(a(b)c) ") 0 = (0, 7, Some TString)%nat /\
  next_token (B "12") 0 = (0, 2, None)%nat /\ next_token (B "123 ") 0 = (0, 3, Some TInteger)%nat.
Proof. repeat split. Qed.

(* ---------------- C04 ---------------- *)
Theorem C04_serialized_token {ZL : Zlib} : forall o, wf_topg o ->
  exists v k, serialize o = Ok v /\ kind_of o = Some k /\
  forall pre rest, (closed o \/ exists c r, rest = c :: r /\ (white c \/ delim c)) ->
    next_token (pre ++ v ++ rest) (length pre) = (length pre, (length pre + length v)%nat, Some k).
Proof. exact (serialized_token (fun _ => True)). Qed.
Print Assumptions C04_serialized_token.
Example C04_case : wf_topg (PList [PRef 2 7; PList [PBytes (B "(x)")]]) /\
  next_token (B "[ 7 2 R [ (x) ] ]]]") 0 = (0, 17, Some TArray)%nat.
Proof.
  split; [|reflexivity]. apply wt_val; [|discriminate].
  apply wf_list. apply Forall_cons; [apply wf_ref; exact Logic.I|]. apply Forall_cons; [|apply Forall_nil].
  apply wf_list. apply Forall_cons; [|apply Forall_nil]. apply wf_lit.
  - exists [120]. split; auto. apply lb_char; try lia. apply lb_nil.
  - split; [|split].
    + intros (a & b & E). do 3 (destruct a as [|? a]; [discriminate|]). destruct a; discriminate.
    + intros (a & b & E). do 3 (destruct a as [|? a]; [discriminate|]). destruct a; discriminate.
    + left. change (B "(x)") with [40; 120; 41]. repeat (apply Forall_cons; [lia|]). apply Forall_nil.
Qed.

(* ---------------- C05 ---------------- *)
(* full statement: forall t i, parse_obj t i <> Loop.  It fails: *)
Theorem C05_parse_terminates_refuted {ZL : Zlib} :
  parse_obj (B "<< /a ] >>") 0 = Loop /\ forall f, pobj f (B "<< /a ] >>") 0 = Loop.
Proof. split; [reflexivity|apply parse_obj_Loop; reflexivity]. Qed.
Print Assumptions C05_parse_terminates_refuted.
(* what holds: texts without ']' and without the word stream *)
Theorem C05_parse_terminates_partial {ZL : Zlib} : forall t i,
  ~ In 93 t -> ~ occurs W_stream t -> parse_obj t i <> Loop.
Proof. intros t i. apply parse_obj_terminates. Qed.
Print Assumptions C05_parse_terminates_partial.
(* the fuel of the model never cuts a computation short *)
Theorem C05_fuel_adequate {ZL : Zlib} : forall t i f, (length t < f)%nat -> pobj f t i = parse_obj t i.
Proof. intros t i f L. apply pobj_fuel; auto. Qed.
Print Assumptions C05_fuel_adequate.
Example C05_case {ZL : Zlib} : parse_obj (B "<< /a 1 0 R /b (x) >> ") 0 =
  Ok (PDict [(B "/b", PBytes (B "(x)")); (B "/a", PRef 0 1)]) /\ ~ In 93 (B "<< /a 1 0 R /b (x) >> ").
Proof. split; [reflexivity|]. vm_compute. intuition discriminate. Qed.

(* ---------------- C06 ---------------- *)
Theorem C06_reference_text {ZL : Zlib} : forall g n pre rest,
  (exists c r, rest = c :: r /\ (white c \/ delim c)) ->
  exists t, serialize (PRef g n) = Ok t /\
  exists a b, next_token (pre ++ t ++ rest) (length pre) = (length pre, a, Some TInteger) /\
    py_int 10 (sub (pre ++ t ++ rest) (length pre) a) = Some n /\
    next_token (pre ++ t ++ rest) a = (S a, b, Some TInteger) /\
    py_int 10 (sub (pre ++ t ++ rest) (S a) b) = Some g /\
    next_token (pre ++ t ++ rest) b = (S b, S (S b), Some TKeyword) /\
    sub (pre ++ t ++ rest) (S b) (S (S b)) = B "R" /\
    S (S b) = (length pre + length t)%nat.
Proof.
  intros g n pre rest (c & r & E & H). apply ref_tokens. exists c, r. split; auto. apply is_sep_iff; auto.
Qed.
Print Assumptions C06_reference_text.
(* full statement: for every wf_topg o, parse (serialize o) is peq to o.  It fails: *)
Theorem C06_generation_refuted {ZL : Zlib} : exists o, wf_topg o /\
  serialize o = Ok (B "[ 7 2 R ]") /\ parse_obj (B "[ 7 2 R ]") 0 = Ok (PList [PRef 0 7]) /\ o <> PList [PRef 0 7].
Proof.
  exists (PList [PRef 2 7]). split; [apply wt_val; [wfc|discriminate]|]. split; [reflexivity|]. split; [reflexivity|discriminate].
Qed.
Print Assumptions C06_generation_refuted.
(* what holds: numbers are kept at any place, generations become 0, nothing else changes *)
Theorem C06_references_partial {ZL : Zlib} : forall o, wf_topg o ->
  exists v, serialize o = Ok v /\
    forall pre tail, follows tail \/ (tail = [] /\ closed o) ->
      exists o', parse_obj (pre ++ v ++ tail) (length pre) = Ok o' /\ peq (zero_gen o) o'.
Proof. exact (serialize_parse_gen (fun _ => True)). Qed.
Print Assumptions C06_references_partial.

(* ---------------- C07 ---------------- *)
(* full statement: the theorem below without the two hypotheses on occurs.  It fails: *)
Theorem C07_literal_string_refuted : exists b, pdfbody b /\
  next_token (40 :: b ++ [41] ++ B " (x) 1 ") 0 <> (0, length (40 :: b ++ [41])%Z, Some TString)%nat.
Proof.
  exists [92; 92]. split; [apply pb_esc, pb_nil|]. vm_compute. discriminate.
Qed.
Print Assumptions C07_literal_string_refuted.
Theorem C07_literal_string_partial : forall b pre rest, pdfbody b ->
  ~ occurs [92; 92; 40] (b ++ [41]) -> ~ occurs [92; 92; 41] (b ++ [41]) ->
  next_token (pre ++ (40 :: b ++ [41]) ++ rest) (length pre)
  = (length pre, (length pre + length (40 :: b ++ [41])%Z)%nat, Some TString).
Proof. exact literal_token. Qed.
Print Assumptions C07_literal_string_partial.
Example C07_case : pdfbody (B "a\)(b\n)") /\ next_token (B "(a\)(b\n)) z") 0 = (0, 10, Some TString)%nat.
Proof.
  split; [|reflexivity]. apply pb_char; try discriminate. apply pb_esc. apply (pb_par (B "b\n") []); [|apply pb_nil].
  apply pb_char; try discriminate. apply pb_esc, pb_nil.
Qed.

(* ---------------- C08 ---------------- *)
Theorem C08_dictionary_pairs {ZL : Zlib} : forall d txt pre tail,
  Forall2 (fun kv kt => fst kt = fst kv /\ name_tok (fst kv) /\ wfv (snd kv) /\ serialize (snd kv) = Ok (snd kt)) d txt ->
  tail = [] \/ follows tail ->
  exists d', parse_obj (pre ++ dict_text txt ++ tail) (length pre) = Ok (PDict d') /\
    NoDup (map fst d') /\
    (forall k, dget k d' = None <-> ~ In k (map fst d)) /\
    (forall k v, dget k d = Some v -> exists v', dget k d' = Some v' /\ peq v v').
Proof. exact parse_pairs. Qed.
Print Assumptions C08_dictionary_pairs.
Example C08_case {ZL : Zlib} :
  dict_text [(B "/a", B "1"); (B "/b", B "[ ]"); (B "/a", B "2")] = B "<< /a 1 /b [ ] /a 2 >>" /\
  exists d', parse_obj (B "<< /a 1 /b [ ] /a 2 >>") 0 = Ok (PDict d') /\ dget (B "/a") d' = Some (PInt 1).
Proof. split; [reflexivity|]. eexists. split; reflexivity. Qed.

(* ---------------- C09 ---------------- *)
(* full statement: for every o, renamed f o (deep_ref_retarget m o).  It fails: *)
Theorem C09_retarget_refuted : exists m o f,
  (forall r r', In (r, r') m -> f r = r') /\ (forall r, ~ In r (map fst m) -> f r = r) /\
  ~ renamed f o (deep_ref_retarget m o).
Proof.
  exists [((0, 1), (0, 2))], (PStream [(B "/R", PRef 0 1)] None None),
    (fun r => if (fst r =? 0) && (snd r =? 1) then (0, 2) else r).
  split; [|split].
  - intros r r' [E|[]]. inversion E. reflexivity.
  - intros [g n] N. cbn in *. destruct (g =? 0) eqn:G, (n =? 1) eqn:NN; cbn; auto. exfalso. apply N. left. f_equal; lia.
  - cbn. intros R. inversion R as [| | |? ? ? ? F|]; subst; [|contradiction].
    inversion F as [|? ? ? ? P]; subst. destruct P as [_ P]. cbn in P. inversion P. contradiction.
Qed.
Print Assumptions C09_retarget_refuted.
Theorem C09_retarget_partial : forall f m o,
  (forall r r', In (r, r') m -> f r = r') -> (forall r, ~ In r (map fst m) -> f r = r) ->
  stream_free o -> renamed f o (deep_ref_retarget m o) /\ forall o', renamed f o o' -> o' = deep_ref_retarget m o.
Proof.
  intros f m o F1 F2 S. split; [exact (retarget_renames f m o F1 F2 S)|].
  intros o' R. exact (renamed_fun f o o' _ R (retarget_renames f m o F1 F2 S)).
Qed.
Print Assumptions C09_retarget_partial.
Theorem C09_streams_untouched : forall m d s e, deep_ref_retarget m (PStream d s e) = PStream d s e.
Proof. exact retarget_stream. Qed.
Print Assumptions C09_streams_untouched.
Example C09_case : deep_ref_retarget [((0, 1), (0, 9)); ((0, 9), (0, 3))]
   (PList [PRef 0 1; PDict [(B "/K", PList [PRef 0 9; PRef 0 5])]])
  = PList [PRef 0 9; PDict [(B "/K", PList [PRef 0 3; PRef 0 5])]].
Proof. reflexivity. Qed.

(* ---------------- C10 ---------------- *)
Theorem C10_detect_partial : forall o, (forall g n, o <> PRef g n) ->
  exists l, deep_ref_detect o = Some l /\ forall r, In r l <-> ref_in r o.
Proof. exact detect_refs. Qed.
Print Assumptions C10_detect_partial.
Theorem C10_detect_refuted : forall g n, ref_in (g, n) (PRef g n) /\ deep_ref_detect (PRef g n) = None.
Proof. intros g n. split; [exact (ri_here (g, n))|reflexivity]. Qed.
Print Assumptions C10_detect_refuted.
Example C10_case : deep_ref_detect (PStream [(B "/A", PList [PRef 0 4; PDict [(B "/B", PRef 1 2)]])] None None)
  = Some [(0, 4); (1, 2)].
Proof. reflexivity. Qed.

(* ---------------- C21 ---------------- *)
Theorem C21_expand_index : forall pairs, Forall (fun p => 1 <= snd p) pairs ->
  expand_xref_index (index_array pairs) = Ok (index_numbers 0 pairs).
Proof. intros pairs H. exact (expand_ok pairs H 0). Qed.
Print Assumptions C21_expand_index.
Theorem C21_odd_index : forall pairs x, expand_xref_index (index_array pairs ++ [x]) = Exc EIndexError.
Proof. exact expand_odd. Qed.
Print Assumptions C21_odd_index.
Theorem C21_count_zero_refuted : expand_xref_index [7; 0] = Ok [(7, 0)] /\ index_numbers 0 [(7, 0)] = [].
Proof. split; reflexivity. Qed.
Print Assumptions C21_count_zero_refuted.
Example C21_case : expand_xref_index [3; 2; 9; 1] = Ok [(3, 0); (4, 0); (9, 1)].
Proof. reflexivity. Qed.
