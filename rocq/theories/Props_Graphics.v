(* Properties C46-C48, C63-C65: content streams, graphics and text state *)
From Coq Require Import String QArith Qcanon.
From Verif Require Import PyBase Model_Filters Model_Objects Spec_Objects Spec_Filters Facts_Base
  Model_Text Model_Graphics Spec_Graphics Facts_Graphics.
Open Scope Z_scope.

(* ---------------- C46 ---------------- *)
(* full statement: the commands returned cut the tokens.  True when the first token is an operator *)
Theorem C46_operator_first_partial {ZL : Zlib} : forall c t0 toks,
  parse_obj ([91] ++ c ++ [93]) 0 = Ok (PList (t0 :: toks)) -> operator t0 ->
  exists cmds, splits (t0 :: toks) cmds /\ parse_stream_content c = Ok cmds.
Proof.
  intros c t0 toks H Ho. destruct (stream_commands c _ H) as (cmds & S & E). exists cmds. split; [exact S|].
  apply is_operator_iff in Ho. rewrite E, Ho. reflexivity.
Qed.
Print Assumptions C46_operator_first_partial.
(* otherwise the first command is there twice *)
Theorem C46_operand_first_refuted {ZL : Zlib} : forall c t0 toks,
  parse_obj ([91] ++ c ++ [93]) 0 = Ok (PList (t0 :: toks)) -> ~ operator t0 ->
  exists cmd cmds, splits (t0 :: toks) (cmd :: cmds) /\ parse_stream_content c = Ok (cmd :: cmd :: cmds).
Proof.
  intros c t0 toks H Ho. destruct (stream_commands c _ H) as (cmds & S & E).
  assert (Hn : is_operator t0 = false) by (destruct (is_operator t0) eqn:X; [apply is_operator_iff in X; contradiction|reflexivity]).
  rewrite Hn in E. destruct cmds as [|cmd cmds]; [inversion S; subst; destruct ops; discriminate|].
  exists cmd, cmds. split; [exact S|exact E].
Qed.
Print Assumptions C46_operand_first_refuted.
(* the effect: a transformation at the start of a page is applied twice *)
Theorem C46_effect_refuted : exists cmds m ts,
  @parse_stream_content store_codec (B "2 0 0 2 0 0 cm") = Ok cmds /\
  run_commands cmds [] None = Ok ([m], ts) /\ ma m = qc 4.
Proof.
  eexists _, _, _. split; [vm_compute; reflexivity|]. split; [cbv [run_commands]; reflexivity|].
  cbn [ma]. apply Qc_is_canon. vm_compute. reflexivity.
Qed.
Print Assumptions C46_effect_refuted.
Example C46_case : @parse_stream_content store_codec (B "BT /F1 12 Tf (a b) Tj ET") =
  Ok [[PStr (B "BT")]; [PStr (B "/F1"); PInt 12; PStr (B "Tf")]; [PBytes (B "(a b)"); PStr (B "Tj")]; [PStr (B "ET")]].
Proof. vm_compute. reflexivity. Qed.

(* ---------------- C47 ---------------- *)
Theorem C47_save_restore : forall a s b gs ts gs' ts', is_cmd "q" a -> balanced s -> is_cmd "Q" b -> gs <> [] ->
  run_commands (a :: s ++ [b]) gs ts = Ok (gs', ts') -> gs' = gs.
Proof. exact save_restore. Qed.
Print Assumptions C47_save_restore.
(* the text parameters belong to the graphics state in the standard, but are not restored *)
Theorem C47_text_refuted : exists ts gs' ts',
  run_commands [[PStr (B "q")]; [PInt 7; PStr (B "Tc")]; [PStr (B "Q")]] [IDENTITY_MATRIX] (Some ts) = Ok (gs', Some ts') /\
  t_Tc ts' <> t_Tc ts.
Proof. exists ts0. eexists _, _. split; [reflexivity|]. discriminate. Qed.
Print Assumptions C47_text_refuted.
Example C47_case : let cm := map PInt [2; 0; 0; 3; 5; 7] ++ [PStr (B "cm")] in
  balanced [cm; [PStr (B "q")]; cm; [PStr (B "Q")]; cm] /\
  exists ts', run_commands ([PStr (B "q")] :: [cm; [PStr (B "q")]; cm; [PStr (B "Q")]; cm] ++ [[PStr (B "Q")]]) [IDENTITY_MATRIX] None
     = Ok ([IDENTITY_MATRIX], ts').
Proof.
  cbv zeta. set (cm := map PInt [2; 0; 0; 3; 5; 7] ++ [PStr (B "cm")]).
  assert (Nq : ~ is_cmd "q" cm) by (rewrite is_cmd_op; discriminate).
  assert (NQ : ~ is_cmd "Q" cm) by (rewrite is_cmd_op; discriminate).
  split; [|eexists; reflexivity].
  apply Bal_other; auto. apply (Bal_group [PStr (B "q")] [cm] [PStr (B "Q")] [cm]).
  - exists []. reflexivity.
  - apply Bal_other; auto. apply Bal_nil.
  - exists []. reflexivity.
  - apply Bal_other; auto. apply Bal_nil.
Qed.

(* ---------------- C48 ---------------- *)
Theorem C48_monoid : forall a b c,
  multiply_matrices (multiply_matrices a b) c = multiply_matrices a (multiply_matrices b c) /\
  multiply_matrices IDENTITY_MATRIX a = a /\ multiply_matrices a IDENTITY_MATRIX = a.
Proof. intros a b c. split; [apply mul_assoc|split; [apply mul_id_l|apply mul_id_r]]. Qed.
Print Assumptions C48_monoid.
Theorem C48_composition : forall a b p, act (multiply_matrices a b) p = act b (act a p).
Proof. exact act_mul. Qed.
Print Assumptions C48_composition.
Theorem C48_cm : forall a b c d e f m g st ts, mat_of [a; b; c; d; e; f] = Ok m ->
  exists g', apply_command [a; b; c; d; e; f; PStr (B "cm")] (g :: st) ts = Ok (g' :: st, cur ts) /\
  forall p, act g' p = act g (act m p).
Proof. exact op_cm. Qed.
Print Assumptions C48_cm.
Theorem C48_Td : forall x y qx qy gs ts, gs <> [] -> num_of x = Ok qx -> num_of y = Ok qy ->
  exists m, apply_command [x; y; PStr (B "Td")] gs ts = Ok (gs, set_tm m m (cur ts)) /\
  forall p, act m p = act (t_tlm (cur ts)) (shift p (qx, qy)).
Proof. exact op_Td. Qed.
Print Assumptions C48_Td.
Theorem C48_Td_adds : forall x1 y1 x2 y2 x y a b c d gs ts, gs <> [] ->
  num_of x1 = Ok a -> num_of y1 = Ok b -> num_of x2 = Ok c -> num_of y2 = Ok d ->
  num_of x = Ok (a + c)%Qc -> num_of y = Ok (b + d)%Qc ->
  run_commands [[x1; y1; PStr (B "Td")]; [x2; y2; PStr (B "Td")]] gs ts =
  run_commands [[x; y; PStr (B "Td")]] gs ts.
Proof. exact Td_adds. Qed.
Print Assumptions C48_Td_adds.
Theorem C48_TD : forall x y qx qy gs ts, gs <> [] -> num_of x = Ok qx -> num_of y = Ok qy ->
  exists l m, num_of l = Ok (- qy)%Qc /\
  apply_command [x; y; PStr (B "TD")] gs ts = Ok (gs, set_tm m m (set_Tl l (cur ts))) /\
  forall p, act m p = act (t_tlm (cur ts)) (shift p (qx, qy)).
Proof. exact op_TD. Qed.
Print Assumptions C48_TD.
Theorem C48_newline : forall ops w ql gs ts, w = "T*"%string \/ w = "'"%string -> gs <> [] -> num_of (t_Tl (cur ts)) = Ok ql ->
  exists m, apply_command (ops ++ [PStr (B w)]) gs ts = Ok (gs, set_tm m m (cur ts)) /\
  forall p, act m p = act (t_tlm (cur ts)) (shift p (qc 0, (- ql)%Qc)).
Proof. exact op_Tstar. Qed.
Print Assumptions C48_newline.
Theorem C48_dquote : forall w c s ql gs ts, gs <> [] -> num_of (t_Tl (cur ts)) = Ok ql ->
  exists m, apply_command [w; c; s; PStr [34]] gs ts = Ok (gs, set_tm m m (set_Tc c (set_Tw w (cur ts)))) /\
  forall p, act m p = act (t_tlm (cur ts)) (shift p (qc 0, (- ql)%Qc)).
Proof. exact op_dquote. Qed.
Print Assumptions C48_dquote.
Theorem C48_Tm_BT : forall a b c d e f m gs ts, gs <> [] -> mat_of [a; b; c; d; e; f] = Ok m ->
  apply_command [a; b; c; d; e; f; PStr (B "Tm")] gs ts = Ok (gs, set_tm m m (cur ts)) /\
  apply_command [PStr (B "BT")] gs ts = Ok (gs, set_tm IDENTITY_MATRIX IDENTITY_MATRIX (cur ts)).
Proof. intros. split; [now apply op_Tm|now apply op_BT]. Qed.
Print Assumptions C48_Tm_BT.
Theorem C48_parameters : forall v f s gs ts, gs <> [] ->
  apply_command [v; PStr (B "Tc")] gs ts = Ok (gs, set_Tc v (cur ts)) /\
  apply_command [v; PStr (B "Tw")] gs ts = Ok (gs, set_Tw v (cur ts)) /\
  apply_command [v; PStr (B "Tz")] gs ts = Ok (gs, set_Th v (cur ts)) /\
  apply_command [v; PStr (B "TL")] gs ts = Ok (gs, set_Tl v (cur ts)) /\
  apply_command [f; s; PStr (B "Tf")] gs ts = Ok (gs, set_font f s (cur ts)) /\
  apply_command [v; PStr (B "Tr")] gs ts = Ok (gs, set_Tmode v (cur ts)) /\
  apply_command [v; PStr (B "Ts")] gs ts = Ok (gs, set_Trise v (cur ts)).
Proof. exact op_params. Qed.
Print Assumptions C48_parameters.
Theorem C48_text_space : forall ts g st fs th rise,
  num_of (t_Tfs ts) = Ok fs -> num_of (t_Th ts) = Ok th -> num_of (t_Trise ts) = Ok rise ->
  exists m, trm ts (g :: st) = Ok m /\
  forall x y, act m (x, y) = act g (act (t_tm ts) ((fs * th / qc 100 * x)%Qc, (fs * y + rise)%Qc)).
Proof. exact trm_act. Qed.
Print Assumptions C48_text_space.
Example C48_case : exists m, mat_of (map PInt [2; 0; 0; 3; 5; 7]) = Ok m /\ act m (qc 1, qc 1) = (qc 7, qc 10).
Proof. eexists. split; [reflexivity|]. unfold act. cbn [ma mb mc md me mf]. f_equal; apply Qc_is_canon; vm_compute; reflexivity. Qed.

(* ---------------- C63 ---------------- *)
Theorem C63_strings : forall f l, Forall (fun e => tj_ok f e /\ exists s us ws, e = TJStr s us ws) l -> forall u0 w0,
  tj_items f (map tj_obj l) u0 w0 =
  Ok (u0 ++ concat (map (fun e => match e with TJStr _ us _ => us | _ => [] end) l), w0 + sum_q (map tj_advance l))%Qc.
Proof. exact tj_strings. Qed.
Print Assumptions C63_strings.
(* full statement: the advance of a TJ array is the sum of tj_advance.  Each number adds a fifth of a space *)
Theorem C63_advance_partial : forall f sp l, num_of (f_width f 32) = Ok sp -> q_int sp <> 0 -> Forall (tj_ok f) l ->
  forall u0 w0, exists u, tj_items f (map tj_obj l) u0 w0 =
    Ok (u, w0 + sum_q (map tj_advance l) + qc (tj_count l) * (sp * (qc 2 / qc 10) / qc 1000))%Qc.
Proof. exact tj_items_width. Qed.
Print Assumptions C63_advance_partial.
Definition mono : font := mkfont (fun s => Ok (s, s)) (fun _ => PInt 500).
Theorem C63_zero_refuted : exists ts f u w u' w',
  font_of [(B "/F1", f)] (t_Tf ts) = Ok f /\
  text_element_to_unicode [(B "/F1", f)] [PList [PBytes [97]; PInt 0; PBytes [98]]; PStr (B "TJ")] ts = Ok (u, w) /\
  text_element_to_unicode [(B "/F1", f)] [PList [PBytes [97]; PBytes [98]]; PStr (B "TJ")] ts = Ok (u', w') /\
  u = u' /\ w <> w'.
Proof.
  exists (set_font (PStr (B "/F1")) (PInt 12) ts0), mono. eexists _, _, _, _.
  split; [reflexivity|]. split; [reflexivity|]. split; [reflexivity|]. split; [reflexivity|].
  intro C. apply (f_equal this) in C. vm_compute in C. discriminate C.
Qed.
Print Assumptions C63_zero_refuted.
Example C63_case : Forall (tj_ok mono) [TJStr [97] [97] [qc 500]; TJNum (PInt (-900)) (qc (-900)); TJStr [98; 99] [98; 99] [qc 500; qc 500]] /\
  exists w, tj_items mono [PBytes [97]; PInt (-900); PBytes [98; 99]] [] (qc 0) = Ok (B "a  bc", w).
Proof.
  split; [|eexists; reflexivity].
  constructor; [exists [97]; split; [reflexivity|repeat constructor]|]. constructor; [reflexivity|].
  constructor; [exists [98; 99]; split; [reflexivity|repeat constructor]|constructor].
Qed.

(* ---------------- C64 ---------------- *)
Theorem C64_fragments_partial : forall fonts cs gs ts fr, fragments_loop fonts cs gs ts = Ok fr ->
  exists sel, shown cs sel /\ length sel = length fr.
Proof. exact fragments_count. Qed.
Print Assumptions C64_fragments_partial.
Theorem C64_position_partial : forall fonts s r g st ts fr f us chars ws fs th rise tc tw,
  fragments_loop fonts ([PBytes s; PStr (B "Tj")] :: r) (g :: st) (Some ts) = Ok fr ->
  font_of fonts (t_Tf ts) = Ok f -> f_dec f s = Ok (us, chars) ->
  Forall2 (fun c w => num_of (f_width f c) = Ok w) chars ws ->
  num_of (t_Tfs ts) = Ok fs -> num_of (t_Th ts) = Ok th -> num_of (t_Trise ts) = Ok rise ->
  num_of (t_Tc ts) = Ok tc -> num_of (t_Tw ts) = Ok tw ->
  exists old new rest m, fr = (old, us, new) :: rest /\
  (forall x y, act old (x, y) = act g (act (t_tm ts) ((fs * th / qc 100 * x)%Qc, (fs * y + rise)%Qc))) /\
  (forall p, act m p = act (t_tm ts) (shift p ((sum_q ws / qc 1000 * fs + tc + tw) * th / qc 100, 0)%Qc)) /\
  (forall x y, act new (x, y) = act g (act m ((fs * th / qc 100 * x)%Qc, (fs * y + rise)%Qc))) /\
  fragments_loop fonts r (g :: st) (Some (set_tm m (t_tlm ts) ts)) = Ok rest.
Proof. exact fragment_first. Qed.
Print Assumptions C64_position_partial.
(* the two quote operators also show text; it is lost *)
Theorem C64_quote_refuted : exists fr,
  @build_text_fragments store_codec [PStream [] (Some (B "BT /F1 12 Tf (a) Tj (b) ' ET")) None] [(B "/F1", mono)] = Ok fr /\
  map (fun x => snd (fst x)) fr = [B "(a)"].
Proof. eexists. split; [vm_compute; reflexivity|reflexivity]. Qed.
Print Assumptions C64_quote_refuted.
Example C64_case : exists fr,
  @build_text_fragments store_codec [PStream [] (Some (B "BT /F1 12 Tf 5 5 Td (a) Tj [(b) -900 (c)] TJ ET")) None] [(B "/F1", mono)] = Ok fr /\
  map (fun x => snd (fst x)) fr = [B "(a)"; B "(b)  (c)"].
Proof. eexists. split; [vm_compute; reflexivity|reflexivity]. Qed.

(* ---------------- C65 ---------------- *)
(* two streams are joined without a separator: two words become one (see Props_Contents for
   the divisions that do not matter) *)
Theorem C65_joined_refuted : exists a b fonts fr fr',
  @build_text_fragments store_codec [PStream [] (Some a) None; PStream [] (Some b) None] fonts = Ok fr /\
  @build_text_fragments store_codec [PStream [] (Some (a ++ [10] ++ b)) None] fonts = Ok fr' /\
  length fr <> length fr'.
Proof.
  exists (B "BT /F1 12 Tf (a) Tj"), (B "ET BT (b) Tj ET"), [(B "/F1", mono)]. eexists _, _.
  split; [vm_compute; reflexivity|]. split; [vm_compute; reflexivity|]. discriminate.
Qed.
Print Assumptions C65_joined_refuted.

(* ---------------- C96 ---------------- *)
(* full statement: a shown string advances by string_shift.  The code adds the two spacings once
   per string instead of once per glyph (per space): the error is this *)
Theorem C96_error_partial : forall fonts s r g st ts fr f us chars ws fs th rise tc tw,
  fragments_loop fonts ([PBytes s; PStr (B "Tj")] :: r) (g :: st) (Some ts) = Ok fr ->
  font_of fonts (t_Tf ts) = Ok f -> f_dec f s = Ok (us, chars) ->
  Forall2 (fun c w => num_of (f_width f c) = Ok w) chars ws ->
  num_of (t_Tfs ts) = Ok fs -> num_of (t_Th ts) = Ok th -> num_of (t_Trise ts) = Ok rise ->
  num_of (t_Tc ts) = Ok tc -> num_of (t_Tw ts) = Ok tw ->
  exists m rest, fragments_loop fonts r (g :: st) (Some (set_tm m (t_tlm ts) ts)) = Ok rest /\
  forall p, act m p = act (t_tm ts) (shift p (string_shift fs tc tw th chars ws
     + (qc (1 - Z.of_nat (length chars)) * tc + qc (1 - spaces chars) * tw) * th / qc 100, 0)%Qc).
Proof. exact fragment_spacing. Qed.
Print Assumptions C96_error_partial.
(* without spacings, the format's displacement *)
Theorem C96_unspaced_partial : forall fonts s r g st ts fr f us chars ws fs th rise,
  fragments_loop fonts ([PBytes s; PStr (B "Tj")] :: r) (g :: st) (Some ts) = Ok fr ->
  font_of fonts (t_Tf ts) = Ok f -> f_dec f s = Ok (us, chars) ->
  Forall2 (fun c w => num_of (f_width f c) = Ok w) chars ws ->
  num_of (t_Tfs ts) = Ok fs -> num_of (t_Th ts) = Ok th -> num_of (t_Trise ts) = Ok rise ->
  num_of (t_Tc ts) = Ok 0%Qc -> num_of (t_Tw ts) = Ok 0%Qc ->
  exists m rest, fragments_loop fonts r (g :: st) (Some (set_tm m (t_tlm ts) ts)) = Ok rest /\
  forall p, act m p = act (t_tm ts) (shift p (string_shift fs 0 0 th chars ws, 0)%Qc).
Proof.
  intros fonts s r g st ts fr f us chars ws fs th rise H Hf Hd Hw Hfs Hth Hri Htc Htw.
  destruct (fragment_spacing fonts s r g st ts fr f us chars ws fs th rise _ _ H Hf Hd Hw Hfs Hth Hri Htc Htw) as (m & rest & E & Hm).
  exists m, rest. split; [exact E|]. intro p. rewrite Hm. do 3 f_equal. field. discriminate.
Qed.
Print Assumptions C96_unspaced_partial.
(* a font of glyphs half as wide as high, whose literal strings denote their characters *)
Definition half_font : font := mkfont (fun s => let t := removelast (tl s) in Ok (t, t)) (fun _ => PInt 500).
(* two glyphs 5 units wide with a spacing of 2: the next string starts at 12 instead of 14 *)
Theorem C96_spacing_refuted : exists a b,
  @build_text_fragments store_codec [PStream [] (Some (B "BT /F1 10 Tf 2 Tc (ab) Tj (c) Tj ET")) None] [(B "/F1", half_font)] = Ok [a; b] /\
  string_shift (qc 10) (qc 2) 0 (qc 100) (B "ab") [qc 500; qc 500] = qc 14 /\
  me (fst (fst a)) = qc 0 /\ me (fst (fst b)) = qc 12.
Proof.
  eexists _, _. split; [vm_compute; reflexivity|].
  split; [apply Qc_is_canon; vm_compute; reflexivity|]. split; apply Qc_is_canon; vm_compute; reflexivity.
Qed.
Print Assumptions C96_spacing_refuted.
Example C96_case : exists a b,
  @build_text_fragments store_codec [PStream [] (Some (B "BT /F1 10 Tf 50 Tz (ab c) Tj (c) Tj ET")) None] [(B "/F1", half_font)] = Ok [a; b] /\
  string_shift (qc 10) 0 0 (qc 50) (B "ab c") [qc 500; qc 500; qc 500; qc 500] = qc 10 /\
  snd (fst a) = B "ab c" /\ me (fst (fst b)) = qc 10.
Proof.
  eexists _, _. split; [vm_compute; reflexivity|].
  split; [apply Qc_is_canon; vm_compute; reflexivity|]. split; [reflexivity|apply Qc_is_canon; vm_compute; reflexivity].
Qed.
