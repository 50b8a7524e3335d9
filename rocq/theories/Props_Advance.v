(* C96 for arrays shown with TJ *)
From Coq Require Import String QArith Qcanon.
From Verif Require Import PyBase Model_Filters Model_Objects Spec_Objects Spec_Filters Facts_Base
  Model_Text Model_Graphics Spec_Graphics Facts_Graphics Spec_Advance Facts_Advance.
Open Scope Z_scope.

(* full statement: a shown array moves the text position by array_shift.  The spacings are added once
   per array, and each number adds a fifth of a space: the error is this *)
Theorem C96_array_partial : forall fonts l cs r g st ts fr f sp fs th rise tc tw,
  fragments_loop fonts ([PList (map tj_obj l); PStr (B "TJ")] :: r) (g :: st) (Some ts) = Ok fr ->
  font_of fonts (t_Tf ts) = Ok f -> Forall2 (tj_codes f) l cs -> l <> [] ->
  num_of (f_width f 32) = Ok sp -> q_int sp <> 0 ->
  num_of (t_Tfs ts) = Ok fs -> num_of (t_Th ts) = Ok th -> num_of (t_Trise ts) = Ok rise ->
  num_of (t_Tc ts) = Ok tc -> num_of (t_Tw ts) = Ok tw ->
  exists m rest, fragments_loop fonts r (g :: st) (Some (set_tm m (t_tlm ts) ts)) = Ok rest /\
  forall p, act m p = act (t_tm ts) (shift p (array_shift fs tc tw th l cs
     + (qc (1 - Z.of_nat (length (concat cs))) * tc + qc (1 - spaces (concat cs)) * tw
        + qc (tj_count l) * (sp / qc 5 / qc 1000) * fs) * th / qc 100, 0)%Qc).
Proof. exact array_spacing. Qed.
Print Assumptions C96_array_partial.

(* glyphs half as wide as high, in two strings with 100 thousandths between them: the next string
   starts at 15 + 1 + 1 instead of 15 + 1 *)
Definition half_mono : font := mkfont (fun s => let t := removelast (tl s) in Ok (t, t)) (fun _ => PInt 500).
Definition two_strings : list tj_elem := [TJStr (B "(ab)") (B "ab") [qc 500; qc 500]; TJNum (PInt (-100)) (qc (-100)); TJStr (B "(c)") (B "c") [qc 500]].
Theorem C96_array_refuted : exists a b,
  @build_text_fragments store_codec [PStream [] (Some (B "BT /F1 10 Tf [(ab)-100(c)] TJ (d) Tj ET")) None] [(B "/F1", half_mono)] = Ok [a; b] /\
  array_shift (qc 10) 0 0 (qc 100) two_strings [B "ab"; []; B "c"] = qc 16 /\
  me (fst (fst a)) = qc 0 /\ me (fst (fst b)) = qc 17.
Proof.
  eexists _, _. split; [vm_compute; reflexivity|].
  split; [apply Qc_is_canon; vm_compute; reflexivity|]. split; apply Qc_is_canon; vm_compute; reflexivity.
Qed.
Print Assumptions C96_array_refuted.
Example C96_array_case : Forall2 (tj_codes half_mono) two_strings [B "ab"; []; B "c"] /\ num_of (f_width half_mono 32) = Ok (qc 500) /\ q_int (qc 500) <> 0.
Proof.
  split; [|split; [reflexivity|vm_compute; discriminate]]. unfold two_strings.
  constructor; [split; [reflexivity|repeat (constructor; [reflexivity|]); constructor]|]. constructor; [split; reflexivity|]. constructor; [split; [reflexivity|repeat (constructor; [reflexivity|]); constructor]|constructor].
Qed.
