(* Properties C81, C82: the text of a page *)
From Coq Require Import String QArith Qcanon Sorted Permutation.
From Verif Require Import PyBase Model_Filters Model_Objects Spec_Objects Spec_Filters Facts_Base
  Model_Text Model_Graphics Model_Layout Spec_Layout Facts_Layout.
Open Scope Z_scope.

(* ---------------- C81 ---------------- *)
(* full statement: the text of every fragment of the page is printed, once.  True when a text is
   returned; the lines are read from top to bottom, each from left to right *)
Theorem C81_texts_partial : forall blocks out, basic_spatial_layout blocks = Ok out ->
  exists s sp lines, dominant blocks s /\ line_distance blocks s sp /\ in_lines sp blocks lines /\
    ink out = ink (flat_map tb_text (concat lines)).
Proof. exact layout_texts. Qed.
Print Assumptions C81_texts_partial.
Theorem C81_page_text_partial {ZL : Zlib} : forall contents fonts out, page_text contents fonts = Ok out ->
  exists tfs order, build_text_fragments contents fonts = Ok tfs /\
    Permutation (map (fun f => snd (fst f)) tfs) order /\ ink out = ink (concat order).
Proof. exact page_text_order. Qed.
Print Assumptions C81_page_text_partial.
(* a page whose only text is one letter has no text: the width of a character is 0 *)
Definition bare_font : font := mkfont (fun s => Ok (removelast (tl s), removelast (tl s))) (fun _ => PInt 500).
Theorem C81_refuted : exists contents fonts tfs,
  @build_text_fragments store_codec contents fonts = Ok tfs /\ map (fun f => snd (fst f)) tfs = [B "A"] /\
  @page_text store_codec contents fonts = Exc EZeroDivision.
Proof.
  exists [PStream [] (Some (B "BT /F1 12 Tf 50 50 Td (A) Tj ET")) None], [(B "/F1", bare_font)]. eexists.
  split; [vm_compute; reflexivity|]. split; [reflexivity|vm_compute; reflexivity].
Qed.
Print Assumptions C81_refuted.
Definition two_lines : bytes := Eval vm_compute in B "BT /F1 12 Tf 50 700 Td (Name) Tj 120 0 Td (Value) Tj -120 -40 Td (Total) Tj ET".
Example C81_case : exists out, @page_text store_codec [PStream [] (Some two_lines) None] [(B "/F1", bare_font)] = Ok out /\
  out = B "Name                Value" ++ [10; 10; 10; 10] ++ B "Total" ++ [10].
Proof. eexists. split; [vm_compute; reflexivity|]. vm_compute. reflexivity. Qed.

(* ---------------- C82 ---------------- *)
Theorem C82_page_partial : forall blocks, blocks <> [] -> Forall (fun b => (0 < tb_s b)%Qc) blocks ->
  Forall (fun b => (2 <= length (tb_text b))%nat -> (0 < tb_w b)%Qc) blocks ->
  Forall (fun b => tb_x b <> qc (-1) /\ tb_y b <> qc (-1)) blocks ->
  (forall s, dominant blocks s -> exists b, In b blocks /\ tb_s b = s /\ (2 <= length (tb_text b))%nat) ->
  exists s sp cw mx lines rows out, basic_spatial_layout blocks = Ok out /\
    dominant blocks s /\ line_distance blocks s sp /\ (0 < sp)%Qc /\ average_width blocks s cw /\ margin blocks mx /\
    in_lines sp blocks lines /\ Forall2 (row mx cw) lines rows /\ page sp lines rows out.
Proof. exact layout_page. Qed.
Print Assumptions C82_page_partial.
(* moving the whole page changes its text: -1 is taken for an absent value *)
Definition block (x y w : Z) (t : string) : tblock := mk_tb (qc x) (qc y) (qc w) (qc 12) (B t).
Definition moved (dx dy : Z) (b : tblock) : tblock := mk_tb (tb_x b + qc dx)%Qc (tb_y b + qc dy)%Qc (tb_w b) (tb_s b) (tb_text b).
Theorem C82_refuted :
  (exists blocks out out', basic_spatial_layout blocks = Ok out /\
     basic_spatial_layout (map (moved 1 0) blocks) = Ok out' /\ out <> out') /\
  (exists blocks out out', basic_spatial_layout blocks = Ok out /\
     basic_spatial_layout (map (moved 0 1) blocks) = Ok out' /\ out <> out').
Proof.
  split.
  - exists [block (-1) 100 10 "ab"; block 19 80 10 "cd"]. eexists _, _. split; [vm_compute; reflexivity|]. split; [vm_compute; reflexivity|]. discriminate.
  - exists [block 10 (-1) 10 "ab"; block 10 (-61) 10 "cd"]. eexists _, _. split; [vm_compute; reflexivity|]. split; [vm_compute; reflexivity|]. discriminate.
Qed.
Print Assumptions C82_refuted.
Example C82_case : let blocks := [block 50 700 24 "Name"; block 170 700 30 "Value"; block 50 660 30 "Total"] in
  Forall (fun b => (0 < tb_s b)%Qc) blocks /\
  Forall (fun b => (2 <= length (tb_text b))%nat -> (0 < tb_w b)%Qc) blocks /\
  Forall (fun b => tb_x b <> qc (-1) /\ tb_y b <> qc (-1)) blocks /\
  (forall s, dominant blocks s -> exists b, In b blocks /\ tb_s b = s /\ (2 <= length (tb_text b))%nat) /\
  basic_spatial_layout blocks = Ok (B "Name                Value" ++ [10; 10; 10; 10] ++ B "Total" ++ [10]).
Proof.
  cbn zeta. split; [repeat constructor|]. split; [repeat constructor|]. split; [repeat constructor; discriminate|]. split; [|vm_compute; reflexivity].
  intros s D. exists (block 50 700 24 "Name"). split; [left; reflexivity|]. split; [|vm_compute; lia]. specialize (D (qc 12)).
  destruct (Qc_eq_dec (qc 12) s) as [E|N]; [exact E|]. exfalso. revert D. unfold chars. cbn [map list_sum fold_right block tb_s tb_text].
  destruct (Qc_eq_dec (qc 12) s); [contradiction|]. destruct (Qc_eq_dec (qc 12) (qc 12)); [|congruence]. vm_compute. lia.
Qed.
