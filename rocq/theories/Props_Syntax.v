(* Property C99: objects as any program may write them *)
From Coq Require Import String.
From Verif Require Import PyBase Model_Filters Model_Objects Spec_Objects Spec_Filters Spec_Foreign Spec_Syntax.
From Verif Require Import Facts_Base Facts_Syntax Facts_Stored.

(* ---------------- C99 ---------------- *)
(* full statement: for every layout that the format allows.  The grammars spelled and
   object_text leave out: comments holding brackets, comments after the word obj or before the
   word stream, strings holding doubled brackets, references of a generation other than 0,
   hexadecimal strings directly before the end of a dictionary *)
Theorem C99_syntax_partial : forall {ZL : Zlib} o s, spelled o s -> (forall g n, o <> PRef g n) -> forall pre tail, apart o tail ->
  exists o', parse_obj (pre ++ s ++ tail) (length pre) = Ok o' /\ peq o o'.
Proof. intros ZL o s. exact (spelled_read o s). Qed.
Print Assumptions C99_syntax_partial.
Theorem C99_indirect_partial : forall {ZL : Zlib} n g o txt, object_text n g o txt -> exists o', peq o o' /\ forall pre post,
  object_read (pre ++ txt ++ post) (length pre) = Ok o' /\
  exists bo j, parse_indirect_obj (pre ++ txt ++ post) (length pre) = Ok (mk_ind bo j n g o').
Proof. intros ZL n g o txt. exact (stored_read n g o txt). Qed.
Print Assumptions C99_indirect_partial.

(* a comment after obj is taken for the object; a comment before stream hides the stream *)
Theorem C99_comment_refuted :
  @object_read store_codec (B "1 0 obj % c" ++ [10] ++ B "<</A 1>>endobj") 0 = Ok (PStr []) /\
  @object_read store_codec (B "1 0 obj <</Length 3>> % c" ++ [10] ++ B "stream" ++ [10] ++ B "abc" ++ [10] ++ B "endstream endobj") 0
  = Ok (PDict [(B "/Length", PInt 3)]).
Proof. split; vm_compute; reflexivity. Qed.
Print Assumptions C99_comment_refuted.
(* a bracket in a comment ends the container *)
Theorem C99_bracket_refuted :
  @parse_obj store_codec (B "<</A 1 % >>" ++ [10] ++ B "/B 2>> ") 0 = Ok (PDict [(B "/A", PInt 1)]) /\
  @parse_obj store_codec (B "[1 % ]" ++ [10] ++ B "2] ") 0 = Ok (PList [PInt 1]).
Proof. split; vm_compute; reflexivity. Qed.
Print Assumptions C99_bracket_refuted.

Lemma case_text : spelled (PDict [(B "/A", PList [PRef 0 1; PBytes (B "(x)"); PBytes (B "<41>")]); (B "/B", PReal (-5) (-1))])
  (B "<</A[01 0" ++ [10] ++ B "R(x)<41>]% c" ++ [10] ++ B "/B -.5>>").
Proof.
  assert (G0 : gap []) by constructor.
  assert (G32 : gap [32]) by (apply gap_white; [unfold white; lia|constructor]).
  assert (G10 : gap [10]) by (apply gap_white; [unfold white; lia|constructor]).
  assert (NM : forall c, regular c -> name_tok [47; c]) by (intros c R; exists [c]; split; auto).
  assert (RA : regular 65 /\ regular 66) by (unfold regular, white, delim; lia).
  change (B "<</A[01 0" ++ [10] ++ B "R(x)<41>]% c" ++ [10] ++ B "/B -.5>>") with
    (B "<<" ++ ([] ++ B "/A" ++ ([] ++ (B "[" ++ ([] ++ (B "01" ++ [32] ++ B "0" ++ [10] ++ B "R") ++ ([] ++ B "(x)" ++ ([] ++ B "<41>" ++ []))) ++ B "]") ++
      ((37 :: B " c" ++ 10 :: []) ++ B "/B" ++ ([32] ++ B "-.5" ++ [])))) ++ B ">>").
  apply (sp_dict [(B "/A", _); (B "/B", _)]).
  - repeat constructor; cbn; intuition discriminate.
  - constructor; [apply NM; tauto|]. constructor; [apply NM; tauto|constructor].
  - match goal with |- elements true ?l _ => let l' := eval cbn [flat_map fst snd app] in l in change l with l' end. apply (el_cons true []); auto.
    + apply sp_name, NM; tauto.
    + apply (el_cons true []); auto.
      * apply sp_array. apply (el_cons false []); auto.
        -- apply (sp_ref 1 [32] [10] (B "01") (B "0")); auto; try discriminate; [change (B "01") with [48; 49]|change (B "0") with [48]]; repeat constructor; unfold decdigit; lia.
        -- apply (el_cons false []); auto.
           ++ apply sp_lit.
              ** exists (B "x"). split; [reflexivity|]. apply (lb_char 120); try lia. constructor.
              ** assert (OC : forall c, c <> 40 -> c <> 120 -> c <> 41 -> ~ occurs [c; c] (B "(x)")).
                 { intros c A1 A2 A3 (a & b & Q). assert (I : In c (B "(x)")) by (rewrite Q; apply in_or_app; right; left; auto). cbn in I. lia. }
                 split; [apply OC; lia|]. split; [apply OC; lia|]. left. change (B "(x)") with [40; 120; 41]. repeat constructor; lia.
           ++ apply (el_cons false []); auto.
              ** apply sp_hex. exists (B "41"). split; [reflexivity|]. apply Forall_forall. intros c I. cbn in I. left. left. unfold decdigit. lia.
              ** constructor. auto.
              ** discriminate.
           ++ left. exact Logic.I.
           ++ discriminate.
        -- right. right. exists 40; eexists. split; [reflexivity|]. right. unfold delim. lia.
        -- discriminate.
      * apply el_cons; auto.
        -- apply (gap_comment (B " c") 10 []); auto. apply Forall_forall. intros c I. assert (C : c = 32 \/ c = 99) by (cbn in I; tauto || (destruct I as [<-|[<-|[]]]; auto)). split; [intro J; cbn in J; lia|lia].
        -- apply sp_name, NM; tauto.
        -- apply el_cons; auto.
           ++ apply sp_real. exists (-1), [45], [], [53], 0. split; [reflexivity|]. split; [constructor|]. split; [discriminate|]. split; [repeat constructor; unfold decdigit; lia|].
              split; [lia|]. split; [reflexivity|]. split; [reflexivity|]. right. discriminate.
           ++ constructor. auto.
           ++ intros _ (b & Q & _). discriminate.
        -- right. right. eexists _, _. split; [reflexivity|]. left. unfold white. lia.
        -- intros _ (b & Q & _). discriminate.
      * left. exact Logic.I.
      * intros _ (b & Q & _). discriminate.
    + right. right. exists 91; eexists. split; [reflexivity|]. right. unfold delim. lia.
    + intros _ (b & Q & _). discriminate.
Qed.
Example C99_case : exists o s, spelled o s /\ (forall g n, o <> PRef g n) /\ apart o (B " endobj") /\
  @parse_obj store_codec (s ++ B " endobj") 0 = Ok (PDict [(B "/B", PReal (-5) (-1)); (B "/A", PList [PRef 0 1; PBytes (B "(x)"); PBytes (B "<41>")])]).
Proof.
  eexists _, _. split; [exact case_text|]. split; [discriminate|]. split; [|vm_compute; reflexivity].
  split; [left; exact Logic.I|]. exists [32], (B "endobj"). split; [reflexivity|]. split; [apply gap_white; [unfold white; lia|constructor]|].
  right. exists 101; eexists. split; [reflexivity|]. split; [left; unfold letter; lia|]. intros [r Q]. discriminate.
Qed.
Example C99_indirect_case : exists txt, @object_text store_codec 7 0 (PStream [] (Some (B "q Q")) (Some (B "q Q"))) txt /\
  @parse_indirect_obj store_codec (B "%PDF " ++ txt ++ [10]) 5 = Ok (mk_ind (Some 5%nat) 46 7 0 (PStream [] (Some (B "q Q")) (Some (B "q Q")))).
Proof.
  exists (B "07" ++ [9] ++ B "0" ++ [13; 10] ++ B "obj" ++ [] ++ ((B "<<" ++ [] ++ B ">>") ++ [32] ++ B "stream" ++ [13; 10] ++ B "q Q" ++ [13] ++ B "endstream") ++ [] ++ B "endobj"). split.
  - exists (B "07"), [9], (B "0"), [13; 10], [], ((B "<<" ++ [] ++ B ">>") ++ [32] ++ B "stream" ++ [13; 10] ++ B "q Q" ++ [13] ++ B "endstream"), [].
    split; [reflexivity|]. split; [discriminate|]. split; [change (B "07") with [48; 55]; repeat constructor; unfold decdigit; lia|]. split; [reflexivity|].
    split; [discriminate|]. split; [change (B "0") with [48]; repeat constructor; unfold decdigit; lia|]. split; [reflexivity|].
    split; [repeat constructor; unfold white; lia|]. split; [discriminate|]. split; [repeat constructor; unfold white; lia|]. split; [discriminate|]. split; [constructor|].
    split; [right; exists 60; eexists; split; [reflexivity|unfold delim; lia]|]. split; [|split; [constructor|right; left; eauto]].
    apply (co_stream [] _ [32] [13; 10] (B "q Q") [13]).
    + apply (sp_dict [] []); constructor. constructor.
    + constructor; [unfold white; lia|constructor].
    + auto.
    + intros (a & b & Q). apply (f_equal (@length Z)) in Q. rewrite !app_length in Q. change (length (B "q Q")) with 3%nat in Q. change (length (B "endstream")) with 9%nat in Q. lia.
    + right. left. reflexivity.
    + discriminate.
    + reflexivity.
  - vm_compute. reflexivity.
Qed.
