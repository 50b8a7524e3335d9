(* C65: page contents divided into several streams *)
From Coq Require Import String QArith Qcanon.
From Verif Require Import PyBase Model_Filters Model_Objects Model_Graphics Spec_Objects Spec_Filters Spec_Syntax Spec_Contents
  Facts_Contents Props_Graphics.
Open Scope Z_scope.

(* full statement: without parts_meet.  It fails when a part ends with a token that the next one
   prolongs (C65_joined_refuted) *)
Theorem C65_parts_partial : forall {ZL : Zlib} cs parts ls whole d e fonts,
  Forall2 (fun o s => exists d e, o = PStream d (Some s) e) cs parts -> Forall2 (elements false) ls parts -> parts_meet parts ->
  spaced parts whole -> build_text_fragments cs fonts = build_text_fragments [PStream d (Some whole) e] fonts.
Proof. intros ZL. exact contents_parts. Qed.
Print Assumptions C65_parts_partial.

(* a string and its operator in two streams, the first ending with a parenthesis, the second with a blank *)
Definition two_parts : list bytes := [B "BT /F1 12 Tf (a)"; B "Tj "; B "ET"].
Example C65_parts_case : (exists ls, Forall2 (elements false) ls two_parts) /\ parts_meet two_parts /\
  spaced two_parts (B "BT /F1 12 Tf (a)" ++ [10] ++ B "Tj " ++ [13; 10] ++ B "ET") /\
  exists fr, @build_text_fragments store_codec (map (fun s => PStream [] (Some s) None) two_parts) [(B "/F1", mono)] = Ok fr /\
    map (fun x => snd (fst x)) fr = [B "(a)"].
Proof.
  assert (G0 : gap []) by constructor.
  assert (G32 : gap [32]) by (apply gap_white; [unfold white; lia|constructor]).
  assert (KW : forall s a b, s = [a; b] -> letter a -> letter b -> a < 84 \/ a = 84 -> b < 114 -> spelled (PStr s) s).
  { intros s a b -> La Lb Ha Hb. apply sp_keyword. exists a, [b]. split; [reflexivity|]. split; [exact La|].
    split. { constructor; [|constructor]. unfold regular, letter, white, delim in *. lia. }
    repeat split; try discriminate; intros (r & R); discriminate. }
  split.
  { exists [[PStr (B "BT"); PStr (B "/F1"); PInt 12; PStr (B "Tf"); PBytes (B "(a)")]; [PStr (B "Tj")]; [PStr (B "ET")]].
    constructor; [|constructor; [|constructor; [|constructor]]].
    - change (B "BT /F1 12 Tf (a)") with ([] ++ B "BT" ++ ([32] ++ B "/F1" ++ ([32] ++ B "12" ++ ([32] ++ B "Tf" ++ ([32] ++ B "(a)" ++ []))))).
      assert (SEP : forall r, exists c r', [32] ++ r = c :: r' /\ (white c \/ delim c)).
      { intros r. exists 32, r. split; [reflexivity|left; unfold white; lia]. }
      apply (el_cons false [] (B "BT")); auto; [apply (KW (B "BT") 66 84); try reflexivity; unfold letter; lia| |discriminate].
      apply (el_cons false [32] (B "/F1")); auto; [apply sp_name; exists (B "F1"); split; [reflexivity|]| |discriminate].
      { apply Forall_forall. intros c I. cbn in I. unfold regular, white, delim. lia. }
      apply (el_cons false [32] (B "12")); auto; [apply sp_int; exists 1, [], (B "12")| |discriminate].
      { split; [reflexivity|]. split; [constructor|]. split; [discriminate|]. split; [|reflexivity].
        apply Forall_forall. intros c I. cbn in I. unfold decdigit. lia. }
      apply (el_cons false [32] (B "Tf")); auto; [apply (KW (B "Tf") 84 102); try reflexivity; unfold letter; lia| |discriminate].
      apply (el_cons false [32] (B "(a)")); auto; [apply sp_lit|apply el_end; assumption|discriminate].
      + exists (B "a"). split; [reflexivity|]. apply (lb_char 97); try lia. constructor.
      + assert (OC : forall c, c <> 40 -> c <> 97 -> c <> 41 -> ~ occurs [c; c] (B "(a)")).
        { intros c A1 A2 A3 (a & b & Q). assert (I : In c (B "(a)")) by (rewrite Q; apply in_or_app; right; left; auto). cbn in I. lia. }
        split; [apply OC; lia|]. split; [apply OC; lia|]. left. change (B "(a)") with [40; 97; 41]. repeat constructor; lia.
    - change (B "Tj ") with ([] ++ B "Tj" ++ [32]).
      apply (el_cons false [] (B "Tj")); auto; [apply (KW (B "Tj") 84 106); try reflexivity; unfold letter; lia|apply el_end; assumption| |discriminate].
      right; right. exists 32, []. split; [reflexivity|left; unfold white; lia].
    - change (B "ET") with ([] ++ B "ET" ++ []).
      apply (el_cons false [] (B "ET")); auto; [apply (KW (B "ET") 69 84); try reflexivity; unfold letter; lia|apply el_end; assumption|discriminate]. }
  split.
  { repeat split.
    - right; right; left. exists (B "BT /F1 12 Tf (a"), 41. split; [reflexivity|right; left; reflexivity].
    - right; right; left. exists (B "Tj"), 32. split; [reflexivity|left; unfold white; lia].
    - right; left. reflexivity. }
  split.
  { apply sc_next; [discriminate|repeat constructor; unfold white; lia|].
    apply sc_next; [discriminate| |constructor]. apply Forall_forall. intros c I. cbn in I. unfold white. lia. }
  eexists. split; [vm_compute; reflexivity|reflexivity].
Qed.
