(* Property C104: object streams as other programs write them *)
From Coq Require Import String ZifyBool.
From Verif Require Import PyBase Model_Filters Model_Objects Spec_Objects Spec_Filters Spec_Docstruct Spec_Syntax Spec_Streams.
From Verif Require Import Facts_Base Facts_Syntax Facts_ObjText.

(* ---------------- C104 ---------------- *)
(* full statement: for every object stream that the format allows.  objects_text leaves out:
   the empty stream, members that are references, comments between members, a number or a
   word at the very end of the data *)
Theorem C104_objstm_partial : forall {ZL : Zlib} d l first data env, l <> [] -> objects_text l first data ->
  dget (B "/First") d = Some (PInt first) -> (exists z, dget (B "/N") d = Some (PInt z)) ->
  exists r, parse_object_stream d (Some data) env = Ok r /\
    Forall2 (fun p e => e_num e = PInt (fst p) /\ peq (snd p) (e_obj e)) l r.
Proof. intros ZL d l first data env. exact (objects_found d l first data env). Qed.
Print Assumptions C104_objstm_partial.

(* a comment between two members is taken for tokens: nothing is read as it is written *)
Theorem C104_comment_refuted :
  (exists r, @parse_object_stream store_codec [(B "/N", PInt 2); (B "/First", PInt 8)] (Some (B "7 0 8 2 [][1] ")) 3 = Ok r /\
     map (fun e => (e_num e, e_obj e)) r = [(PInt 7, PList []); (PInt 8, PList [PInt 1])]) /\
  exists r, @parse_object_stream store_codec [(B "/N", PInt 2); (B "/First", PInt 8)] (Some (B "7 0 8 7 []% ab" ++ [10] ++ B "[1] ")) 3 = Ok r /\
     map (fun e => (e_num e, e_obj e)) r <> [(PInt 7, PList []); (PInt 8, PList [PInt 1])].
Proof.
  split; eexists.
  - split; [vm_compute; reflexivity|vm_compute; reflexivity].
  - split; [vm_compute; reflexivity|vm_compute; discriminate].
Qed.
Print Assumptions C104_comment_refuted.
(* a member that is a reference counts for three *)
Theorem C104_ref_refuted :
  exists r, @parse_object_stream store_codec [(B "/N", PInt 1); (B "/First", PInt 4)] (Some (B "7 0 8 0 R ")) 3 = Ok r /\
     map (fun e => (e_num e, e_obj e)) r <> [(PInt 7, PRef 0 8)].
Proof. eexists. split; [vm_compute; reflexivity|vm_compute; discriminate]. Qed.
Print Assumptions C104_ref_refuted.
(* a number at the very end is not read; an object stream with no member is an error *)
Theorem C104_end_refuted :
  (exists r, @parse_object_stream store_codec [(B "/N", PInt 1); (B "/First", PInt 4)] (Some (B "7 0 42 ")) 3 = Ok r /\
     map (fun e => (e_num e, e_obj e)) r = [(PInt 7, PInt 42)]) /\
  (forall r, @parse_object_stream store_codec [(B "/N", PInt 1); (B "/First", PInt 4)] (Some (B "7 0 42")) 3 = Ok r ->
     map (fun e => (e_num e, e_obj e)) r <> [(PInt 7, PInt 42)]) /\
  @parse_object_stream store_codec [(B "/N", PInt 0); (B "/First", PInt 0)] (Some []) 3 = Exc EIndexError.
Proof.
  split; [|split].
  - eexists. split; [vm_compute; reflexivity|vm_compute; reflexivity].
  - intros r H. vm_compute in H. first [discriminate H|injection H as <-; vm_compute; discriminate].
  - vm_compute. reflexivity.
Qed.
Print Assumptions C104_end_refuted.

(* offsets in the header may be wrong, the members are told by their order *)
Example C104_case : exists data, objects_text [(7, PDict [(B "/A", PList [])]); (12, PInt 5)] 10 data /\
  exists r, @parse_object_stream store_codec [(B "/N", PInt 2); (B "/First", PInt 10)] (Some data) 3 = Ok r /\
    map (fun e => (e_num e, e_obj e)) r = [(PInt 7, PDict [(B "/A", PList [])]); (PInt 12, PInt 5)].
Proof.
  exists (B "7 0" ++ [13; 10] ++ B "12 9" ++ [10] ++ B "<</A[]>>5" ++ [0]). split; [|eexists; split; [vm_compute; reflexivity|vm_compute; reflexivity]].
  assert (WH : forall c, In c [0; 10; 13; 32] -> white c) by (intros c I; cbn in I; unfold white; lia).
  assert (WF : forall w, forallb (fun c => existsb (Z.eqb c) [0; 10; 13; 32]) w = true -> Forall white w).
  { intros w H. apply Forall_forall. intros c I. rewrite forallb_forall in H. specialize (H c I). cbn [existsb] in H. unfold white. lia. }
  assert (IT : forall z c, 48 <= c <= 57 -> z = c - 48 -> member_text (PInt z) [c]).
  { intros z c C ->. left. split; [|discriminate]. apply sp_int. exists 1, [], [c]. split; [reflexivity|]. split; [constructor|]. split; [discriminate|]. split; [repeat constructor; unfold decdigit; lia|]. unfold decimal. cbn [fold_left]. lia. }
  exists [0; 9], (B "7 0" ++ [13; 10] ++ B "12 9" ++ [10]), (B "<</A[]>>5" ++ [0]). split; [reflexivity|]. split; [reflexivity|]. split; [reflexivity|]. split.
  - match goal with |- row_text ?l _ => let l' := eval cbn [flat_map combine fst snd app] in l in change l with l' end.
    change (B "7 0" ++ [13; 10] ++ B "12 9" ++ [10]) with ([] ++ [55] ++ [32] ++ [48] ++ [13; 10] ++ B "12" ++ [32] ++ [57] ++ [10]).

    apply (rt_more [] ([55])); [apply Forall_nil|apply IT; [lia|reflexivity]| |right; exists 32; eexists; split; [reflexivity|left; apply WH; cbn; lia]].
    apply (rt_more [32] ([48])); [apply WF; reflexivity|apply IT; [lia|reflexivity]| |right; exists 13; eexists; split; [reflexivity|left; apply WH; cbn; lia]].
    apply (rt_more [13; 10] (B "12")); [apply WF; reflexivity| | |right; exists 32; eexists; split; [reflexivity|left; apply WH; cbn; lia]].
    + left. split; [|discriminate]. apply sp_int. exists 1, [], (B "12"). split; [reflexivity|]. split; [constructor|]. split; [discriminate|]. split; [|reflexivity]. change (B "12") with [49; 50]. repeat constructor; unfold decdigit; lia.
    + apply (rt_more [32] ([57])); [apply WF; reflexivity|apply IT; [lia|reflexivity]| |right; exists 10; eexists; split; [reflexivity|left; apply WH; cbn; lia]].
      apply rt_end. apply WF; reflexivity.
  - cbn [map snd]. change (B "<</A[]>>5" ++ [0]) with ([] ++ (B "<<" ++ ([] ++ B "/A" ++ ([] ++ (B "[" ++ [] ++ B "]") ++ [])) ++ B ">>") ++ ([] ++ [53] ++ [0])).
    assert (G0 : gap []) by constructor.
    assert (NA : name_tok (B "/A")) by (exists [65]; split; auto; repeat constructor; unfold regular, white, delim; lia).
    apply rt_more; [apply Forall_nil| | |left; exact Logic.I].
    + left. split; [|discriminate]. apply (sp_dict [(B "/A", PList [])]); [repeat constructor; auto|repeat constructor; auto|].
      match goal with |- elements true ?l _ => let l' := eval cbn [flat_map fst snd app] in l in change l with l' end.
      apply (el_cons true []); auto.
      * apply sp_name; auto.
      * apply (el_cons true []); auto.
        -- apply (sp_array [] []). constructor; auto.
        -- constructor; auto.
        -- intros _ (b & Q & _). discriminate.
      * right. right. exists 91; eexists. split; [reflexivity|]. right. unfold delim. lia.
      * intros _ (b & Q & _). discriminate.
    + apply rt_more; [apply Forall_nil|apply IT; [lia|reflexivity]| |right; exists 0; eexists; split; [reflexivity|left; apply WH; cbn; lia]].
      apply rt_end. apply WF; reflexivity.
Qed.
