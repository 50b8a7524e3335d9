(* The linearization dictionary: the first object of the file *)
From Coq Require Import String ZifyBool ZifyNat.
From Verif Require Import PyBase Model_Filters Model_Objects Model_Filestruct Spec_Objects Spec_Filestruct
  Facts_Base Facts_Token Facts_Obj Facts_Ser Facts_Parse Facts_Top Facts_Stream Facts_Filters Facts_Refs Facts_Prov Facts_Xref Facts_Indirect.

Section WithZlib.
Context {ZL : Zlib}.

Lemma ntok_comment c : forall e r h cur i, noeol c -> (e = 10 \/ e = 13) ->
  ntok SComment 1 false h cur i (c ++ e :: r) = (h, (i + length c)%nat, Some TComment).
Proof.
  induction c as [|x c IH]; intros e r h cur i N E.
  - cbn [app ntok]. replace (inb e EOL) with true by (destruct E; subst; reflexivity). rewrite Nat.add_0_r. reflexivity.
  - inversion N as [|? ? [N1 N2] N']; subst. cbn [app ntok]. replace (inb x EOL) with false.
    + rewrite IH by auto. cbn [length]. p3.
    + unfold EOL. cbn. lia.
Qed.
Lemma comment_token pre ws c e r : Forall white ws -> noeol c -> (e = 10 \/ e = 13) ->
  next_token (pre ++ ws ++ 37 :: c ++ e :: r) (length pre) =
  (length (pre ++ ws), length (pre ++ ws ++ 37 :: c), Some TComment).
Proof.
  intros W N E. replace (length pre) with (length pre + 0)%nat at 1 by lia. rewrite next_token_app. unfold next_token. cbn [skipn].
  assert (H : forall l h cur i, Forall white l -> ntok STbd 1 false h cur i (l ++ 37 :: c ++ e :: r) = ((i + length l)%nat, (i + length l + S (length c))%nat, Some TComment)).
  { induction l as [|x l IH]; intros h cur i W1.
    - cbn [app]. nstep. cbn [starts W_stream andb Z.eqb Pos.eqb inb VALUE_START ALPHA existsb]. rewrite ntok_comment by auto. cbn [length]. p3.
    - inversion W1; subst. cbn [app]. rewrite tbd_white by auto. rewrite IH by auto. cbn [length]. p3. }
  rewrite H by auto. cbn [shift3]. rewrite !app_length. cbn [length]. p3.
Qed.

Theorem linearized_spec hdr ws c e ws' num gen d txt post :
  length hdr = 8%nat -> Forall white ws -> noeol c -> (e = 10 \/ e = 13) -> Forall white ws' ->
  wfv (PDict d) -> serialize_fragment num gen (PDict d) = Ok txt ->
  exists d', peq (PDict d) (PDict d') /\
    linearized (PvSingle (hdr ++ ws ++ 37 :: c ++ e :: ws' ++ txt ++ post)) = Ok (if dhas K_Linearized d then Some d' else None).
Proof.
  intros LH W N E W' WF TX. destruct (fragment_text _ _ _ _ TX) as (v & SE & ->).
  assert (WT : wf_top (PDict d)) by (constructor; [exact WF|discriminate]).
  destruct (top_direct _ _ WT) as (v' & k & SE' & K & TK & P). assert (v' = v) by congruence. subst v'. cbn in K. injection K as <-.
  exists (rvd d). split; [exact (wfv_peq _ WF)|].
  set (file := hdr ++ ws ++ 37 :: c ++ e :: ws' ++ (dec num ++ [32] ++ dec gen ++ [32] ++ W_objkw ++ [10] ++ v ++ [10] ++ W_endobj ++ [10]) ++ post).
  set (p0 := hdr ++ ws ++ 37 :: c).
  assert (FE : file = p0 ++ (e :: ws') ++ dec num ++ [32] ++ dec gen ++ [32] ++ W_objkw ++ [10] ++ v ++ [10] ++ W_endobj ++ [10] ++ post).
  { unfold file, p0. repeat (rewrite <- ?app_assoc; cbn [app]). reflexivity. }
  assert (WE : Forall white (e :: ws')) by (constructor; [unfold white; lia|exact W']).
  assert (W32 : Forall white [32]) by (constructor; [unfold white; lia|constructor]).
  assert (W10 : Forall white [10]) by (constructor; [unfold white; lia|constructor]).
  assert (BL : 8 < blen file). { unfold file, blen. rewrite app_length, LH, app_length. cbn [length]. lia. }
  destruct (single_contract file 8 1016) as (r & ER & _ & _ & i & n & -> & Hi).
  { intros X. rewrite X in BL. cbn in BL. lia. } { lia. } { lia. }
  unfold linearized, read_at. rewrite ER. cbn [bind]. subst i. change (Z.to_nat (if 8 <? 0 then 8 + blen file else 8)) with 8%nat.
  change (Z.of_nat 8 <? 0) with false. cbn [bind]. change (Z.to_nat (Z.of_nat 8)) with 8%nat. rewrite <- LH. 
  assert (T1 : next_token file (length hdr) = (length (hdr ++ ws), length p0, Some TComment)).
  { exact (comment_token hdr ws c e _ W N E). }
  rewrite T1. clear T1.
  assert (T2 : next_token file (length p0) = (length (p0 ++ e :: ws'), length (p0 ++ (e :: ws') ++ dec num), Some TInteger)).
  { rewrite FE, (next_token_white p0 (e :: ws') (dec num) TInteger _ WE (dec_tok num)); [|right; apply (sep_cons 32); unfold white; lia].
    rewrite !app_length. p3. }
  rewrite T2. clear T2. set (p1 := p0 ++ (e :: ws') ++ dec num).
  assert (F1 : file = p1 ++ [32] ++ dec gen ++ [32] ++ W_objkw ++ [10] ++ v ++ [10] ++ W_endobj ++ [10] ++ post).
  { rewrite FE. unfold p1. rewrite <- !app_assoc. reflexivity. }
  assert (T3 : next_token file (length p1) = (length (p1 ++ [32]), length (p1 ++ [32] ++ dec gen), Some TInteger)).
  { rewrite F1, (next_token_white p1 [32] (dec gen) TInteger _ W32 (dec_tok gen)); [|right; apply (sep_cons 32); unfold white; lia].
    rewrite !app_length. p3. }
  rewrite T3. clear T3. set (p2 := p1 ++ [32] ++ dec gen).
  assert (F2 : file = p2 ++ [32] ++ W_objkw ++ [10] ++ v ++ [10] ++ W_endobj ++ [10] ++ post).
  { rewrite F1. unfold p2. rewrite <- !app_assoc. reflexivity. }
  assert (T4 : next_token file (length p2) = (length (p2 ++ [32]), length (p2 ++ [32] ++ W_objkw), Some TKeyword)).
  { rewrite F2, (next_token_white p2 [32] W_objkw TKeyword _ W32 obj_tok); [|right; apply (sep_cons 10); unfold white; lia].
    rewrite !app_length. p3. }
  rewrite T4. clear T4. set (p3 := p2 ++ [32] ++ W_objkw).
  assert (F3 : file = p3 ++ [10] ++ v ++ [10] ++ W_endobj ++ [10] ++ post).
  { rewrite F2. unfold p3. rewrite <- !app_assoc. reflexivity. }
  assert (T5 : next_token file (length p3) = (length (p3 ++ [10]), (length (p3 ++ [10%Z]) + length v)%nat, Some TDict)).
  { rewrite F3 at 1. apply (next_token_white p3 [10] v TDict _ W10 TK). left. reflexivity. }
  rewrite T5. clear T5.
  assert (SU : sub file (length (p3 ++ [10])) (length (p3 ++ [10]) + length v) = v).
  { rewrite F3. rewrite app_assoc. apply sub_app_exact; auto. }
  rewrite SU. assert (PO : parse_obj v 0 = Ok (PDict (rvd d))).
  { pose proof (top_parse _ _ v [] [] WT SE (or_introl I)) as Q. cbn [app length] in Q. rewrite app_nil_r in Q. apply Q. discriminate. }
  rewrite PO. cbn [bind]. f_equal. unfold dhas. rewrite dget_rvd by (inversion WF; auto). destruct (dget K_Linearized d); reflexivity.
Qed.
End WithZlib.
