(* Proofs about the text of streams in the HTML view: C54 *)
From Coq Require Import String ZifyBool ZifyNat.
From Verif Require Import PyBase Model_Objects Model_Markdown Spec_Markdown Facts_Markdown Model_Graphics.

Lemma printable_entities c : replace1 62 (B "&gt;") (replace1 60 (B "&lt;") c) = entities c.
Proof.
  unfold replace1, entities. induction c as [|x c IH]; [reflexivity|]. cbn [flat_map]. rewrite flat_map_app, IH. f_equal.
  destruct (x =? 60) eqn:E; [reflexivity|]. cbn [flat_map]. rewrite app_nil_r. destruct (x =? 62); reflexivity.
Qed.
Theorem printable_shown c :
  (Forall (fun x => 20 <= x \/ x = 10 \/ x = 13) c /\ exists p, printable_stream_content c = Some p /\ (~ In 38 c -> shown_text p = c)) \/
  (~ Forall (fun x => 20 <= x \/ x = 10 \/ x = 13) c /\ printable_stream_content c = None).
Proof.
  unfold printable_stream_content. destruct (existsb _ c) eqn:E.
  - right. split; [|reflexivity]. apply existsb_exists in E as (x & I & P). intro F. rewrite Forall_forall in F. apply F in I. lia.
  - left. split.
    + apply Forall_forall. intros x I. destruct (Z_le_dec 20 x) as [|N]; [auto|]. destruct (Z.eq_dec x 10); [auto|]. destruct (Z.eq_dec x 13); [auto|]. exfalso.
      assert (X : existsb (fun x => (x <? 20) && negb (x =? 10) && negb (x =? 13)) c = true) by (apply existsb_exists; exists x; split; [exact I|lia]). congruence.
    + eexists. split; [reflexivity|]. rewrite printable_entities. apply entities_read.
Qed.
