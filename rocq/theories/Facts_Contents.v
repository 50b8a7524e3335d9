From Coq Require Import String QArith Qcanon Lia.
From Coq Require Import ZifyBool ZifyNat.
From Verif Require Import PyBase Model_Filters Model_Objects Model_Graphics Spec_Objects Spec_Syntax Spec_Contents Spec_Filters Facts_Base Facts_Ser Facts_Syntax.
Open Scope Z_scope.

Lemma gap_app a : gap a -> forall b, gap b -> gap (a ++ b).
Proof.
  induction 1 as [|c s W G IH|txt c s F E G IH]; intros b Gb; [exact Gb|constructor; auto|].
  replace ((37 :: txt ++ c :: s) ++ b) with (37 :: txt ++ c :: (s ++ b)) by (cbn; now rewrite <- app_assoc).
  apply gap_comment; auto.
Qed.
Lemma white_gap w : Forall white w -> gap w.
Proof. induction 1; [constructor|apply gap_white; auto]. Qed.

(* a token that is not closed ends with a regular character *)
Definition inner (c : Z) : Prop := ~ (white c \/ In c (B ")>]")).
Lemma regular_inner c : regular c -> inner c.
Proof. unfold inner, regular, white, delim. cbn. intuition lia. Qed.
Lemma number_inner c : c = 43 \/ c = 45 \/ c = 46 \/ isdig c -> inner c.
Proof. unfold inner, isdig, white. cbn. intuition lia. Qed.
Lemma letter_inner c : letter c -> inner c.
Proof. unfold inner, letter, white. cbn. intuition lia. Qed.
Lemma last_inner s r c : Forall inner s -> s = r ++ [c] -> inner c.
Proof. intros F ->. apply Forall_app in F. destruct F as [_ F]. now inversion F. Qed.
Lemma spelled_end o v : spelled o v -> closed o \/ forall r c, v = r ++ [c] -> inner c.
Proof.
  intros H; inversion H; subst; try (left; exact I); right.
  - intros r c. apply last_inner. cbn. apply Forall_forall. intros x X. apply letter_inner. cbn in X. unfold letter. lia.
  - intros r c. apply last_inner. cbn. apply Forall_forall. intros x X. apply letter_inner. cbn in X. unfold letter. lia.
  - destruct H0 as (sg & t & ds & -> & S & _ & D & _). intros r c. apply last_inner.
    eapply Forall_impl; [exact number_inner|]. apply Forall_app. split; [eapply sign_number; eauto|now apply digs_number].
  - destruct H0 as (sg & t & ip & fp & k & -> & S & _ & D & _). intros r c. apply last_inner.
    eapply Forall_impl; [exact number_inner|]. apply Forall_app in D. destruct D.
    rewrite !Forall_app. repeat split; [eapply sign_number; eauto|now apply digs_number|apply Forall_cons; [auto|constructor]|now apply digs_number].
  - destruct H0 as (x & -> & F). intros r c. apply last_inner. constructor; [unfold inner, white; cbn; lia|].
    eapply Forall_impl; [exact regular_inner|exact F].
  - destruct H0 as (a & x & -> & L & F & _). intros r c. apply last_inner. constructor; [now apply letter_inner|].
    eapply Forall_impl; [exact regular_inner|exact F].
  - intros r c E. change (B "R") with [82] in E. rewrite !app_assoc in E. apply app_inj_tail in E. destruct E as [_ <-]. apply letter_inner. unfold letter; lia.
Qed.
Lemma spelled_some o v : spelled o v -> v <> [].
Proof. intros H. destruct (proj1 (@spelling store_codec) o v H) as (_ & _ & N & _). exact N. Qed.

Lemma elements_gap l s : elements false l s -> forall g, gap g -> elements false l (g ++ s).
Proof.
  intros H g G. inversion H; subst.
  - constructor. now apply gap_app.
  - rewrite (app_assoc g). constructor; auto. now apply gap_app.
Qed.
Lemma meets_tail p s b : s <> [] -> meets (p ++ s) b -> meets s b.
Proof.
  intros N [E|[E|[(r & c & E & W)|Sep]]].
  - apply app_eq_nil in E. tauto.
  - now right; left.
  - right; right; left. destruct (exists_last N) as (s' & d & ->). rewrite app_assoc in E. apply app_inj_tail in E.
    destruct E as [_ ->]. eauto.
  - now right; right; right.
Qed.
Lemma elements_app l1 s1 : elements false l1 s1 -> forall l2 s2, elements false l2 s2 -> meets s1 s2 ->
  elements false (l1 ++ l2) (s1 ++ s2).
Proof.
  intros H. remember false as isd eqn:Ei. induction H as [isd g G|isd g v o l s G SP EL IH SEP HX]; intros l2 s2 H2 M; subst.
  - now apply elements_gap.
  - cbn [app]. rewrite <- !app_assoc. constructor; auto.
    + apply IH; auto. destruct s as [|c s]; [now left|]. rewrite app_assoc in M. eapply meets_tail; [|exact M]. discriminate.
    + destruct SEP as [C|[->|(c & r & -> & W)]]; auto.
      * cbn [app]. rewrite app_nil_r in M. pose proof (spelled_some o v SP) as N.
        apply (meets_tail g v) in M; [|exact N].
        destruct M as [E|[E|[(r & c & E & W)|Sep]]]; [congruence|auto| |auto].
        destruct (spelled_end o v SP) as [C|C]; auto. exfalso. exact (C r c E W).
      * right; right. exists c, (r ++ s2). auto.
    + discriminate.
Qed.

Lemma elements_concat ls parts : Forall2 (elements false) ls parts -> parts_meet parts ->
  elements false (concat ls) (concat parts).
Proof.
  induction 1 as [|l s ls parts H F IH]; cbn [concat parts_meet]; [repeat constructor|].
  intros [M R]. apply elements_app; auto.
Qed.
Lemma elements_spaced parts whole : spaced parts whole -> forall ls, Forall2 (elements false) ls parts ->
  elements false (concat ls) whole.
Proof.
  induction 1 as [|a|a b r w t N W SP IH]; intros ls F.
  - inversion F; subst. repeat constructor.
  - inversion F as [|l s ls' p' H F']; subst. inversion F'; subst. cbn [concat]. now rewrite app_nil_r.
  - inversion F as [|l s ls' p' H F']; subst. cbn [concat]. apply elements_app; auto.
    + apply elements_gap; [auto|now apply white_gap].
    + right; right; right. destruct w as [|c w]; [congruence|]. inversion W; subst. exists c, (w ++ t). auto.
Qed.

Section WithZlib.
Context {ZL : Zlib}.
Lemma same_tokens l s t : elements false l s -> elements false l t -> parse_stream_content s = parse_stream_content t.
Proof.
  assert (K : forall s, elements false l s -> parse_obj ([91] ++ s ++ [93]) 0 = Ok (rv (PList l))).
  { intros u E. pose proof (spelled_rv (PList l) ([91] ++ u ++ [93]) (sp_array l u E)) as Q.
    specialize (Q ltac:(discriminate) [] []). rewrite app_nil_r in Q. apply Q.
    split; [left; exact I|]. exists [], []. split; auto. split; [constructor|now left]. }
  intros H1 H2. unfold parse_stream_content. now rewrite (K s H1), (K t H2).
Qed.
Lemma join_parts cs parts : Forall2 (fun o s => exists d e, o = PStream d (Some s) e) cs parts -> join_streams cs = Ok (concat parts).
Proof.
  induction 1 as [|o s cs parts (d & e & ->) F IH]; [reflexivity|]. cbn [join_streams concat]. now rewrite IH.
Qed.
Theorem contents_parts cs parts ls whole d e fonts :
  Forall2 (fun o s => exists d e, o = PStream d (Some s) e) cs parts -> Forall2 (elements false) ls parts -> parts_meet parts ->
  spaced parts whole -> build_text_fragments cs fonts = build_text_fragments [PStream d (Some whole) e] fonts.
Proof.
  intros C F M S. unfold build_text_fragments. rewrite (join_parts cs parts C). cbn [join_streams bind]. rewrite app_nil_r.
  now rewrite (same_tokens (concat ls) (concat parts) whole (elements_concat ls parts F M) (elements_spaced parts whole S ls F)).
Qed.
End WithZlib.
