(* Facts about the command spatial *)
From Coq Require Import String.
From Verif Require Import PyBase Model_Filters Model_Objects Model_Filestruct Model_Text Model_Docstruct Model_Api Model_Graphics Model_Layout Model_Fonts Model_Spatial.
From Verif Require Import Spec_Objects Spec_Filestruct Spec_Docstruct Spec_Pages Spec_Text Spec_Calls Spec_Fonts Spec_Spatial.
From Verif Require Import Facts_Base Facts_Doc Facts_Edit Facts_Pages Facts_Calls Facts_Fonts.
From Coq Require Import ZifyBool ZifyNat.
Open Scope Z_scope.
Section WithZlib.
Context {ZL : Zlib}.

Lemma contents_read t f d base i x l : coherent d -> has_tree d t -> (depth t < f)%nat -> at_index (leaves t) i x -> page_contents d (leaf_page x) l ->
  exists base' d1, get_page_contents f d base i = Ok (l, base', d1) /\ read_only d d1.
Proof.
  intros C HT D IX (items & ps & F & -> & HC). unfold get_page_contents. destruct (flat_spec t f d base C HT D) as (cl & base' & d1 & FL & R & LI & _). rewrite FL. cbn [bind of_opt].
  destruct (index2 _ _ _ _ _ LI IX) as ([o inh] & G & [EQ _]). cbn [fst] in EQ. subst o. rewrite G. cbn [bind fst].
  destruct (leaf_points d t x HT (index_in _ _ _ IX)) as (PN & g & ER & VP). rewrite ER.
  destruct (read_ok d1 g (leaf_num x) (PDict (leaf_page x)) (ro_coherent _ _ R) ltac:(lia)) as (d2 & G2 & R2); [rewrite (ro_values _ _ R) by lia; exact VP|]. rewrite G2. cbn [bind item].
  change (B "/Contents") with K_Contents in HC. pose proof (read_only_trans _ _ _ R R2) as R12.
  destruct (contents1_spec items d2 ps (ro_coherent _ _ R12)) as (d3 & E3 & R3); [eapply Facts_Pages.Forall2_impl; [|exact F]; cbn beta; intros a b; now apply parts_ro|].
  destruct HC as [HC|(gg & n & HC & ->)]; rewrite HC; cbn [of_opt bind]; rewrite E3; cbn [bind]; exists base', d3; (split; [reflexivity|]); exact (read_only_trans _ _ _ R12 R3).
Qed.
Lemma contents_ro d d1 p cs : read_only d d1 -> page_contents d p cs -> page_contents d1 p cs.
Proof. intros R (items & ps & F & Q & H). exists items, ps. split; [|auto]. eapply Facts_Pages.Forall2_impl; [|exact F]. cbn beta. intros a b. now apply parts_ro. Qed.

Lemma extract_read t fu d base i x : coherent d -> has_tree d t -> (depth t < fu)%nat -> at_index (leaves t) i x -> legible d (leaf_page x) ->
  exists r base' d1, page_shows d (leaf_page x) r /\ read_only d d1 /\ extract_page_text fu d base i = (let* t := r in Ok (t, base', d1)).
Proof.
  intros C HT D IX (l & cs & PF & AU & PC). unfold extract_page_text. destruct (page_fonts_spec t fu d base i x l C HT D IX PF AU) as (fl & b1 & d2 & E1 & R1 & F). rewrite E1. cbn [bind].
  destruct (contents_read t fu d2 b1 i x cs (ro_coherent _ _ R1) (has_tree_ro _ _ _ R1 HT) D IX (contents_ro _ _ _ _ R1 PC)) as (b2 & d3 & E2 & R2). rewrite E2. cbn [bind].
  eexists _, b2, d3. split; [|split; [exact (read_only_trans _ _ _ R1 R2)|reflexivity]].
  exists l, cs, (map (fun kf => (fst kf, fd_font (snd kf))) fl). split; [auto|]. split; [auto|]. split; [|reflexivity].
  clear -F. induction F as [|[k o] [k' fd] l fl [Q H] F IH]; cbn [map]; constructor; [|auto]. cbn [fst snd] in *. split; [auto|]. destruct H as [_ (f & D & P & _)]. eauto.
Qed.
Lemma legible_ro d d1 p : read_only d d1 -> legible d p -> legible d1 p.
Proof.
  intros R (l & cs & PF & AU & PC). exists l, cs. pose proof (ro_same _ _ R) as SV. split; [eapply fdict_same; eauto|]. split; [|eapply contents_ro; eauto].
  eapply Forall_impl; [|exact AU]. intros kv (f & U). exists f. eapply usable_same; eauto.
Qed.
Lemma parts_same d d1 o ps : same_values d d1 -> parts d o ps -> parts d1 o ps.
Proof.
  intros R H. destruct H as [x l H F|v w H NL H2].
  - eapply Pa_list; [eapply deref_same; eauto|]. eapply Facts_Pages.Forall2_impl; [|exact F]. cbn beta. intros a b. now apply deref_same.
  - eapply Pa_one; eauto using deref_same.
Qed.
Lemma shows_same d d1 p r : same_values d d1 -> page_shows d p r -> page_shows d1 p r.
Proof.
  intros R (l & cs & fs & PF & (items & ps & F0 & Q) & F & E). exists l, cs, fs. split; [eapply fdict_same; eauto|]. split.
  { exists items, ps. split; [|auto]. eapply Facts_Pages.Forall2_impl; [|exact F0]. cbn beta. intros a b. now apply parts_same. }
  split; [|auto]. eapply Facts_Pages.Forall2_impl; [|exact F]. cbn beta. intros a b (A1 & f & A2 & A3 & A4). split; [auto|]. exists f. split; [eapply deref_same; eauto|]. split; [eapply widths_same; eauto|eapply text_same; eauto].
Qed.
Lemma pages_same d d1 l out e : same_values d d1 -> pages_show d l out e -> pages_show d1 l out e.
Proof. intros R H. induction H; [apply Ps_end|apply Ps_page|apply Ps_error|apply Ps_endless]; eauto using shows_same. Qed.

Lemma spatial_pages t fu : forall n k d base, coherent d -> has_tree d t -> (depth t < fu)%nat -> (k + n = length (leaves t))%nat -> Forall (fun x => legible d (leaf_page x)) (leaves t) ->
  exists e, pages_show d (map leaf_page (skipn k (leaves t))) (fst (spatial_from fu d base (zseq (Z.of_nat k) n))) e /\
    match snd (spatial_from fu d base (zseq (Z.of_nat k) n)) with Ok (_, d') => e = Ok tt /\ read_only d d' | Exc x => e = Exc x | Loop => e = Loop end.
Proof.
  induction n as [|n IH]; intros k d base C HT D L LE.
  - rewrite skipn_all2 by lia. cbn. exists (Ok tt). split; [apply Ps_end|]. split; [auto|now apply read_only_refl].
  - destruct (nth_error (leaves t) k) as [x|] eqn:N; [|apply nth_error_None in N; lia].
    assert (SK : skipn k (leaves t) = x :: skipn (S k) (leaves t)).
    { clear -N. revert k N. induction (leaves t) as [|y l IH]; intros [|k] N; cbn in *; try discriminate; [now injection N as ->|auto]. }
    rewrite SK. cbn [map]. cbn [zseq spatial_from].
    destruct (extract_read t fu d base (Z.of_nat k) x C HT D) as (r & b1 & d1 & PS & R & E); [exists k; auto|rewrite Forall_forall in LE; apply LE; eapply nth_error_In; eauto|].
    rewrite E. destruct r as [txt|ex|]; cbn [bind].
    + replace (Z.of_nat k + 1) with (Z.of_nat (S k)) by lia.
      destruct (IH (S k) d1 b1 (ro_coherent _ _ R) (has_tree_ro _ _ _ R HT) D ltac:(lia)) as (e & P & Q). { eapply Forall_impl; [|exact LE]. cbn beta. intros y. now apply legible_ro. }
      destruct (spatial_from fu d1 b1 (zseq (Z.of_nat (S k)) n)) as [out re]. cbn [fst snd] in *. exists e. split; [apply Ps_page; [auto|eapply pages_same; [apply same_sym; apply ro_same; eauto|auto]]|].
      destruct re as [[b2 d2]|?|]; auto. destruct Q as [Q1 Q2]. split; [auto|eapply read_only_trans; eauto].
    + exists (Exc ex). split; [now apply Ps_error|reflexivity].
    + exists Loop. split; [now apply Ps_endless|reflexivity].
Qed.

Theorem spatial_spec t fu d base : coherent d -> has_tree d t -> (depth t < fu)%nat -> Forall (fun x => legible d (leaf_page x)) (leaves t) ->
  exists out r e, spatial fu d base = (out, r) /\ pages_show d (map leaf_page (leaves t)) out e /\
    match r with Ok (_, d') => e = Ok tt /\ same_values d d' | Exc x => e = Exc x | Loop => e = Loop end.
Proof.
  intros C HT D LE. unfold spatial. destruct (pages_spec t fu d base C HT D) as (ps & b1 & d1 & E & R & F & _). rewrite E. assert (LL : length ps = length (leaves t)) by (clear -F; induction F; cbn [length]; congruence). rewrite LL.
  destruct (spatial_pages t fu (length (leaves t)) 0 d1 b1 (ro_coherent _ _ R) (has_tree_ro _ _ _ R HT) D eq_refl) as (e & P & Q). { eapply Forall_impl; [|exact LE]. cbn beta. intros y. now apply legible_ro. }
  change (Z.of_nat 0) with 0 in *. destruct (spatial_from fu d1 b1 (zseq 0 (length (leaves t)))) as [out r]. cbn [fst snd] in *. exists out, r, e. split; [auto|]. split; [eapply pages_same; [apply same_sym; apply ro_same; eauto|exact P]|].
  destruct r as [[b2 d2]|?|]; auto. destruct Q as [Q1 Q2]. split; [auto|]. apply ro_same. eapply read_only_trans; eauto.
Qed.
End WithZlib.
