(* Proofs about the text of an object in the HTML view *)
From Coq Require Import String Permutation.
From Verif Require Import PyBase Model_Filters Model_Objects Model_Filestruct Model_Text Model_Graphics Model_Docstruct Model_Api Model_Display.
From Verif Require Import Spec_Objects Spec_Display Spec_View Facts_Base Facts_Obj.
From Coq Require Import ZifyBool ZifyNat.
Open Scope Z_scope.

Lemma escape1_char c : html_char c (Model_Display.escape1 c).
Proof.
  unfold Model_Display.escape1. destruct (c =? 38) eqn:E1; [apply Z.eqb_eq in E1 as ->; constructor|]. destruct (c =? 60) eqn:E2; [apply Z.eqb_eq in E2 as ->; constructor|].
  destruct (c =? 62) eqn:E3; [apply Z.eqb_eq in E3 as ->; constructor|]. destruct (c =? 34) eqn:E4; [apply Z.eqb_eq in E4 as ->; constructor|]. destruct (c =? 39) eqn:E5; [apply Z.eqb_eq in E5 as ->; constructor|].
  apply Hc_self. intro I. vm_compute in I. decompose [or] I; lia.
Qed.
Lemma escape_html s : in_html s (Model_Display.escape s).
Proof.
  exists (map Model_Display.escape1 s). split; [|apply flat_map_concat_map]. induction s; constructor; auto. apply escape1_char.
Qed.
Lemma inb_iff c s : inb c s = true <-> In c s.
Proof. unfold inb. rewrite existsb_exists. split; [intros (x & I & E); apply Z.eqb_eq in E; subst; auto|intro I; exists c; split; [auto|apply Z.eqb_refl]]. Qed.
Lemma hexdig_at a : 0 <= a < 16 -> hexdig_l a = hex_digit a.
Proof.
  intro H. assert (C : a = 0 \/ a = 1 \/ a = 2 \/ a = 3 \/ a = 4 \/ a = 5 \/ a = 6 \/ a = 7 \/ a = 8 \/ a = 9 \/ a = 10 \/ a = 11 \/ a = 12 \/ a = 13 \/ a = 14 \/ a = 15) by lia.
  repeat (destruct C as [->|C]; [reflexivity|]). subst a. reflexivity.
Qed.
Lemma repr1_char q c : q = 34 \/ q = 39 -> py_char q c (repr1 q c).
Proof.
  intro Q. unfold repr1. destruct ((c =? q) || (c =? 92)) eqn:E1; [apply Py_quote; lia|]. destruct (c =? 9) eqn:E2; [apply Z.eqb_eq in E2 as ->; apply Py_tab|].
  destruct (c =? 10) eqn:E3; [apply Z.eqb_eq in E3 as ->; apply Py_lf|]. destruct (c =? 13) eqn:E4; [apply Z.eqb_eq in E4 as ->; apply Py_cr|].
  destruct ((c <? 32) || (126 <? c)) eqn:E5; [|apply Py_self; lia].
  pose proof (Z.mod_pos_bound (c / 16) 16 ltac:(lia)) as H1. pose proof (Z.mod_pos_bound c 16 ltac:(lia)) as H2. rewrite (hexdig_at _ H1), (hexdig_at _ H2).
  apply (Py_hex q c (c / 16 mod 16) (c mod 16)); lia.
Qed.
Lemma repr_python s : in_python s (repr_body s).
Proof.
  assert (G : forall q, q = 34 \/ q = 39 -> Forall2 (py_char q) s (map (repr1 q) s)) by (intros q Q; induction s; constructor; auto; now apply repr1_char).
  unfold repr_body. rewrite flat_map_concat_map. destruct (inb 39 s && negb (inb 34 s)) eqn:E.
  - apply andb_true_iff in E as [E1 E2]. apply inb_iff in E1. eapply Ip_double; [auto| |apply G; auto|reflexivity]. intro I. apply inb_iff in I. rewrite I in E2. discriminate.
  - eapply Ip_single; [|apply G; auto|reflexivity]. apply andb_false_iff in E as [E|E]; [left; intro I; apply inb_iff in I; congruence|right; apply inb_iff; now destruct (inb 34 s)].
Qed.
(* ---- keys ---- *)
Lemma drop_perm k l : In k l -> Permutation l (k :: drop_first k l).
Proof.
  induction l as [|x l IH]; intro I; [destruct I|]. cbn [drop_first]. destruct (beqb x k) eqn:E; [apply beqb_eq in E; subst; auto|]. destruct I as [->|I]; [rewrite beqb_refl in E; discriminate|].
  eapply perm_trans; [apply perm_skip, IH, I|apply perm_swap].
Qed.
Lemma drop_filter f k l : f k = false -> filter f (drop_first k l) = filter f l.
Proof.
  intro H. induction l as [|x l IH]; [auto|]. cbn [drop_first filter]. destruct (beqb x k) eqn:E; [apply beqb_eq in E; subst; rewrite H; auto|]. cbn [filter]. rewrite IH. reflexivity.
Qed.
Lemma existsb_in k l : existsb (beqb k) l = true <-> In k l.
Proof. rewrite existsb_exists. split; [intros (x & I & E); apply beqb_eq in E; subst; auto|intro I; exists k; split; [auto|apply beqb_refl]]. Qed.
Lemma move_perm l k n : Permutation l (move_list_item l k n).
Proof.
  unfold move_list_item. destruct (existsb (beqb k) l) eqn:E; [|auto]. apply existsb_in in E. eapply perm_trans; [apply drop_perm, E|].
  eapply perm_trans; [|apply Permutation_middle]. rewrite firstn_skipn. auto.
Qed.
Lemma move_filter f l k n : f k = false -> filter f (move_list_item l k n) = filter f l.
Proof.
  intro H. unfold move_list_item. destruct (existsb (beqb k) l) eqn:E; [|auto]. rewrite filter_app. cbn [filter]. rewrite H, <- filter_app, firstn_skipn. now apply drop_filter.
Qed.
Lemma keys_ordered ks : key_order ks (move_list_item (move_list_item ks K_Type 0) K_Subtype 1).
Proof.
  split; [eapply perm_trans; apply move_perm|]. split; [rewrite !move_filter by reflexivity; reflexivity|].
  assert (EM : move_list_item ks K_Type 0 = if existsb (beqb K_Type) ks then K_Type :: drop_first K_Type ks else ks) by reflexivity. rewrite EM. clear EM. change (B "/Type") with K_Type. change (B "/Subtype") with K_Subtype. destruct (existsb (beqb K_Type) ks) eqn:ET.
  - apply existsb_in in ET. assert (X : forall l, exists r, move_list_item (K_Type :: l) K_Subtype 1 = K_Type :: r /\ (In K_Subtype l -> nth_error r 0 = Some K_Subtype)).
    { intro l. unfold move_list_item. destruct (existsb (beqb K_Subtype) (K_Type :: l)) eqn:ES.
      - change (drop_first K_Subtype (K_Type :: l)) with (K_Type :: drop_first K_Subtype l). cbn [firstn skipn app]. eexists. split; [reflexivity|]. auto.
      - exists l. split; [auto|]. intro I. exfalso. assert (existsb (beqb K_Subtype) (K_Type :: l) = true); [|congruence]. apply existsb_in. right. exact I. }
    destruct (X (drop_first K_Type ks)) as (r & -> & N). split; [auto|]. intro I. left. cbn [nth_error]. apply N.
    apply (Permutation_in _ (drop_perm K_Type ks ET)) in I. destruct I as [I|I]; [discriminate|auto].
  - split; [intro I; apply existsb_in in I; congruence|]. intro I. unfold move_list_item. rewrite (proj2 (existsb_in K_Subtype ks) I).
    pose proof (drop_perm K_Subtype ks I) as P. destruct (drop_first K_Subtype ks) as [|x r]; [right; apply Permutation_sym, Permutation_length_1_inv in P; auto|left; reflexivity].
Qed.
Lemma text_of_in k es : In k (map fst es) -> exists v, text_of k es = Some v /\ In (k, v) es.
Proof.
  induction es as [|[n v] es IH]; intro I; [destruct I|]. cbn [text_of]. destruct (beqb k n) eqn:E; [apply beqb_eq in E; subst; exists v; split; [auto|left; auto]|].
  destruct I as [I|I]; [cbn [fst] in I; subst; rewrite beqb_refl in E; discriminate|]. destruct (IH I) as (w & E1 & E2). exists w. split; [auto|right; auto].
Qed.
Lemma entry_line_shown depth es k v : In (k, v) es -> entry_shown depth es k (repeat 32 (22 * depth) ++ Model_Display.entry_line k v).
Proof.
  intro I. unfold entry_shown. exists v. unfold Model_Display.entry_line, Model_Display.ljust, NL.
  assert (PL : (length (repeat 32%Z (20 - length k)) + length k = Nat.max 20 (length k))%nat) by (rewrite repeat_length; lia).
  assert (PF : Forall (eq 32) (repeat 32 (20 - length k))) by (apply Forall_forall; intros y Iy; apply repeat_spec in Iy; auto).
  destruct (beqb k K_Type || beqb k K_Subtype) eqn:E1.
  { exists [], [], (B "<span class=""important"">"), (B "</span>"), (repeat 32 (20 - length k)). split; [auto|]. split; [apply Mk_type; apply orb_true_iff in E1 as [E|E]; apply beqb_eq in E; auto|]. split; [auto|]. split; [auto|]. rewrite <- ?app_assoc, ?app_nil_l, ?app_nil_r, <- ?app_assoc. reflexivity. }
  apply orb_false_iff in E1 as [E1 E2]. assert (N1 : k <> B "/Type") by (intro Q; subst; discriminate). assert (N2 : k <> B "/Subtype") by (intro Q; subst; discriminate).
  destruct (beqb k K_JS) eqn:E3.
  { apply beqb_eq in E3. subst k. exists (B "<span class=""warning"">"), (B "</span>"), [], [], (repeat 32 (20 - length K_JS)). split; [auto|]. split; [apply Mk_script|]. split; [auto|]. split; [auto|]. rewrite <- ?app_assoc, ?app_nil_l, ?app_nil_r, <- ?app_assoc. reflexivity. }
  assert (N3 : k <> B "/JS") by (intro Q; subst; discriminate). destruct (beqb v V_JavaScript) eqn:E4.
  { apply beqb_eq in E4. subst v. exists [], [], (B "<span class=""warning"">"), (B "</span>"), (repeat 32 (20 - length k)). split; [auto|]. split; [apply Mk_action; intros [Q|[Q|[Q|[]]]]; congruence|]. split; [auto|]. split; [auto|]. rewrite <- ?app_assoc, ?app_nil_l, ?app_nil_r, <- ?app_assoc. reflexivity. }
  assert (N4 : v <> B "/JavaScript") by (intro Q; subst; discriminate). destruct (beqb k K_Prev) eqn:E5.
  { apply beqb_eq in E5. subst k. exists [], [], (B "<a class=""obj-link"" href=""#idx" ++ v ++ B """>"), (B "</a>"), (repeat 32 (20 - length K_Prev)). split; [auto|]. split; [apply Mk_prev; auto|]. split; [auto|]. split; [auto|]. rewrite <- ?app_assoc, ?app_nil_l, ?app_nil_r, <- ?app_assoc. reflexivity. }
  assert (N5 : k <> B "/Prev") by (intro Q; subst; discriminate).
  exists [], [], [], [], (repeat 32 (20 - length k)). split; [auto|]. split; [apply Mk_none; auto; intros [Q|[Q|[Q|[Q|[]]]]]; congruence|]. split; [auto|]. split; [auto|]. rewrite <- ?app_assoc, ?app_nil_l, ?app_nil_r, <- ?app_assoc. reflexivity.
Qed.
Lemma lines_shown depth es ks : (forall k, In k ks -> In k (map fst es)) -> exists ls, lines_of depth es ks = concat ls /\ Forall2 (entry_shown depth es) ks ls.
Proof.
  induction ks as [|k ks IH]; intro H; [exists []; split; [auto|constructor]|]. destruct IH as (ls & E & F); [intros x I; apply H; right; auto|].
  destruct (text_of_in k es (H k (or_introl eq_refl))) as (v & TV & I). cbn [lines_of]. rewrite TV, E.
  exists ((repeat 32 (22 * depth) ++ Model_Display.entry_line k v) :: ls). split; [cbn [concat]; rewrite <- ?app_assoc; reflexivity|]. constructor; [now apply entry_line_shown|auto].
Qed.
Lemma dict_view depth es : dict_shown depth es (B "&lt;&lt;" ++ NL ++ lines_of depth es (move_list_item (move_list_item (map fst es) K_Type 0) K_Subtype 1) ++ repeat 32 (22 * depth) ++ B "&gt;&gt;").
Proof.
  pose proof (keys_ordered (map fst es)) as KO. set (ks := move_list_item _ K_Subtype 1) in *. destruct (lines_shown depth es ks) as (ls & -> & F).
  - intros k I. eapply Permutation_in; [apply Permutation_sym, (proj1 KO)|exact I].
  - exists ks, ls. split; [auto|]. split; [auto|]. reflexivity.
Qed.
(* ---- the other values ---- *)
Lemma firstn_cut {A} n (l : list A) : (n < length l)%nat -> exists r, l = firstn n l ++ r /\ length (firstn n l) = n /\ r <> [].
Proof.
  intro H. exists (skipn n l). split; [symmetry; apply firstn_skipn|]. split; [apply firstn_length_le; lia|]. intro E. pose proof (skipn_length n l) as L. rewrite E in L. cbn [length] in L. lia.
Qed.
Lemma ok_eq {A} (x y : A) : Ok x = Ok y -> y = x.
Proof. congruence. Qed.
Lemma leaf_view row depth b o t : leaf o = Ok t -> view row depth b o t.
Proof.
  intro E. destruct o as [|x|x|m e|s|s| | | |]; cbn [leaf] in E; try discriminate.
  - injection E as <-. apply (Vw_plain row depth b PNone (B "None")); [left; auto|apply escape_html].
  - injection E as <-. apply (Vw_plain row depth b (PBool x) (if x then B "True" else B "False")); [destruct x; unfold plain_value; tauto|apply escape_html].
  - injection E as <-. apply (Vw_plain row depth b (PInt x) (dec x)); [unfold plain_value; eauto 10|apply escape_html].
  - injection E as <-. apply (Vw_plain row depth b (PReal m e) (float_repr m e)); [unfold plain_value; do 4 right; left; eauto|apply escape_html].
  - injection E as <-. apply (Vw_plain row depth b (PStr s) s); [unfold plain_value; do 5 right; auto|apply escape_html].
  - destruct s as [|c s].
    + cbn in E. injection E as <-. apply Vw_bytes; [discriminate|constructor|apply (escape_html [])].
    + change (firstn 1 (c :: s)) with [c] in E. destruct (beqb [c] [40]) eqn:EC.
      * assert (c = 40) by (apply beqb_eq in EC; congruence). subst c. apply ok_eq in E. subst t. apply Vw_string. destruct (Nat.ltb 30 (length (40 :: s))) eqn:L.
        -- apply Nat.ltb_lt in L. destruct (firstn_cut 30 (40 :: s) L) as (r & E1 & E2 & E3). change TRUNCATED with cut_mark. eapply Ss_cut; [exact E1|exact E2|exact E3|apply repr_python|apply escape_html].
        -- apply Nat.ltb_ge in L. rewrite app_nil_r. rewrite firstn_all2 by lia. eapply Ss_whole; [lia|apply repr_python|apply escape_html].
      * unfold ascii in E. destruct (is_ascii (c :: s)) eqn:A; [|discriminate]. injection E as <-. apply Vw_bytes; [|unfold is_ascii in A; rewrite forallb_forall in A; apply Forall_forall; intros y I; apply A in I; lia|apply escape_html].
        intros r Q. injection Q as -> ->. cbn in EC. discriminate.
Qed.
Lemma find_from_iff p s : forall i, find_from p s i = None <-> ~ exists a b, s = a ++ p ++ b.
Proof.
  induction s as [|c s IH]; intro i; cbn [find_from]; unfold starts.
  - destruct (beqb (firstn (length p) []) p) eqn:E.
    + split; [discriminate|]. intro N. exfalso. apply N. apply beqb_eq in E. exists [], []. rewrite firstn_nil in E. subst. reflexivity.
    + split; [|auto]. intros _ (a & b & Q). symmetry in Q. apply app_eq_nil in Q as [-> Q]. apply app_eq_nil in Q as [-> ->]. cbn in E. discriminate.
  - destruct (beqb (firstn (length p) (c :: s)) p) eqn:E.
    + split; [discriminate|]. intro N. exfalso. apply N. apply beqb_eq in E. exists [], (skipn (length p) (c :: s)). cbn [app]. rewrite <- E at 1. symmetry. apply firstn_skipn.
    + rewrite IH. split; intros N (a & b & Q); apply N.
      * destruct a as [|x a]; [|injection Q as _ ->; eauto]. exfalso. cbn [app] in Q. rewrite Q, firstn_app, Nat.sub_diag, firstn_all in E. cbn [firstn] in E. rewrite app_nil_r, beqb_refl in E. discriminate.
      * exists (c :: a), b. rewrite Q. reflexivity.
Qed.
Lemma has_href_iff s : has_href s = true <-> linked_text s.
Proof.
  unfold has_href, find. change (Nat.ltb (length s) 0) with false. cbn [skipn]. pose proof (find_from_iff (B "href") s 0) as F. unfold linked_text. destruct (find_from (B "href") s 0) as [k|].
  - split; [intros _|auto]. destruct F as [_ F]. assert (D : (exists a b, s = a ++ B "href" ++ b) \/ ~ exists a b, s = a ++ B "href" ++ b).
    { clear F. induction s as [|c s IH]; [right; intros (a & b & Q); destruct a; discriminate|]. destruct IH as [(a & b & ->)|N]; [left; exists (c :: a), b; reflexivity|].
      destruct (beqb (firstn 4 (c :: s)) (B "href")) eqn:E.
      - left. apply beqb_eq in E. exists [], (skipn 4 (c :: s)). cbn [app]. change (c :: s = B "href" ++ skipn 4 (c :: s)). rewrite <- E. symmetry. apply firstn_skipn.
      - right. intros (a & b & Q). destruct a as [|x a]; [|injection Q as _ Q; apply N; exists a, b; exact Q]. cbn [app] in Q. rewrite Q in E. cbn in E. discriminate. }
    destruct D as [D|D]; [auto|]. apply F in D. discriminate.
  - split; [discriminate|]. intro L. exfalso. apply (proj1 F eq_refl). exact L.
Qed.
Lemma array_view ts ret : ret = B "[ " ++ concat (map (fun t => t ++ B " ") ts) ->
  array_shown ts ((if Nat.ltb 30 (length ret) && negb (has_href ret) then firstn 30 ret ++ TRUNCATED else ret) ++ B "]").
Proof.
  intro E. destruct (Nat.ltb 30 (length ret) && negb (has_href ret)) eqn:C.
  - apply andb_true_iff in C as [C1 C2]. apply Nat.ltb_lt in C1. destruct (firstn_cut 30 ret C1) as (r & E1 & E2 & E3). rewrite <- app_assoc. eapply Ar_cut with (r := r); [rewrite <- E1; exact E|exact E2|exact E3|].
    rewrite <- E1. intro L. apply has_href_iff in L. rewrite L in C2. discriminate.
  - eapply Ar_whole; [exact E|]. apply andb_false_iff in C as [C|C]; [left; apply Nat.ltb_ge in C; exact C|right; apply has_href_iff; now destruct (has_href ret)].
Qed.
Lemma content_view s b : content_shown s b (stream_part s b).
Proof.
  destruct b; [|destruct s as [[|]|]; constructor]. destruct s as [[|c s]|]; [constructor| |constructor]. unfold stream_part. destruct (printable_stream_content (c :: s)) as [p|] eqn:P.
  - pose proof (Cn_text (c :: s) p ltac:(discriminate) P) as H. unfold NL. rewrite <- ?app_assoc. exact H.
  - pose proof (Cn_hex (c :: s) (firstn 60 (B "&lt;" ++ hex_l (c :: s) ++ B "&gt;")) (skipn 60 (B "&lt;" ++ hex_l (c :: s) ++ B "&gt;")) ltac:(discriminate) P (firstn_skipn _ _)) as H.
    unfold NL. rewrite <- ?app_assoc. apply H. rewrite firstn_length. destruct (Nat.le_gt_cases 60 (length (B "&lt;" ++ hex_l (c :: s) ++ B "&gt;"))); [left; lia|right; split; [lia|apply skipn_all2; lia]].
Qed.
Theorem follow_view row o : forall depth b t, follow_obj row depth b o = Ok t -> view row depth b o t.
Proof.
  assert (ENT : forall d, Forall (fun kv => forall depth b t, follow_obj row depth b (snd kv) = Ok t -> view row depth b (snd kv) t) d -> forall depth es,
    (fix entries (d : dict) : res (list (bytes * bytes)) := match d with [] => Ok [] | (k, v) :: r => let* t := follow_obj row depth true v in let* l := entries r in Ok ((k, t) :: l) end) d = Ok es -> entry_views row depth d es).
  { induction 1 as [|[k v] d H F IH]; intros depth es E; [injection E as <-; constructor|]. destruct (follow_obj row depth true v) as [t| |] eqn:EF; try discriminate. cbn [bind] in E.
    match type of E with bind ?x _ = _ => destruct x as [l| |] eqn:EL; try discriminate end. injection E as <-. constructor; [apply H; exact EF|apply IH; exact EL]. }
  induction o as [|x0|x0|m0 e0|s0|s0|g n|l IH|d IH|d s e IH] using obj_ind'; intros depth b t E; try (apply leaf_view; exact E).
  - cbn [follow_obj] in E. unfold follow_ref in E. destruct (pyget row n) as [sl| |] eqn:P; try discriminate. cbn [bind] in E. destruct sl as [|e|]; try discriminate. injection E as <-. apply Vw_ref. exact P.
  - cbn [follow_obj] in E. match type of E with bind ?x _ = _ => destruct x as [bb| |] eqn:EI; try discriminate end. cbn [bind] in E. apply ok_eq in E. subst t.
    assert (exists ts, views row l ts /\ bb = concat (map (fun t => t ++ B " ") ts)) as (ts & V & ->).
    { clear -IH EI. revert bb EI. induction IH as [|v l H F IH]; intros bb EI; [injection EI as <-; exists []; split; [constructor|auto]|]. destruct (follow_obj row 0 true v) as [t| |] eqn:EF; try discriminate. cbn [bind] in EI.
      match type of EI with bind ?x _ = _ => destruct x as [r| |] eqn:ER; try discriminate end. injection EI as <-. destruct (IH _ eq_refl) as (ts & V & ->). exists (t :: ts). split; [constructor; auto|]. cbn [map concat]. rewrite <- app_assoc. reflexivity. }
    eapply Vw_list; [exact V|]. apply (array_view ts). reflexivity.
  - cbn [follow_obj] in E. match type of E with bind ?x _ = _ => destruct x as [es| |] eqn:EE; try discriminate end. cbn [bind] in E. apply ok_eq in E. subst t. eapply Vw_dict; [apply (ENT d IH); exact EE|apply dict_view].
  - cbn [follow_obj] in E. match type of E with bind (bind ?x _) _ = _ => destruct x as [es| |] eqn:EE; try discriminate end. cbn [bind] in E. apply ok_eq in E. subst t. eapply Vw_stream; [apply (ENT d IH); exact EE|apply dict_view|apply content_view].
Qed.
