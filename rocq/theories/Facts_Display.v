(* Proofs about the HTML view: C54, C79 *)
From Coq Require Import String ZifyBool ZifyNat.
From Verif Require Import PyBase Model_Filters Model_Objects Model_Filestruct Model_Text Model_Graphics Model_Docstruct Model_Api Model_Display.
From Verif Require Import Spec_Objects Spec_Display Facts_Base Facts_Token Facts_Obj Facts_Parse.

(* ---------- composing pages ---------- *)
(* as from_template; a tag is only cut beyond the first thirty characters *)
Definition ft (s : bytes) : Prop :=
  forall a b, s = a ++ 60 :: b ->
  exists t, In t template_tags /\
    (starts t (60 :: b) = true \/
     exists p, p <> [] /\ starts p t = true /\ (30 <= length a + length p)%nat /\ starts (p ++ cut_mark) (60 :: b) = true).
Lemma ft_from s : ft s -> from_template s.
Proof. intros F a b E. destruct (F a b E) as (t & I & [H|(p & A & C & _ & D)]); exists t; split; eauto 8. Qed.
Lemma starts_iff p s : starts p s = true <-> exists r, s = p ++ r.
Proof.
  unfold starts. rewrite beqb_eq. split.
  - intro E. exists (skipn (length p) s). rewrite <- E at 1. symmetry. apply firstn_skipn.
  - intros (r & ->). rewrite firstn_app, Nat.sub_diag, firstn_all, firstn_O. apply app_nil_r.
Qed.
Lemma starts_app p s r : starts p s = true -> starts p (s ++ r) = true.
Proof. rewrite !starts_iff. intros (x & ->). exists (x ++ r). apply eq_sym, app_assoc. Qed.
Lemma split_lt (a b s1 s2 : bytes) : a ++ 60 :: b = s1 ++ s2 ->
  (exists b1, s1 = a ++ 60 :: b1 /\ b = b1 ++ s2) \/ (exists a2, a = s1 ++ a2 /\ s2 = a2 ++ 60 :: b).
Proof.
  revert s1. induction a as [|x a IH]; intros s1 E.
  - destruct s1 as [|y s1]; cbn in E; [right; exists []; auto|]. injection E as <- ->. left. exists s1. auto.
  - destruct s1 as [|y s1]; cbn in E; [right; exists (x :: a); auto|]. injection E as <- E. destruct (IH s1 E) as [(b1 & -> & ->)|(a2 & -> & ->)]; [left; exists b1; auto|right; exists a2; auto].
Qed.
Lemma ft_app s1 s2 : ft s1 -> ft s2 -> ft (s1 ++ s2).
Proof.
  intros F1 F2 a b E. apply eq_sym, split_lt in E as [(b1 & -> & ->)|(a2 & -> & ->)].
  - destruct (F1 a b1 eq_refl) as (t & I & [H|(p & A & C & L & D)]); exists t; (split; [auto|]).
    + left. apply (starts_app t (60 :: b1) s2 H).
    + right. exists p. repeat split; auto. apply (starts_app _ (60 :: b1) s2 D).
  - destruct (F2 a2 b eq_refl) as (t & I & [H|(p & A & C & L & D)]); exists t; (split; [auto|]); [left; auto|].
    right. exists p. repeat split; auto. rewrite app_length. lia.
Qed.
Lemma ft_plain s : no_lt s -> ft s.
Proof. intros N a b ->. exfalso. apply N. apply in_elt. Qed.
Lemma ft_nil : ft []. Proof. apply ft_plain. intros []. Qed.
Lemma ft_flat {A} (f : A -> bytes) l : (forall x, In x l -> ft (f x)) -> ft (flat_map f l).
Proof. induction l as [|x l IH]; intro H; [apply ft_nil|]. cbn. apply ft_app; [apply H; left; auto|apply IH; intros; apply H; right; auto]. Qed.
(* literals *)
Fixpoint ftb (s : bytes) : bool :=
  match s with [] => true | c :: r => (negb (c =? 60) || existsb (fun t => starts t s) template_tags) && ftb r end.
Lemma ft_lit s : ftb s = true -> ft s.
Proof.
  intros H a. revert s H. induction a as [|x a IH]; intros s H b ->.
  - cbn [app] in H. cbn [ftb] in H. apply andb_true_iff in H as [H _]. cbn [Z.eqb Pos.eqb negb orb] in H. apply existsb_exists in H as (t & I & S1). exists t. auto.
  - cbn [app ftb] in H. apply andb_true_iff in H as [_ H]. destruct (IH _ H b eq_refl) as (t & I & [K|(p & A & C & L & D)]); exists t; (split; [auto|]); [left; auto|right; exists p; cbn [length]; repeat split; auto; lia].
Qed.
(* truncation *)
Lemma ft_cut s : ft s -> (30 <= length s)%nat -> ft (firstn 30 s ++ cut_mark).
Proof.
  intros F L a b E. apply eq_sym, split_lt in E as [(b1 & E & ->)|(a2 & -> & E)].
  - assert (ES : s = a ++ 60 :: (b1 ++ skipn 30 s)) by (rewrite <- (firstn_skipn 30 s) at 1; rewrite E, <- app_assoc; reflexivity).
    assert (LE : (length a + S (length b1) = 30)%nat) by (apply (f_equal (@length Z)) in E; rewrite firstn_length, app_length in E; cbn [length] in E; lia).
    destruct (F a _ ES) as (t & I & H). exists t. split; [auto|].
    assert (G : forall q, (exists r, 60 :: b1 ++ skipn 30 s = q ++ r) -> (length q <= S (length b1))%nat -> exists r, 60 :: b1 = q ++ r).
    { intros q (r & Eq) Lq. exists (skipn (length q) (60 :: b1)). change (60 :: b1 ++ skipn 30 s) with ((60 :: b1) ++ skipn 30 s) in Eq.
      apply (f_equal (firstn (length q))) in Eq. rewrite firstn_app, (firstn_app (length q) q), Nat.sub_diag, firstn_all, firstn_O, app_nil_r in Eq.
      replace (length q - length (60%Z :: b1))%nat with 0%nat in Eq by (cbn [length]; lia). rewrite firstn_O, app_nil_r in Eq. rewrite <- Eq at 1. symmetry. apply firstn_skipn. }
    assert (W : forall q r, 60 :: b1 ++ skipn 30 s = q ++ r -> (S (length b1) < length q)%nat -> starts (60 :: b1) q = true).
    { intros q r Eq Lq. apply starts_iff. exists (skipn (S (length b1)) q). change (60 :: b1 ++ skipn 30 s) with ((60 :: b1) ++ skipn 30 s) in Eq.
      apply (f_equal (firstn (length (60 :: b1)))) in Eq. rewrite firstn_app, Nat.sub_diag, firstn_all, firstn_O, app_nil_r, firstn_app in Eq. replace (length (60%Z :: b1) - length q)%nat with 0%nat in Eq by (cbn [length]; lia).
      rewrite firstn_O, app_nil_r in Eq. change (S (length b1)) with (length (60 :: b1)). rewrite Eq at 1. symmetry. apply firstn_skipn. }
    assert (CUT : starts (60 :: b1) t = true -> exists p, p <> [] /\ starts p t = true /\ (30 <= length a + length p)%nat /\ starts (p ++ cut_mark) (60 :: b1 ++ cut_mark) = true).
    { intro ST. exists (60 :: b1). split; [discriminate|]. split; [auto|]. split; [cbn [length]; lia|]. apply starts_iff. exists []. rewrite app_nil_r. reflexivity. }
    destruct H as [H|(p & A & C & Lp & D)].
    + apply starts_iff in H as (r & H). destruct (le_lt_dec (length t) (S (length b1))) as [LT|LT].
      * left. destruct (G t (ex_intro _ r H) LT) as (r' & E'). apply starts_iff. exists (r' ++ cut_mark). change (60 :: b1 ++ cut_mark) with ((60 :: b1) ++ cut_mark). rewrite E', <- app_assoc. reflexivity.
      * right. apply CUT. exact (W t r H LT).
    + apply starts_iff in D as (r & D). rewrite <- app_assoc in D. assert (ST : starts (60 :: b1) p = true).
      { destruct (le_lt_dec (length p) (S (length b1))) as [LT|LT]; [|exact (W _ _ D LT)]. destruct (G p (ex_intro _ _ D) LT) as (r' & E'). assert (length p = S (length b1)) by lia.
        rewrite E'. apply (f_equal (@length Z)) in E'. rewrite app_length in E'. cbn [length] in E'. destruct r'; [|cbn [length] in E'; lia]. rewrite app_nil_r. apply starts_iff. exists []. now rewrite app_nil_r. }
      right. apply CUT. apply starts_iff in ST as (r1 & ->). apply starts_iff in C as (r2 & ->). apply starts_iff. exists (r1 ++ r2). cbn [app]. rewrite <- app_assoc. reflexivity.
  - assert (K : ft cut_mark) by (apply ft_lit; vm_compute; reflexivity). destruct (K a2 b E) as (t & I & [H|(p & A & C & Lp & D)]); exists t; (split; [auto|]); [left; auto|]. right. exists p. repeat split; auto. rewrite app_length. lia.
Qed.

(* ---------- texts without '<' ---------- *)
Lemma no_lt_app s r : no_lt s -> no_lt r -> no_lt (s ++ r).
Proof. intros A C I. apply in_app_iff in I as [I|I]; auto. Qed.
Lemma no_lt_flat {A} (f : A -> bytes) l : (forall x, In x l -> no_lt (f x)) -> no_lt (flat_map f l).
Proof. intros H I. apply in_flat_map in I as (x & Ix & I). exact (H x Ix I). Qed.
Lemma no_lt_rep n : no_lt (repeat 32 n).
Proof. intro I. apply repeat_spec in I. discriminate. Qed.
Lemma dec_nat_no_lt n : 0 <= n -> no_lt (dec_nat n).
Proof. intros L I. assert (D := dec_nat_dig n L). rewrite Forall_forall in D. apply D in I. unfold isdig in I. lia. Qed.
Lemma dec_no_lt n : no_lt (dec n).
Proof. unfold dec. destruct (n <? 0) eqn:E; [|apply dec_nat_no_lt; lia]. intros [I|I]; [discriminate|]. eapply dec_nat_no_lt; [|exact I]. lia. Qed.
Lemma zpad_no_lt w n : no_lt (zpad w n).
Proof.
  unfold zpad, pad0. apply no_lt_app; [destruct (n <? 0); cbn; unfold no_lt; cbn; intuition discriminate|]. apply no_lt_app; [intro I; apply repeat_spec in I; discriminate|]. apply dec_nat_no_lt. lia.
Qed.

Lemma hexdig_no d : 0 <= d < 16 -> hexdig_l d <> 60.
Proof. unfold hexdig_l. destruct (d <? 10) eqn:E; lia. Qed.
Lemma hex_no_lt s : no_lt (hex_l s).
Proof. apply no_lt_flat. intros c I [E|[E|[]]]; revert E; apply hexdig_no; apply Z.mod_pos_bound; lia. Qed.
Lemma escape_no_lt s : no_lt (escape s).
Proof.
  apply no_lt_flat. intros c _. unfold escape1. destruct (c =? 38); [vm_compute; intuition discriminate|]. destruct (c =? 60) eqn:E; [vm_compute; intuition discriminate|].
  destruct (c =? 62); [vm_compute; intuition discriminate|]. destruct (c =? 34); [vm_compute; intuition discriminate|]. destruct (c =? 39); [vm_compute; intuition discriminate|]. intros [I|[]]. lia.
Qed.
Lemma printable_no_lt c p : printable_stream_content c = Some p -> no_lt p.
Proof.
  unfold printable_stream_content. destruct (existsb _ c); [discriminate|]. intros [= <-]. apply no_lt_flat. intros x I. apply in_flat_map in I as (y & _ & I).
  destruct (x =? 62); [vm_compute; intuition discriminate|]. intros [J|[]]. subst x. destruct (y =? 60) eqn:E; [vm_compute in I; intuition discriminate|]. destruct I as [I|[]]. lia.
Qed.
Lemma ljust_no_lt w s : no_lt s -> no_lt (ljust w s).
Proof. intro N. apply no_lt_app; [auto|apply no_lt_rep]. Qed.
Lemma lstrip_incl set s x : In x (lstrip set s) -> In x s.
Proof. induction s as [|c s IH]; cbn [lstrip]; [auto|]. destruct (inb c set); [right; auto|auto]. Qed.
Lemma pos_no_lt p : no_lt (pos_text p).
Proof.
  destruct p as [[z|l k|e o]|]; cbn [pos_text]; [apply dec_no_lt| | |vm_compute; intuition discriminate].
  - apply no_lt_app; [apply dec_no_lt|]. apply no_lt_app; [vm_compute; intuition discriminate|]. unfold drop0. intro I. apply in_rev, lstrip_incl in I. apply in_rev in I. exact (zpad_no_lt _ _ I).
  - repeat (apply no_lt_app; [solve [apply dec_no_lt|vm_compute; intuition discriminate]|]). vm_compute; intuition discriminate.
Qed.
Ltac ftt := match goal with
  | |- ft (_ ++ _) => apply ft_app
  | |- ft (dec _) => apply ft_plain, dec_no_lt
  | |- ft (zpad _ _) => apply ft_plain, zpad_no_lt
  | |- ft (pos_text _) => apply ft_plain, pos_no_lt
  | |- ft (escape _) => apply ft_plain, escape_no_lt
  | |- ft (repeat 32 _) => apply ft_plain, no_lt_rep
  | |- ft [] => apply ft_nil
  | |- ft (B _) => apply ft_lit; vm_compute; reflexivity
  | |- ft NL => apply ft_lit; vm_compute; reflexivity
  | |- ft TRUNCATED => apply ft_lit; vm_compute; reflexivity
  | |- ft (if ?b then _ else _) => destruct b
  | |- ft _ => assumption
  end.

Lemma ok_inj {A} (a b : A) : Ok a = Ok b -> b = a.
Proof. intros [= ->]. reflexivity. Qed.
Ltac okt := let E := fresh in intro E; apply ok_inj in E; subst.
(* ---------- follow_obj ---------- *)
Lemma follow_ref_ft row g n t : follow_ref row g n = Ok t -> ft t.
Proof. unfold follow_ref. destruct (pyget row n) as [[|e|l]|e|]; cbn [bind]; try discriminate. okt. repeat ftt.
Qed.
Lemma entry_ft name value : no_lt name -> ft value -> ft (entry_line name value).
Proof. intros N V. assert (J : ft (ljust 20 name)) by (apply ft_plain, ljust_no_lt; auto). unfold entry_line. repeat ftt. Qed.
Lemma firstn_no_lt n s : no_lt s -> no_lt (firstn n s).
Proof. intros N I. apply N. rewrite <- (firstn_skipn n s). apply in_app_iff. auto. Qed.
Lemma stream_ft c b : ft (stream_part c b).
Proof.
  unfold stream_part. destruct c as [[|c0 c]|]; try apply ft_nil. destruct b; [|apply ft_nil].
  destruct (printable_stream_content (c0 :: c)) as [p|] eqn:E.
  - apply printable_no_lt in E. assert (P : ft p) by (apply ft_plain; auto). repeat ftt.
  - assert (P : ft (firstn 60 (B "&lt;" ++ hex_l (c0 :: c) ++ B "&gt;"))).
    { apply ft_plain, firstn_no_lt. apply no_lt_app; [vm_compute; intuition discriminate|]. apply no_lt_app; [apply hex_no_lt|vm_compute; intuition discriminate]. }
    repeat ftt.
Qed.
Lemma leaf_ft o t : leaf o = Ok t -> ft t.
Proof.
  destruct o; cbn [leaf]; try discriminate; try (okt; ftt).
  destruct (beqb (firstn 1 s) [40]); [okt; repeat ftt|]. destruct (ascii s); cbn [bind]; [okt; ftt|discriminate|discriminate].
Qed.
Lemma text_of_in k d v : text_of k d = Some v -> In (k, v) d.
Proof. induction d as [|(n, x) d IH]; cbn [text_of]; [discriminate|]. destruct (beqb k n) eqn:E; [apply beqb_eq in E as ->; intros [= ->]; left; auto|right; auto]. Qed.
Lemma lines_ft depth d keys : Forall (fun kv => no_lt (fst kv) /\ ft (snd kv)) d -> ft (lines_of depth d keys).
Proof.
  intro F. induction keys as [|k keys IH]; cbn [lines_of]; [apply ft_nil|]. destruct (text_of k d) as [v|] eqn:E; [|auto].
  apply text_of_in in E. rewrite Forall_forall in F. destruct (F _ E) as [N V]. cbn in N, V. apply ft_app; [ftt|]. apply ft_app; [apply entry_ft; auto|auto].
Qed.
Definition fitems (row : list slot) := fix items (l : list obj) : res bytes :=
  match l with
  | [] => Ok []
  | v :: r => let* t := follow_obj row 0 true v in let* b := items r in Ok (t ++ B " " ++ b)
  end.
Definition fentries (row : list slot) (depth : nat) := fix entries (d : dict) : res (list (bytes * bytes)) :=
  match d with
  | [] => Ok []
  | (k, v) :: r => let* t := follow_obj row (S depth) true v in let* l := entries r in Ok ((k, t) :: l)
  end.
Definition dict_shown (row : list slot) (depth : nat) (d : dict) : res bytes :=
  let* es := fentries row depth d in
  Ok (B "&lt;&lt;" ++ NL ++ lines_of depth es (move_list_item (move_list_item (map fst es) K_Type 0) K_Subtype 1)
      ++ repeat 32 (22 * depth) ++ B "&gt;&gt;").
Lemma follow_dict row depth ds d : follow_obj row depth ds (PDict d) = dict_shown row depth d.
Proof. reflexivity. Qed.
Lemma follow_stream row depth ds d s e : follow_obj row depth ds (PStream d s e) = (let* t := dict_shown row depth d in Ok (t ++ stream_part s ds)).
Proof. reflexivity. Qed.
Lemma follow_list row depth ds l : follow_obj row depth ds (PList l) =
  (let* b := fitems row l in let ret := B "[ " ++ b in
   Ok ((if Nat.ltb 30 (length ret) && negb (has_href ret) then firstn 30 ret ++ TRUNCATED else ret) ++ B "]")).
Proof. reflexivity. Qed.
Lemma bind_ok {A C} (r : res A) (f : A -> res C) c : bind r f = Ok c -> exists a, r = Ok a /\ f a = Ok c.
Proof. destruct r; cbn [bind]; intro E; try discriminate. eauto. Qed.

Definition follow_good (o : obj) : Prop := forall row depth ds t, keys_ok o -> follow_obj row depth ds o = Ok t -> ft t.
Lemma fitems_ft row l : Forall follow_good l -> Forall keys_ok l -> forall b, fitems row l = Ok b -> ft b.
Proof.
  induction 1 as [|v l G _ IH]; intros K b; cbn [fitems]; [okt; apply ft_nil|]. inversion K; subst. intro E. apply bind_ok in E as (t & E1 & E). apply bind_ok in E as (b' & E2 & E). revert E. okt.
  apply ft_app; [eapply G; eauto|]. apply ft_app; [ftt|]. apply IH; auto.
Qed.
Lemma fentries_ft row depth d : Forall (fun kv => follow_good (snd kv)) d -> Forall (fun kv => no_lt (fst kv) /\ keys_ok (snd kv)) d ->
  forall es, fentries row depth d = Ok es -> Forall (fun kv => no_lt (fst kv) /\ ft (snd kv)) es.
Proof.
  induction 1 as [|(k, v) d G _ IH]; intros K es; cbn [fentries]; [okt; constructor|]. inversion K as [|? ? (K1 & K2) K3]; subst. intro E. apply bind_ok in E as (t & E1 & E). apply bind_ok in E as (l & E2 & E). revert E. okt.
  constructor; [cbn; split; [auto|eapply G; eauto]|]. apply IH; auto.
Qed.
Lemma dict_shown_ft row depth d t : Forall (fun kv => follow_good (snd kv)) d -> Forall (fun kv => no_lt (fst kv) /\ keys_ok (snd kv)) d ->
  dict_shown row depth d = Ok t -> ft t.
Proof.
  intros G K E. unfold dict_shown in E. apply bind_ok in E as (es & E1 & E). revert E. okt. apply fentries_ft in E1; auto. assert (L := fun ks => lines_ft depth es ks E1).
  apply ft_app; [ftt|]. apply ft_app; [ftt|]. apply ft_app; [apply L|]. repeat ftt.
Qed.
Lemma follow_ft o : follow_good o.
Proof.
  induction o as [|b|z|x e|s|s|g n|l IH|d IH|d s e IH] using obj_ind'; intros row depth ds t K E; try (match type of E with follow_obj _ _ _ ?o = _ => exact (leaf_ft o t E) end).
  - exact (follow_ref_ft row g n t E).
  - rewrite follow_list in E. apply bind_ok in E as (b & E1 & E). assert (FB : ft b). { eapply fitems_ft; [exact IH| |exact E1]. inversion K; [auto|contradiction]. }
    revert E. cbv zeta. okt. apply ft_app; [|ftt]. assert (FR : ft (B "[ " ++ b)) by (apply ft_app; [ftt|auto]). destruct (Nat.ltb 30 _ && _) eqn:EL; [|exact FR].
    apply andb_true_iff in EL as [EL _]. apply Nat.ltb_lt in EL. apply (ft_cut _ FR). lia.
  - rewrite follow_dict in E. eapply dict_shown_ft; [exact IH| |exact E]. inversion K; [auto|contradiction].
  - rewrite follow_stream in E. apply bind_ok in E as (b & E1 & E). revert E. okt. apply ft_app; [|apply stream_ft]. eapply dict_shown_ft; [exact IH| |exact E1]. inversion K; [auto|contradiction].
Qed.

(* ---------- the page ---------- *)
(* every string and name inside an object *)
Inductive names_ok : obj -> Prop :=
| no_list l : Forall names_ok l -> names_ok (PList l)
| no_dict d : Forall (fun kv => no_lt (fst kv) /\ names_ok (snd kv)) d -> names_ok (PDict d)
| no_stream d s e : Forall (fun kv => no_lt (fst kv) /\ names_ok (snd kv)) d -> names_ok (PStream d s e)
| no_str s : no_lt s -> names_ok (PStr s)
| no_other o : match o with PList _ | PDict _ | PStream _ _ _ | PStr _ => False | _ => True end -> names_ok o.
Lemma names_keys o : names_ok o -> keys_ok o.
Proof.
  induction o as [|b|z|x e|s|s|g n|l IH|d IH|d s e IH] using obj_ind'; intro N; try (apply ko_other; exact Logic.I).
  - apply ko_list. inversion N as [l' F| | | |]; subst; [|contradiction]. clear N. induction F; inversion IH; subst; constructor; auto.
  - apply ko_dict. inversion N as [|d' F| | |]; subst; [|contradiction]. clear N. induction F as [|? ? (? & ?)]; inversion IH; subst; constructor; auto.
  - apply ko_stream. inversion N as [| |d' s' e' F| |]; subst; [|contradiction]. clear N. induction F as [|? ? (? & ?)]; inversion IH; subst; constructor; auto.
Qed.
Definition named_article (a : article) : Prop :=
  match a with ArObj _ _ _ o => names_ok o | ArTable _ _ tr => names_ok tr | _ => True end.

Lemma ascii_id s t : ascii s = Ok t -> t = s.
Proof. unfold ascii. destruct (is_ascii s); [intros [= ->]; auto|discriminate]. Qed.
Lemma comment_ft pos t : no_lt (firstn 10 t) -> ft (add_comment pos t).
Proof.
  intro N. unfold add_comment. assert (D : ft match ascii (firstn 10 t) with Ok s => s | _ => B "&lt;" ++ hex_l t ++ B "&gt;" end).
  { assert (H : ft (B "&lt;" ++ hex_l t ++ B "&gt;")) by (apply ft_app; [ftt|]; apply ft_app; [apply ft_plain, hex_no_lt|ftt]).
    destruct (ascii (firstn 10 t)) as [s| |] eqn:E; auto. apply ascii_id in E as ->. apply ft_plain. auto. }
  cbv zeta. repeat ftt.
Qed.
Lemma eof_ft pos : ft (add_eof pos).
Proof. unfold add_eof. cbv zeta. repeat ftt. Qed.
Lemma startxref_ft pos v t : add_startxref pos v = Ok t -> ft t.
Proof. unfold add_startxref. intro E. apply bind_ok in E as (x & _ & E). revert E. cbv zeta. okt. repeat ftt. Qed.
Lemma table_ft l : forall t, Forall (fun x => match x with XEnt _ _ _ kw => no_lt kw | XSub _ _ => True end) l -> build_xref_table l = Ok t -> ft t.
Proof.
  induction l as [|[a n|pos num gen kw] l IH]; intros t F; cbn [build_xref_table]; [okt; apply ft_nil| |]; inversion F; subst; intro E.
  - apply bind_ok in E as (x & E1 & E). apply IH in E1; auto. revert E. okt. repeat ftt.
  - apply bind_ok in E as (st & ES & E). apply bind_ok in E as (x & E1 & E). apply IH in E1; auto. apply ascii_id in ES as ->. revert E. okt. assert (K : ft kw) by (apply ft_plain; auto). repeat ftt.
Qed.
Lemma xstream_ft l : ft (build_xref_stream l).
Proof.
  unfold build_xref_stream. assert (F : ft (flat_map xref_stream_line l)).
  { apply ft_flat. intros x _. unfold xref_stream_line. destruct (xs_num x =? 0); [ftt|]. cbv zeta. destruct (match xs_env x with Some e => _ | None => None end); repeat ftt. }
  repeat ftt.
Qed.
Lemma used_ft l : ft (used_in l).
Proof. unfold used_in. destruct l as [|p l]; [ftt|]. apply ft_app; [ftt|]. apply ft_app; [|ftt]. apply ft_flat. intros x _. repeat ftt. Qed.
Lemma obj_body_ft : ft obj_body. Proof. unfold obj_body. repeat ftt. Qed.
Lemma over_ft e t : over_text e = Ok t -> ft t.
Proof. unfold over_text. destruct (n_over e); [okt; ftt|discriminate]. Qed.
Lemma header_ft index cross pos emb num t : obj_header index cross pos emb num = Ok t -> ft t.
Proof.
  unfold obj_header. assert (OB := obj_body_ft). destruct emb as [(env, seq)|].
  - intro E. apply bind_ok in E as (c & _ & E). revert E. okt. assert (U := used_ft (c_used c)).
    assert (J : ft (ljust 10 (dec env ++ B " #" ++ dec (Z.of_nat seq)))). { apply ft_plain, ljust_no_lt. apply no_lt_app; [apply dec_no_lt|]. apply no_lt_app; [vm_compute; intuition discriminate|apply dec_no_lt]. }
    repeat ftt.
  - destruct pos as [[p|? ?|? ?]|]; try (okt; exact OB). intro E. apply bind_ok in E as (c & _ & E). apply bind_ok in E as (rel & _ & E). apply bind_ok in E as (row & _ & E).
    apply bind_ok in E as (s & _ & E). apply bind_ok in E as (e & _ & E). apply bind_ok in E as (ov & EO & E). apply over_ft in EO. revert E. okt. assert (U := used_ft (c_used c)). repeat ftt.
Qed.
Lemma trailer_ft : ft obj_trailer. Proof. unfold obj_trailer. repeat ftt. Qed.
Lemma endobj_ft : ft endobj_text. Proof. unfold endobj_text. assert (T := trailer_ft). repeat ftt. Qed.
Lemma thead_ft pos : ft (table_header pos). Proof. unfold table_header. assert (T := obj_body_ft). repeat ftt. Qed.
Lemma body_ft index cross l : forall ver t, Forall plain_article l -> Forall named_article l -> body index cross ver l = Ok t -> ft t.
Proof.
  assert (T1 := trailer_ft). assert (T2 := endobj_ft).
  induction l as [|a l IH]; intros ver t P N; cbn [body]; [okt; apply ft_nil|]. inversion P; inversion N; subst. destruct a as [pos v|pos c|pos emb num o|pos lines tr|pos lines]; intro E.
  - apply bind_ok in E as (x & E1 & E). apply bind_ok in E as (y & E2 & E). apply startxref_ft in E1. apply IH in E2; auto. revert E. okt. repeat ftt.
  - apply bind_ok in E as (y & E2 & E). apply IH in E2; auto. revert E. okt. apply ft_app; [|auto]. destruct (beqb c _); [apply eof_ft|apply comment_ft; auto].
  - apply bind_ok in E as (h & E1 & E). apply header_ft in E1. apply bind_ok in E as (c & _ & E). apply bind_ok in E as (rel & _ & E). apply bind_ok in E as (row & _ & E).
    apply bind_ok in E as (x & EX & E). apply bind_ok in E as (y & EY & E). apply IH in EY; auto. apply follow_ft in EX; [|apply names_keys; auto]. revert E. okt. repeat ftt.
  - apply bind_ok in E as (x & E1 & E). apply table_ft in E1; auto. apply bind_ok in E as (v & _ & E). apply bind_ok in E as (row & _ & E). apply bind_ok in E as (z & EZ & E).
    apply follow_ft in EZ; [|apply names_keys; auto]. apply bind_ok in E as (y & EY & E). apply IH in EY; auto. revert E. okt. apply ft_app; [apply thead_ft|]. repeat ftt.
  - apply bind_ok in E as (y & E2 & E). apply IH in E2; auto. revert E. okt. apply ft_app; [apply xstream_ft|]. repeat ftt.
Qed.
Lemma page_links_ft row l : forall i t, page_links row i l = Ok t -> ft t.
Proof.
  induction l as [|(g, n) l IH]; intros i t; cbn [page_links]; [okt; apply ft_nil|]. intro E. apply bind_ok in E as (s & _ & E). apply bind_ok in E as (e & _ & E). apply bind_ok in E as (ov & EO & E). apply over_ft in EO.
  apply bind_ok in E as (x & EX & E). apply IH in EX. revert E. okt. repeat ftt.
Qed.
Lemma nav_pages_ft index l t : nav_pages index l = Ok t -> ft t.
Proof.
  unfold nav_pages. intro E. apply bind_ok in E as (x & EX & E). assert (FX : ft x). { destruct l; [revert EX; okt; apply ft_nil|]. apply bind_ok in EX as (row & _ & EX). eapply page_links_ft; eauto. }
  revert E. okt. repeat ftt.
Qed.
Lemma repr_no_lt s : no_lt s -> no_lt (repr_body s).
Proof.
  intro N. unfold repr_body. set (q := if inb 39 s && negb (inb 34 s) then 34 else 39). assert (Q : q = 34 \/ q = 39) by (unfold q; destruct (_ && _); auto).
  apply no_lt_flat. intros c I. assert (C : c <> 60) by (intros ->; auto). unfold repr1. intro J.
  destruct ((c =? q) || (c =? 92)); [cbn in J; lia|]. destruct (c =? 9); [cbn in J; lia|]. destruct (c =? 10); [cbn in J; lia|]. destruct (c =? 13); [cbn in J; lia|].
  destruct ((c <? 32) || (126 <? c)); [|cbn in J; lia]. cbn in J. destruct J as [J|[J|[J|[J|[]]]]]; try lia; revert J; apply hexdig_no; apply Z.mod_pos_bound; lia.
Qed.
Lemma dget_forall (P : bytes -> obj -> Prop) d : Forall (fun kv => P (fst kv) (snd kv)) d -> forall k v, dget k d = Some v -> P k v.
Proof. induction 1 as [|(n, x) d H _ IH]; intros k v; cbn [dget]; [discriminate|]. destruct (beqb k n) eqn:E; [apply beqb_eq in E as ->; intros [= ->]; exact H|auto]. Qed.
Lemma type_ft d t : Forall (fun kv => no_lt (fst kv) /\ names_ok (snd kv)) d -> match dget (B "/Type") d with Some (PBytes s) => no_lt s | _ => True end -> type_text d = Ok t -> ft t.
Proof.
  intros F N. unfold type_text. change K_Type with (B "/Type"). destruct (dget (B "/Type") d) as [v|] eqn:E; [|okt; apply ft_nil]. apply (dget_forall (fun k v => no_lt k /\ names_ok v) d F) in E as [_ NV].
  destruct v; try discriminate.
  - okt. ftt.
  - okt. apply ft_plain. inversion NV; [auto|contradiction].
  - cbv zeta. okt. apply ft_plain. set (q := if inb 39 s && negb (inb 34 s) then 34 else 39). assert (Q : q = 34 \/ q = 39) by (unfold q; destruct (_ && _); auto).
    apply no_lt_app; [cbn; intros [I|[I|[]]]; lia|]. apply no_lt_app; [apply repr_no_lt; auto|]. cbn. intros [I|[]]; lia.
Qed.
Lemma nav_items_ft l : forall t, Forall plain_article l -> Forall named_article l -> nav_items l = Ok t -> ft t.
Proof.
  induction l as [|a l IH]; intros t P N; cbn [nav_items]; [okt; apply ft_nil|]. inversion P; inversion N; subst. destruct a as [pos v|pos c|pos emb num o|pos lines tr|pos lines]; try (apply IH; auto); intro E.
  - apply bind_ok in E as (ty & ET & E). apply bind_ok in E as (x & EX & E). apply IH in EX; auto. assert (FT : ft ty).
    { destruct o; try (revert ET; okt; apply ft_nil); (eapply type_ft; [|exact H1|exact ET]); cbn in H5; inversion H5; auto; contradiction. }
    revert E. okt. repeat ftt.
  - apply bind_ok in E as (x & EX & E). apply IH in EX; auto. revert E. okt. repeat ftt.
Qed.
Lemma basename_no_lt s : no_lt s -> no_lt (basename s).
Proof. induction s as [|c s IH]; intro N; [auto|]. cbn [basename]. destruct (inb 47 (c :: s)); [|auto]. apply IH. intro I. apply N. right. auto. Qed.
Theorem page_template l index cross filename pages info page : Forall plain_article l -> Forall named_article l -> no_lt filename -> Forall no_lt info ->
  build_html l index cross filename pages info = Ok page -> from_template page.
Proof.
  intros P N NF NI E. apply ft_from. unfold build_html in E. apply bind_ok in E as (b & EB & E). apply body_ft in EB; auto. apply bind_ok in E as (np & EP & E). apply nav_pages_ft in EP.
  apply bind_ok in E as (no & EO & E). revert E. okt. unfold nav_objects in EO. apply bind_ok in EO as (x & EX & EO). apply nav_items_ft in EX; auto. revert EO. okt.
  assert (BF : ft (basename filename)) by (apply ft_plain, basename_no_lt; auto). assert (H1 : ft HEADER) by (apply ft_lit; vm_compute; reflexivity). assert (H2 : ft TRAILER) by (apply ft_lit; vm_compute; reflexivity).
  assert (FI : ft (flat_map (fun x => B " <li class="""">" ++ x ++ B "</li>") info)). { apply ft_flat. intros y I. rewrite Forall_forall in NI. assert (ft y) by (apply ft_plain; auto). repeat ftt. }
  unfold page_header, nav_info, nav_quick. repeat ftt.
Qed.

(* ---------- names read by the parser ---------- *)
Lemma skipn_step {A} i (t : list A) c r : skipn i t = c :: r -> skipn (S i) t = r.
Proof. revert t. induction i as [|i IH]; intros t E; [cbn in E; subst t; reflexivity|]. destruct t as [|x t]; [discriminate|]. cbn [skipn] in *. apply IH. exact E. Qed.
Definition wordy (se : search) : bool := match se with SName | SKeyword => true | _ => false end.
Definition word_state (t : bytes) (se : search) (h : nat) (i : nat) (rest : bytes) : Prop :=
  wordy se = true -> (h <= i)%nat /\ exists pre, skipn h t = pre ++ rest /\ length pre = (i - h)%nat /\ no_lt pre.
Lemma sep_lt c : is_sep c = false -> c <> 60.
Proof. intros E ->. vm_compute in E. discriminate. Qed.
Lemma ntok_names t : forall n rest se nested tia h cur i, (length rest <= n)%nat -> skipn i t = rest -> word_state t se h i rest ->
  forall h' j k, ntok se nested tia h cur i rest = (h', j, Some k) -> k = TName \/ k = TKeyword -> no_lt (sub t h' j).
Proof.
  induction n as [|n IH]; intros rest se nested tia h cur i L SK W h' j k.
  { destruct rest; [|cbn in L; lia]. cbn [ntok]. discriminate. }
  destruct rest as [|c rest1]; [cbn [ntok]; discriminate|]. cbn [length] in L. assert (SK1 := skipn_step _ _ _ _ SK). assert (L1 : (length rest1 <= n)%nat) by lia.
  assert (NX : forall se' n' ti' hh cc, wordy se' = false -> ntok se' n' ti' hh cc (S i) rest1 = (h', j, Some k) -> k = TName \/ k = TKeyword -> no_lt (sub t h' j)).
  { intros se' n' ti' hh cc WW. apply (IH rest1 se' n' ti' hh cc (S i) L1 SK1). unfold word_state. congruence. }
  assert (NX2 : forall x rest2 se' n' ti' hh cc, rest1 = x :: rest2 -> wordy se' = false -> ntok se' n' ti' hh cc (S (S i)) rest2 = (h', j, Some k) -> k = TName \/ k = TKeyword -> no_lt (sub t h' j)).
  { intros x rest2 se' n' ti' hh cc E2 WW. rewrite E2 in L1, SK1. cbn [length] in L1. apply (IH rest2 se' n' ti' hh cc (S (S i))); [lia|exact (skipn_step _ _ _ _ SK1)|unfold word_state; congruence]. }
  assert (GO : forall se' hh cc, (wordy se' = true -> (hh <= i)%nat /\ exists pre, skipn hh t = pre ++ c :: rest1 /\ length pre = (i - hh)%nat /\ no_lt pre /\ c <> 60) ->
     forall n' ti', ntok se' n' ti' hh cc (S i) rest1 = (h', j, Some k) -> k = TName \/ k = TKeyword -> no_lt (sub t h' j)).
  { intros se' hh cc WW n' ti'. apply (IH rest1 se' n' ti' hh cc (S i) L1 SK1). intro WT. destruct (WW WT) as (LE & pre & E & EL & NP & NC). split; [lia|]. exists (pre ++ [c]).
    rewrite <- app_assoc. split; [exact E|]. split; [rewrite app_length; cbn [length]; lia|]. apply no_lt_app; [auto|]. intros [I|[]]; auto. }
  assert (DONE : wordy se = true -> no_lt (sub t h i)).
  { intro WT. destruct (W WT) as (LE & pre & E & EL & NP). unfold sub. rewrite E. rewrite <- EL, firstn_app, Nat.sub_diag, firstn_all, firstn_O, app_nil_r. auto. }
  cbn [ntok]. destruct se.
  - destruct (c =? 93); [discriminate|]. destruct ((c =? 62) && _); [discriminate|].
    destruct ((c =? 60) && _); [apply NX; reflexivity|]. destruct (c =? 91); [apply NX; reflexivity|].
    destruct (c =? 47) eqn:E47.
    { apply GO. intros _. split; [lia|]. exists []. cbn [app length]. split; [exact SK|]. split; [lia|]. split; [intros []|lia]. }
    destruct (starts W_stream (c :: rest1)); [apply NX; reflexivity|]. destruct (inb c VALUE_START); [apply NX; reflexivity|].
    destruct (inb c ALPHA) eqn:EA.
    { apply GO. intros _. split; [lia|]. exists []. cbn [app length]. split; [exact SK|]. split; [lia|]. split; [intros []|]. intros ->. vm_compute in EA. discriminate. }
    destruct (c =? 40); [apply NX; reflexivity|]. destruct (c =? 60); [apply NX; reflexivity|]. destruct (c =? 37); apply NX; reflexivity.
  - destruct (_ || _).
    + destruct (_ =? 0); [intros [= <- <- <-] [?|?]; discriminate|]. destruct rest1 as [|x rest2]; [discriminate|]. apply (NX2 x rest2); reflexivity.
    + destruct (nested =? 0); [intros [= <- <- <-] [?|?]; discriminate|apply NX; reflexivity].
  - destruct (is_sep c) eqn:ES; [intros [= <- <- <-] _; apply DONE; reflexivity|]. apply GO. intros _. destruct (W eq_refl) as (LE & pre & E & EL & NP). split; [auto|]. exists pre. repeat split; auto. apply sep_lt; auto.
  - destruct (inb c EOL); [intros [= <- <- <-] [?|?]; discriminate|apply NX; reflexivity].
  - destruct (_ || _).
    + destruct (nested =? 0); [intros [= <- <- <-] [?|?]; discriminate|]. destruct rest1 as [|x rest2]; [discriminate|]. apply (NX2 x rest2); reflexivity.
    + destruct (_ =? 0); [intros [= <- <- <-] [?|?]; discriminate|apply NX; reflexivity].
  - destruct (_ || _); [destruct rest1 as [|x rest2]; [discriminate|]; apply (NX2 x rest2); reflexivity|]. destruct (c =? 62); [intros [= <- <- <-] [?|?]; discriminate|apply NX; reflexivity].
  - destruct (is_sep c) eqn:ES; [intros [= <- <- <-] _; apply DONE; reflexivity|]. apply GO. intros _. destruct (W eq_refl) as (LE & pre & E & EL & NP). split; [auto|]. exists pre. repeat split; auto. apply sep_lt; auto.
  - destruct (is_sep c); [intros [= <- <- <-]; destruct (inb 46 _); intros [?|?]; discriminate|apply NX; reflexivity].
  - destruct (starts _ _); [intros [= <- <- <-] [?|?]; discriminate|]. destruct (starts _ _); [intros [= <- <- <-] [?|?]; discriminate|]. destruct (starts _ _); [intros [= <- <- <-] [?|?]; discriminate|]. destruct (starts _ _); [intros [= <- <- <-] [?|?]; discriminate|apply NX; reflexivity].
  - destruct (_ =? 0); [intros [= <- <- <-] [?|?]; discriminate|apply NX; reflexivity].
Qed.
Lemma token_names t i h j k : next_token t i = (h, j, Some k) -> k = TName \/ k = TKeyword -> no_lt (sub t h j).
Proof. unfold next_token. apply (ntok_names t (length (skipn i t))); [auto|auto|]. intro X. discriminate. Qed.
Lemma dedicated_names t i h j k o : next_token t i = (h, j, k) -> dedicated_type (sub t h j) k = Ok o -> names_ok o.
Proof.
  intros E D. assert (K : k = Some TName \/ k = Some TKeyword -> no_lt (sub t h j)).
  { intros [->| ->]; eapply token_names; eauto. }
  destruct k as [[]|]; cbn [dedicated_type] in D; try (revert D; okt; apply no_other; exact Logic.I).
  - apply bind_ok in D as (s & ES & D). apply ascii_id in ES as ->. revert D. okt. apply no_str. auto.
  - apply bind_ok in D as (s & ES & D). apply ascii_id in ES as ->. revert D. okt. apply no_str. auto.
  - destruct (py_float _) as [(m, e)|]; [revert D; okt; apply no_other; exact Logic.I|discriminate].
  - destruct (py_int _ _); [revert D; okt; apply no_other; exact Logic.I|discriminate].
Qed.
Lemma replace_ref_names n : forall l l', (length l <= n)%nat -> Forall names_ok l -> replace_ref l = Ok l' -> Forall names_ok l'.
Proof.
  induction n as [|n IH]; intros l l' L F E; [destruct l; [|cbn in L; lia]; revert E; cbn; okt; constructor|].
  destruct l as [|a r]; [revert E; cbn; okt; constructor|]. cbn [length] in L. inversion F as [|? ? Fa Fr]; subst. cbn [replace_ref] in E.
  assert (PLAIN : (let* l' := replace_ref r in Ok (a :: l')) = Ok l' -> Forall names_ok l').
  { intro E'. apply bind_ok in E' as (x & EX & E'). apply IH in EX; [|lia|auto]. revert E'. okt. constructor; auto. }
  destruct r as [|b [|c r']]; try (apply PLAIN; exact E). destruct (is_R c); [|apply PLAIN; exact E].
  apply bind_ok in E as (x & EX & E). apply bind_ok in E as (y & EY & E). revert E. okt. inversion Fr as [|? ? _ Fr2]; inversion Fr2; subst. cbn [length] in L. constructor; [|eapply IH; [|eassumption|exact EY]; lia].
  destruct a; cbn [mk_ref] in EX; try discriminate; revert EX; okt; apply no_other; exact Logic.I.
Qed.
Lemma dset_names k v d : no_lt k -> names_ok v -> Forall (fun kv => no_lt (fst kv) /\ names_ok (snd kv)) d -> Forall (fun kv => no_lt (fst kv) /\ names_ok (snd kv)) (dset k v d).
Proof.
  intros K V. induction 1 as [|(n, x) d H F IH]; cbn [dset]; [constructor; [split; assumption|constructor]|]. destruct H as [H1 H2]. cbn [fst snd] in H1, H2.
  destruct (beqb k n) eqn:E; constructor; try assumption; split; assumption.
Qed.
Lemma pair_up_names n : forall l d d', (length l <= n)%nat -> Forall names_ok l -> Forall (fun kv => no_lt (fst kv) /\ names_ok (snd kv)) d -> pair_up d l = Ok d' ->
  Forall (fun kv => no_lt (fst kv) /\ names_ok (snd kv)) d'.
Proof.
  induction n as [|n IH]; intros l d d' L F D E; [destruct l; [|cbn in L; lia]; revert E; cbn; okt; auto|].
  destruct l as [|v [|k r]]; try (revert E; cbn; okt; auto; fail). cbn [pair_up] in E. inversion F as [|? ? Fv F2]; inversion F2 as [|? ? Fk Fr]; subst. cbn [length] in L.
  destruct k; try discriminate. eapply IH; [|exact Fr| |exact E]; [lia|]. apply dset_names; auto. inversion Fk; [auto|contradiction].
Qed.
Section Names.
Context {ZL : Zlib}.
Lemma items_names p isd t j1 : (forall s o, p s = Ok o -> names_ok o) -> forall fuel i l, items_loop p isd t j1 fuel i = Ok l -> Forall names_ok l.
Proof.
  intro P. induction fuel as [|fuel IH]; intros i l E; [discriminate|]. cbn [items_loop] in E. destruct (Nat.ltb i (j1 - 1)); [|revert E; okt; constructor].
  destruct (next_token t i) as ((h, i'), tk) eqn:ET. destruct tk as [k|]; [|eapply IH; eauto].
  assert (ST : (if isd && negb (Nat.ltb i' j1) then items_loop p isd t j1 fuel i' else
     let* o := match k with TDict | TArray => p (sub t h i') | _ => dedicated_type (sub t h i') (Some k) end in let* l := items_loop p isd t j1 fuel i' in Ok (o :: l)) = Ok l -> Forall names_ok l).
  { clear E. destruct (isd && _); [apply IH|]. intro E. apply bind_ok in E as (o & EO & E). apply bind_ok in E as (l' & EL & E). apply IH in EL. revert E. okt. constructor; [|auto].
    destruct k; try (eapply dedicated_names; eauto; fail); eapply P; eauto. }
  destruct k; try (apply ST; exact E). eapply IH; eauto.
Qed.
Lemma pobj_names : forall fuel t i o, pobj fuel t i = Ok o -> names_ok o.
Proof.
  induction fuel as [|fuel IH]; intros t i o E; [discriminate|]. cbn [pobj] in E. destruct (next_token t i) as ((h1, j1), t1) eqn:E1.
  assert (PI : forall s x, pobj fuel s 0 = Ok x -> names_ok x) by (intros; eapply IH; eauto).
  assert (DED : dedicated_type (sub t h1 j1) t1 = Ok o -> names_ok o) by (intro; eapply dedicated_names; eauto).
  assert (DIC : (let* l := items_loop (fun s => pobj fuel s 0) true t j1 (S (length t)) (i + 2) in let* l' := replace_ref l in let* d := pair_up [] (rev l') in Ok (PDict d)) = Ok o -> names_ok o).
  { intro D. apply bind_ok in D as (l & EL & D). apply bind_ok in D as (l' & EL' & D). apply bind_ok in D as (d & ED & D). apply (items_names _ _ _ _ PI) in EL. apply (replace_ref_names (length l)) in EL'; auto.
    apply (pair_up_names (length (rev l'))) in ED; auto; [|apply Forall_rev; auto]. revert D. okt. apply no_dict. auto. }
  destruct t1 as [[]|]; try (apply DED; exact E).
  - destruct (next_token t j1) as ((h2, j2), t2). destruct t2 as [[]|]; try (apply DIC; exact E).
    apply bind_ok in E as (sd & ES & E). apply bind_ok in E as (se & _ & E). apply IH in ES. destruct sd; try discriminate. apply bind_ok in E as (sc & _ & E). revert E. okt. apply no_stream. inversion ES; [auto|contradiction].
  - apply bind_ok in E as (l & EL & E). apply bind_ok in E as (l' & EL' & E). apply (items_names _ _ _ _ PI) in EL. apply (replace_ref_names (length l)) in EL'; auto. revert E. okt. apply no_list. auto.
  - revert E. okt. apply no_str. intros [].
  - destruct (stream_body _); revert E; okt; apply no_other; exact Logic.I.
Qed.
Lemma parse_names t i o : parse_obj t i = Ok o -> names_ok o.
Proof. apply pobj_names. Qed.
Lemma indirect_names t i o : parse_indirect_obj t i = Ok o -> names_ok (i_obj o).
Proof.
  unfold parse_indirect_obj. destruct (next_token t i) as ((i1, j1), ?). destruct (next_token t j1) as ((i2, j2), ?). intro E.
  apply bind_ok in E as (n & _ & E). apply bind_ok in E as (g & _ & E). destruct (next_token t j2) as ((?, j3), ?). destruct (next_token t j3) as ((i4, j4), ?).
  apply bind_ok in E as (x & EX & E). apply parse_names in EX. destruct (next_token t j4) as ((?, j5), t5). revert E. okt. exact EX.
Qed.
Lemma emb_names data tokens ypos n env : forall cnt x l, emb_loop data tokens ypos n env x cnt = Ok l -> Forall (fun e => names_ok (e_obj e)) l.
Proof.
  induction cnt as [|cnt IH]; intros x l E; cbn [emb_loop] in E; [revert E; okt; constructor|].
  apply bind_ok in E as (p & _ & E). apply bind_ok in E as (q & _ & E). apply bind_ok in E as (m & _ & E). apply bind_ok in E as (o & EO & E). apply parse_names in EO.
  apply bind_ok in E as (r & ER & E). apply IH in ER. revert E. okt. constructor; auto.
Qed.
Lemma objstm_names d s env l : parse_object_stream d s env = Ok l -> Forall (fun e => names_ok (e_obj e)) l.
Proof.
  unfold parse_object_stream. intro E. repeat (apply bind_ok in E as (? & _ & E)). eapply emb_names; eauto.
Qed.
Lemma table_names t i x : parse_xref_table_raw t i = Ok (Some x) -> names_ok (xt_trailer x).
Proof.
  unfold parse_xref_table_raw. destruct (negb _); [discriminate|]. intro E. apply bind_ok in E as ((l & el) & _ & E). destruct (next_token t el) as ((bl, bf), ?).
  apply bind_ok in E as (tr & ET & E). apply parse_names in ET. injection E as <-. exact ET.
Qed.
Definition named_region (r : region) : Prop := match r with RInd o => names_ok (i_obj o) | RXref x => names_ok (xt_trailer x) | _ => True end.
Definition named_item (i : Model_Filestruct.item) : Prop := match i with ItReg r _ => named_region r | ItEmb _ _ e => names_ok (e_obj e) | _ => True end.
Lemma region_names t i r : parse_region t i = Ok (Some r) -> named_region r.
Proof.
  unfold parse_region. destruct (next_token t i) as ((bl, el), typ). destruct (negb _); [intros [= <-]; exact Logic.I|]. destruct typ as [k|]; [|intros [= <-]; exact Logic.I].
  destruct (beqb _ [37]); [intros [= <-]; exact Logic.I|]. destruct (beqb _ W_startxref).
  { destruct (next_token t bl) as ((?, j1), ?). destruct (next_token t j1) as ((i2, j2), ?). intros [= <-]. exact Logic.I. }
  destruct (tok_is (Some k) TInteger).
  { destruct (next_token t bl) as ((?, j1), ?). destruct (next_token t j1) as ((?, j2), ?). destruct (next_token t j2) as ((i3, j3), t3). destruct (_ && _); [|discriminate].
    intro E. apply bind_ok in E as (io & EO & E). apply indirect_names in EO. injection E as <-. exact EO. }
  destruct (beqb _ W_xref); [|discriminate]. intro E. apply bind_ok in E as ([x|] & EX & E); [|discriminate]. apply table_names in EX. injection E as <-. exact EX.
Qed.
Lemma region_item_names r l : named_region r -> region_items r = Ok l -> Forall named_item l.
Proof.
  intros N E. destruct r as [b e|b e|b e v|o|x]; cbn [region_items] in E; try (revert E; okt; constructor; [exact N|constructor]).
  assert (ONE : Ok [ItReg (RInd o) []] = Ok l -> Forall named_item l) by (okt; constructor; [exact N|constructor]).
  destruct (i_obj o) as [| | | | | | | | |d s enc] eqn:EO; auto. destruct (type_is V_XRef d).
  { apply bind_ok in E as (tab & _ & E). revert E. okt. constructor; [exact N|]. constructor; [exact Logic.I|constructor]. }
  destruct (type_is V_ObjStm d); auto. apply bind_ok in E as (es & EE & E). apply objstm_names in EE. destruct es as [|e es]; auto. destruct (i_beg o) as [bo|]; [|discriminate]. revert E. okt.
  constructor; [exact N|]. generalize 0%nat. revert EE. generalize (e :: es). induction 1; intro k; cbn [emb_items]; constructor; auto.
Qed.
Lemma map_names : forall fuel t len i l, map_loop fuel t len i = Ok l -> Forall named_item l.
Proof.
  induction fuel as [|fuel IH]; intros t len i l E; [discriminate|]. cbn [map_loop] in E. destruct (Z.of_nat i <? len); [|revert E; okt; constructor].
  apply bind_ok in E as (mo & EM & E). destruct mo as [r|]; [|revert E; okt; constructor]. apply region_names in EM. apply bind_ok in E as (its & EI & E). apply region_item_names in EI; auto.
  apply bind_ok in E as (tl & ET & E). apply IH in ET. revert E. okt. apply Forall_app. auto.
Qed.
Lemma article_names t : forall l a, Forall named_item l -> articles t l = Ok a -> Forall named_article a.
Proof.
  induction l as [|i l IH]; intros a F E; cbn [articles] in E; [revert E; okt; constructor|]. inversion F as [|? ? Fi Fl]; subst.
  apply bind_ok in E as (x & EX & E). apply bind_ok in E as (y & EY & E). apply IH in EY; auto. revert E. okt. apply Forall_app. split; [|auto].
  destruct i as [r|bo d tab|bo j e]; cbn [articles_of] in EX; [destruct r; revert EX; okt; first [exact (Forall_nil _)|constructor; [exact Fi|constructor]]| |].
  - revert EX. okt. constructor; [exact Logic.I|constructor].
  - apply bind_ok in EX as (n & _ & EX). revert EX. okt. constructor; [exact Fi|constructor].
Qed.
Lemma section_names p l : file_sections p = Ok l -> Forall named_article l.
Proof.
  unfold file_sections, file_object_map. intro E. apply bind_ok in E as (items & EI & E). apply bind_ok in EI as (((t & a) & n) & _ & EI). apply map_names in EI.
  apply bind_ok in E as (((t' & a') & n') & _ & E). eapply article_names; eauto.
Qed.
Lemma info_no_lt ver count revs hyb lin size : no_lt ver -> no_lt count -> Forall no_lt (info_lines ver count revs hyb lin size).
Proof.
  intros NV NC. assert (L : forall s, inb 60 s = false -> no_lt s). { intros s H I. assert (X : inb 60 s = true) by (apply existsb_exists; exists 60; split; [exact I|reflexivity]). congruence. }
  unfold info_lines. repeat constructor; apply no_lt_app; try (apply ljust_no_lt, L; reflexivity); auto; try apply dec_no_lt.
  - destruct hyb; apply L; reflexivity.
  - destruct lin; apply L; reflexivity.
  - apply no_lt_app; [apply dec_no_lt|apply L; reflexivity].
Qed.
Lemma browse_template fuel p filename page :
  browse fuel p filename = Ok page ->
  no_lt filename -> (forall l, file_sections p = Ok l -> Forall plain_article l) ->
  (forall d v d1 c d2 t, doc_constructor fuel p = Ok d -> version d = Ok (v, d1) -> number_pages d1 = Ok (c, d2) -> count_text c = Ok t -> no_lt v /\ no_lt t) ->
  from_template page.
Proof.
  unfold browse. intros E NF PS PI. apply bind_ok in E as (size & _ & E). apply bind_ok in E as (index & _ & E). apply bind_ok in E as (secs & ES & E). apply bind_ok in E as (cross & _ & E).
  apply bind_ok in E as (d & ED & E). apply bind_ok in E as ((v & d1) & EV & E). apply bind_ok in E as ((c & d2) & EC & E). apply bind_ok in E as (t & ET & E). destruct (PI _ _ _ _ _ _ ED EV EC ET) as (NV & NT).
  apply bind_ok in E as (hyb & _ & E). apply bind_ok in E as (lin & _ & E). apply bind_ok in E as (((pgs & ?) & ?) & _ & E). apply bind_ok in E as (pl & _ & E). apply bind_ok in E as (refs & _ & E).
  refine (page_template _ _ _ _ _ _ _ (PS _ ES) (section_names _ _ ES) NF _ E). apply info_no_lt; assumption.
Qed.
End Names.
