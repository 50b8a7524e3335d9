(* Specification vocabulary for the HTML view *)
From Coq Require Import String.
From Verif Require Import PyBase Model_Filters Model_Objects Model_Filestruct Model_Display Spec_Objects Spec_Filestruct.

(* the tags written in the source of the page template, up to the first interpolated part *)
Definition template_tags : list bytes :=
  [B "<!DOCTYPE html>";
   B "</a>";
   B "</body>";
   B "</code>";
   B "</details>";
   B "</div>";
   B "</em>";
   B "</head>";
   B "</li>";
   B "</nav>";
   B "</p>";
   B "</pre>";
   B "</span>";
   B "</strong>";
   B "</style>";
   B "</summary>";
   B "</title>";
   B "</ul>";
   B "<a class=""header-button"" href=""#end"">";
   B "<a class=""header-button"" href=""#idx0"">";
   B "<a class=""nav-idx"" href=""#idx";
   B "<a class=""nav-idx"" href=""#obj";
   B "<a class=""obj-link"" href=""#";
   B "<a class=""obj-link"" href=""#idx";
   B "<a href=""#idx";
   B "<a href=""#obj";
   B "<a href=""https://pdfsyntax.dev"">";
   B "<body class=""b1 c0"">";
   B "<code>";
   B "<details class=""b3"">";
   B "<details>";
   B "<div class=""block"" id=""idx";
   B "<div class=""content"">";
   B "<div class=""header b3"">";
   B "<div class=""obj-body b0"">";
   B "<div class=""xref-item"">";
   B "<div id=""end"">";
   B "<div id=""obj";
   B "<div>";
   B "<em>";
   B "<head>";
   B "<html lang=""en"">";
   B "<li class="""">";
   B "<li>";
   B "<meta charset=""UTF-8"">";
   B "<meta http-equiv=""X-UA-Compatible"" content=""IE=edge"">";
   B "<meta name=""viewport"" content=""width=device-width, initial-scale=1.0"">";
   B "<nav class=""b2"">";
   B "<p class=""nav-y b2"">";
   B "<pre class=""b2"">";
   B "<pre class=""comment"">";
   B "<pre class=""detail"">";
   B "<pre class=""eof"">";
   B "<pre class=""nav-y b2"">";
   B "<pre>";
   B "<span class=""c1"">";
   B "<span class=""important"">";
   B "<span class=""obj-header b0"">";
   B "<span class=""obj-link"">";
   B "<span class=""warning"">";
   B "<strong>";
   B "<style>";
   B "<summary class=""stream-content"">";
   B "<summary class=""title b3"">";
   B "<title>";
   B "<ul>"].
Definition cut_mark : bytes := B "<em> ...(truncated) </em>".
(* where a '<' stands in the page, a tag of the template starts; a tag may be cut by the
   truncation of a long array *)
Definition from_template (s : bytes) : Prop :=
  forall a b, s = a ++ 60 :: b ->
  exists t, In t template_tags /\
    (starts t (60 :: b) = true \/ exists p, p <> [] /\ starts p t = true /\ starts (p ++ cut_mark) (60 :: b) = true).

Definition no_lt (s : bytes) : Prop := ~ In 60 s.
(* the names of the dictionaries inside an object *)
Inductive keys_ok : obj -> Prop :=
| ko_list l : Forall keys_ok l -> keys_ok (PList l)
| ko_dict d : Forall (fun kv => no_lt (fst kv) /\ keys_ok (snd kv)) d -> keys_ok (PDict d)
| ko_stream d s e : Forall (fun kv => no_lt (fst kv) /\ keys_ok (snd kv)) d -> keys_ok (PStream d s e)
| ko_other o : match o with PList _ | PDict _ | PStream _ _ _ => False | _ => True end -> keys_ok o.
(* the parts of a file that are copied into the page: start of comments, keywords of
   cross-reference entries, types written as strings *)
Definition plain_article (a : article) : Prop :=
  match a with
  | ArComment _ t => no_lt (firstn 10 t)
  | ArTable _ lines _ => Forall (fun x => match x with XEnt _ _ _ kw => no_lt kw | XSub _ _ => True end) lines
  | ArObj _ _ _ (PDict d) | ArObj _ _ _ (PStream d _ _) =>
      match dget (B "/Type") d with Some (PBytes s) => no_lt s | _ => True end
  | _ => True
  end.

(* ---------- what the index says of the sections ---------- *)
Definition section_pos (a : article) : option (option apos) :=
  match a with ArTable p _ _ => Some (Some (AInt (Z.of_nat p))) | ArObj p _ _ _ => Some p | _ => None end.
(* a trailer is number 0 *)
Definition section_num (a : article) : Z := match a with ArObj _ _ n _ => n | _ => 0 end.
Definition section_obj (a : article) : obj := match a with ArTable _ _ t => t | ArObj _ _ _ o => o | _ => PNone end.
(* a is the last section of l at position q *)
Definition shown_at (l : list article) (q : option apos) (a : article) : Prop :=
  exists l1 l2, l = l1 ++ a :: l2 /\ section_pos a = Some q /\ Forall (fun b => section_pos b <> Some q) l2.
(* the section belongs to the last revision of the index *)
Definition latest (index : list (list slot)) (a : article) : Prop :=
  exists rows row, index = rows ++ [row] /\
  match a with
  | ArTable p _ _ =>
      exists e, n_xt e = Some (Z.of_nat p) /\
        (cell row 0 (SDict e) \/ rows = [] /\ exists l, cell row 0 (SList l) /\ In (SDict e) l)
  | ArObj p _ _ _ => exists num e, 1 <= num /\ cell row num (SDict e) /\ n_pos e = p
  | _ => False
  end.
(* a position is the one of a single number *)
Definition one_number (index : list (list slot)) : Prop :=
  forall r1 r2 n1 n2 e1 e2, In r1 index -> In r2 index -> cell r1 n1 (SDict e1) -> cell r2 n2 (SDict e2) ->
    1 <= n1 -> 1 <= n2 -> n_pos e1 = n_pos e2 -> n1 = n2.
(* number m is at position k in the last revision; list indexes count from the end when negative *)
Definition now_at (index : list (list slot)) (m : Z) (k : apos) : Prop :=
  exists rows row e, index = rows ++ [row] /\ pyget row m = Ok (SDict e) /\ n_pos e = Some k.
(* the section (n, q) of the last revision refers to the object at position k *)
Definition uses (l : list article) (index : list (list slot)) (n : Z) (q : option apos) (k : apos) : Prop :=
  exists a g m, shown_at l q a /\ section_num a = n /\ latest index a /\ ref_in (g, m) (section_obj a) /\ now_at index m k.

(* ---------- files for which the cross map can be built ---------- *)
(* cells are empty or dictionaries; cell 0 of the first revision may be a list of dictionaries *)
Definition is_dict (s : slot) : Prop := match s with SDict _ => True | _ => False end.
Definition plain_index (index : list (list slot)) : Prop :=
  index <> [] /\
  (forall row n s, In row index -> 1 <= n -> cell row n s -> s = SNone \/ is_dict s) /\
  (exists row0 rows s, index = row0 :: rows /\ cell row0 0 s /\ (is_dict s \/ exists l, s = SList l /\ Forall is_dict l)) /\
  (forall row, In row (tl index) -> exists s, cell row 0 s /\ (s = SNone \/ is_dict s)).
(* the section is described by some revision of the index *)
Definition indexed (index : list (list slot)) (a : article) : Prop :=
  match a with
  | ArTable p _ _ =>
      exists rows row rest e, index = rows ++ row :: rest /\ n_xt e = Some (Z.of_nat p) /\
        (cell row 0 (SDict e) \/ rows = [] /\ exists l, cell row 0 (SList l) /\ In (SDict e) l)
  | ArObj p _ _ _ =>
      exists row last num e, In row index /\ pyget index (-1) = Ok last /\ 1 <= num < Z.of_nat (length last) /\ cell row num (SDict e) /\ n_pos e = p
  | _ => True
  end.
