(* Specification vocabulary for the text of all pages *)
From Coq Require Import String.
From Verif Require Import PyBase Model_Filters Model_Objects Model_Filestruct Model_Text Model_Docstruct Model_Api Model_Graphics Model_Layout Model_Fonts.
From Verif Require Import Spec_Objects Spec_Filestruct Spec_Docstruct Spec_Pages Spec_Text Spec_Calls Spec_Fonts.

Section WithZlib.
Context {ZL : Zlib}.
(* a page with its own resources, fonts that can be used and contents (see C90 and C91) *)
Definition legible (d : doc) (p : dict) : Prop := exists l cs,
  page_font_dict d p l /\ Forall (fun kv => exists f, usable d (snd kv) f) l /\ page_contents d p cs.
(* the contents of a page, shown with the fonts of this page, make the text r; r can be an error *)
Definition page_shows (d : doc) (p : dict) (r : res bytes) : Prop := exists l cs fs,
  page_font_dict d p l /\ page_contents d p cs /\
  Forall2 (fun kv kf => fst kv = fst kf /\ exists f, deref d (snd kv) (PDict f) /\ prepared d f (snd kf)) l fs /\ page_text cs fs = r.
(* the texts of pages, one after the other, each one followed by an end of line; pages after one
   whose text is an error are not shown *)
Inductive pages_show (d : doc) : list dict -> bytes -> res unit -> Prop :=
| Ps_end : pages_show d [] [] (Ok tt)
| Ps_page p r t out e : page_shows d p (Ok t) -> pages_show d r out e -> pages_show d (p :: r) (t ++ [10] ++ out) e
| Ps_error p r e : page_shows d p (Exc e) -> pages_show d (p :: r) [] (Exc e)
| Ps_endless p r : page_shows d p Loop -> pages_show d (p :: r) [] Loop.
End WithZlib.
