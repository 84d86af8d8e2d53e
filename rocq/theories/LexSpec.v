(** * Specification of tokenising (ANTLR's documented discipline): repeatedly take the
      longest non-empty piece that some rule of the current mode matches, preferring the
      rule listed first. *)
From Verif Require Import PyBase Regex Lexer.

(** Python strings hold code points up to 0x10FFFF. *)
Definition is_text (s : str) : Prop := Forall (fun c => (c <= 1114111)%N) s.

(** [w] is the piece of [w ++ rest] that rule [k] of mode [m] takes. *)
Record takes (m : mode) (k : kind) (w rest : str) : Prop := {
  tk_nonempty : w <> [];
  tk_longest : forall k' r' w' rest', In (k', r') (rules m) ->
      w' ++ rest' = w ++ rest -> matches r' w' -> List.length w' <= List.length w;
  tk_first : exists before r after, rules m = before ++ (k, r) :: after /\
      matches r w /\ forall k' r', In (k', r') before -> ~ matches r' w }.

Inductive tokenises : mode -> str -> list token -> Prop :=
| Tok_nil m : tokenises m [] []
| Tok_cons m k w rest ts :
    takes m k w rest -> tokenises (next_mode m k) rest ts ->
    tokenises m (w ++ rest) (mkTok k w :: ts).

Definition text_of (ts : list token) : str := List.concat (map ttext ts).
