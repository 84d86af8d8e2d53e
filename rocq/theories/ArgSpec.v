(** * Which command lines mean what: specification, without reference to Argparse.v *)
From Verif Require Import PyBase.
Local Open Scope list_scope.

Definition begins_dash (a : str) : Prop := exists r, a = u "-" ++ r.
(** -h, -h..., or --help or a beginning of it of two characters or more, perhaps followed by
    "=" and a value *)
Definition asks_help (a : str) : Prop :=
  (exists r, a = u "-h" ++ r) \/
  exists p q, u "--help" = p ++ q /\ (2 <= List.length p)%nat /\ (a = p \/ exists v, a = p ++ u "=" ++ v).
(** the ones that do get help: -h or --h, --he, --hel, --help *)
Definition gets_help (a : str) : Prop :=
  a = u "-h" \/ exists p q, u "--help" = p ++ q /\ (3 <= List.length p)%nat /\ a = p.

(** Not taken for an option: nothing that begins with "-", except "-" itself, what the
    Python version takes for a negative number, and what contains a space. *)
Definition ordinary (negnum : str -> bool) (a : str) : Prop :=
  ~ begins_dash a \/ a = u "-" \/ (~ asks_help a /\ (negnum a = true \/ In 32%N a)).
(** An option the program does not have. *)
Definition foreign_option (negnum : str -> bool) (a : str) : Prop := ~ ordinary negnum a /\ ~ asks_help a.

(** The arguments and the values they pass: ordinary ones are passed as they are, and after
    one "--" everything is. *)
Inductive passes (negnum : str -> bool) : list str -> list str -> Prop :=
| Pass_none : passes negnum [] []
| Pass_one a l v : ordinary negnum a -> passes negnum l v -> passes negnum (a :: l) (a :: v)
| Pass_rest l : ~ In (u "--") l -> passes negnum (u "--" :: l) l.

(** The subcommands and how many values they want. *)
Definition wants : list (str * nat) :=
  [(u "convert", 3); (u "conversion-expr", 2); (u "explain-unit", 1); (u "debug-parser", 1)]%nat.
