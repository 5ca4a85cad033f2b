(** Specification vocabulary for printed trees and for the main program. *)
From Coq Require Import String Ascii.
From Verif Require Import Base Num ModelCommon ModelTree ModelPrint.
Local Open Scope list_scope.

Section SpecPrint.
Context {O : NumOps}.

(** The character does not occur in the text. *)
Definition lacks (c : ascii) (s : string) : Prop := ~ In c (list_ascii_of_string s).

(** What the printed text relies on in Rust's formatting: numbers are printed so that they can be read back
    (distinct numbers give distinct, non-empty texts), without blanks, commas or closing brackets; a quoted text starts with a quotation
    mark and can be read back. *)
Record readable_formats (fmt : formats) : Prop := {
  rf_display : forall x y, display_f64 fmt x = display_f64 fmt y -> x = y;
  rf_display_blank : forall x, lacks " " (display_f64 fmt x);
  rf_debug : forall x y, debug_f64 fmt x = debug_f64 fmt y -> x = y;
  rf_debug_nonempty : forall x, debug_f64 fmt x <> EmptyString;
  rf_debug_comma : forall x, lacks "," (debug_f64 fmt x);
  rf_debug_close : forall x, lacks "]" (debug_f64 fmt x);
  rf_str : forall s s', debug_str fmt s = debug_str fmt s' -> s = s';
  rf_str_quote : forall s, exists s', debug_str fmt s = String """" s' }.

(** The node reached from the root by answering the questions as listed ([true]: true branch). *)
Fixpoint node_at {L} (answers : list bool) (n : tree_node L) : option (tree_node L) :=
  match answers, n with
  | [], _ => Some n
  | true :: rest, TreeNode _ _ (Some t) _ _ => node_at rest t
  | false :: rest, TreeNode _ _ _ (Some f) _ => node_at rest f
  | _, _ => None
  end.

(** [n] blanks. *)
Fixpoint blanks (n : nat) : string :=
  match n with 0 => EmptyString | S n => String " " (blanks n) end.

(** Equal trees, except for the question a leaf node carries (no code ever looks at it). *)
Inductive same_tree {L} : tree_node L -> tree_node L -> Prop :=
| same_leaf q q' l : same_tree (leaf_node q l) (leaf_node q' l)
| same_node q t f t' f' : same_tree t t' -> same_tree f f' -> same_tree (node_new q t f) (node_new q t' f').

(** Some question of the tree asks about a column without a name. *)
Inductive asks_beyond {L} (n : nat) : tree_node L -> Prop :=
| ab_here q t f : n <= N.to_nat (q_column q) -> asks_beyond n (node_new q t f)
| ab_true q t f : asks_beyond n t -> asks_beyond n (node_new q t f)
| ab_false q t f : asks_beyond n f -> asks_beyond n (node_new q t f).

End SpecPrint.
