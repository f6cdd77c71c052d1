(** A reader for the part of the DOT language of Graphviz that the graphs of the
    server are written in. What it cannot read it refuses. *)
From Verif Require Import Text.

Inductive dtok :=
| DWord (x : text)        (* a word *)
| DString (x : text)      (* a quoted string, unquoted *)
| DArrow | DOpen | DClose | DLeft | DRight | DEq | DSemi.

Inductive dmode :=
| Outside
| InWord (x : text)       (* the word so far, backwards *)
| InString (x : text)
| Escaped (x : text)      (* behind a backslash in a string *)
| InComment               (* to the end of the line *)
| Slash | Minus.

Definition BACKSLASH : char := 92%N.
Definition dot_letter (c : char) : bool := in_range (ch "a") (ch "z") c || in_range (ch "A") (ch "Z") c || (c =? ch "_")%N || (128 <=? c)%N.
Definition dot_digit (c : char) : bool := in_range (ch "0") (ch "9") c.
(** a character outside of words, strings and comments *)
Definition outside (c : char) : option (list dtok * dmode) :=
  if (c =? ch " ")%N || (c =? LF)%N then Some ([], Outside)
  else if (c =? DQUOTE)%N then Some ([], InString [])
  else if dot_letter c then Some ([], InWord [c])
  else if (c =? ch "/")%N then Some ([], Slash)
  else if (c =? ch "-")%N then Some ([], Minus)
  else if (c =? ch "{")%N then Some ([DOpen], Outside)
  else if (c =? ch "}")%N then Some ([DClose], Outside)
  else if (c =? ch "[")%N then Some ([DLeft], Outside)
  else if (c =? ch "]")%N then Some ([DRight], Outside)
  else if (c =? ch "=")%N then Some ([DEq], Outside)
  else if (c =? ch ";")%N then Some ([DSemi], Outside)
  else None.
Definition dot_step (m : dmode) (c : char) : option (list dtok * dmode) :=
  match m with
  | Outside => outside c
  | InWord x =>
      if dot_letter c || dot_digit c then Some ([], InWord (c :: x))
      else match outside c with Some (ts, m') => Some (DWord (rev x) :: ts, m') | None => None end
  | InString x =>
      if (c =? DQUOTE)%N then Some ([DString (rev x)], Outside)
      else if (c =? BACKSLASH)%N then Some ([], Escaped x)
      else Some ([], InString (c :: x))
  | Escaped x => if (c =? DQUOTE)%N then Some ([], InString (c :: x)) else Some ([], InString (c :: BACKSLASH :: x))
  | InComment => Some ([], if (c =? LF)%N then Outside else InComment)
  | Slash => if (c =? ch "/")%N then Some ([], InComment) else None
  | Minus => if (c =? ch ">")%N then Some ([DArrow], Outside) else None
  end.
Fixpoint dot_tokens (m : dmode) (t : text) : option (list dtok) :=
  match t with
  | [] => match m with Outside | InComment => Some [] | InWord x => Some [DWord (rev x)] | _ => None end
  | c :: t =>
      match dot_step m c with
      | Some (ts, m') => match dot_tokens m' t with Some r => Some (ts ++ r) | None => None end
      | None => None
      end
  end.

(** Statements: edges, nodes, and one default attribute for all nodes, edges or
    the graph. *)
Inductive ditem := Edge (a b : text) | Node (a : text).
Definition dot_keyword (x : text) : bool := existsb (text_eqb x) [str "node"; str "edge"; str "graph"; str "digraph"; str "subgraph"; str "strict"].
Definition dot_default (x : text) : bool := existsb (text_eqb x) [str "node"; str "edge"; str "graph"].
Definition dot_id (t : dtok) : option text :=
  match t with DString x => Some x | DWord x => if dot_keyword x then None else Some x | _ => None end.
Fixpoint dot_items (ts : list dtok) : option (list ditem) :=
  match ts with
  | [DClose] => Some []
  | DSemi :: r => dot_items r
  | DWord k :: DLeft :: DWord _ :: DEq :: DWord _ :: DRight :: r => if dot_default k then dot_items r else None
  | x :: DArrow :: y :: r =>
      match dot_id x, dot_id y, dot_items r with
      | Some a, Some b, Some l => Some (Edge a b :: l)
      | _, _, _ => None
      end
  | x :: r => match dot_id x, dot_items r with Some a, Some l => Some (Node a :: l) | _, _ => None end
  | [] => None
  end.
(** A directed graph without double edges. *)
Definition dot_graph (ts : list dtok) : option (list ditem) :=
  match ts with
  | DWord s :: DWord g :: DWord _ :: DOpen :: r => if text_eqb s (str "strict") && text_eqb g (str "digraph") then dot_items r else None
  | _ => None
  end.
Definition dot_read (t : text) : option (list ditem) := match dot_tokens Outside t with Some ts => dot_graph ts | None => None end.
(** The nodes that are drawn. *)
Definition drawn (items : list ditem) (a : text) : Prop := In (Node a) items \/ exists b, In (Edge a b) items \/ In (Edge b a) items.
