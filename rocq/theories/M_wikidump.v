(** * M_wikidump.v -- model of /repo/python/filter_wikidump.py *)

From Verif Require Import Py.
From Coq Require Import String.
Open Scope list_scope.

(** What follows the first occurrence of [p] in [s]. *)
Fixpoint after_first (p s : str) : option str :=
  if prefixb p s then Some (skipn (List.length p) s)
  else match s with [] => None | _ :: s' => after_first p s' end.
(** What precedes the last occurrence of [p] in [s]. *)
Fixpoint before_last (p s : str) : option str :=
  match s with
  | [] => if prefixb p [] then Some [] else None
  | c :: s' => match before_last p s' with
               | Some a => Some (c :: a)
               | None => if prefixb p s then Some [] else None
               end
  end.

(** filter_wikidump.py:40-41 [check_title] *)
Definition check_title (title : str) : bool := negb (containsb [c_colon] title).

(** filter_wikidump.py:45-46: page.search, close_page.search (patterns without
    special characters) *)
Definition page_search (line : str) : bool := containsb (lit "<page>") line.
Definition close_page_search (line : str) : bool := containsb (lit "</page>") line.
(** filter_wikidump.py:47: title.search, group(1): leftmost <title>, then as much
    as possible up to a </title>.  ('.' does not match a newline: a line has one
    at its end only, after any </title>.) *)
Definition title_search (line : str) : option str :=
  match after_first (lit "<title>") line with
  | None => None
  | Some r => before_last (lit "</title>") r
  end.

(** filter_wikidump.py:49-50: the loop state, and what has been written *)
Inductive wstate := PageSearch | TitleSearch | ClosePageSearch.
Record filt := Filt { fl_state : wstate; fl_buffer : str; fl_out : str }.

(** filter_wikidump.py:54-78: one line *)
Definition filter_line (f : filt) (line : str) : filt :=
  match fl_state f with
  | PageSearch =>
      if page_search line then Filt TitleSearch line (fl_out f)
      else Filt PageSearch (fl_buffer f) (fl_out f ++ line)
  | TitleSearch =>
      match title_search line with
      | None => Filt TitleSearch (fl_buffer f ++ line) (fl_out f)
      | Some t =>
          if check_title t then Filt PageSearch [] (fl_out f ++ fl_buffer f ++ line)
          else Filt ClosePageSearch [] (fl_out f)
      end
  | ClosePageSearch =>
      if close_page_search line then Filt PageSearch (fl_buffer f) (fl_out f)
      else f
  end.

(** filter_wikidump.py:44-78 [main]: everything written for the lines of the file *)
Definition wiki_main (lines : list str) : str :=
  fl_out (fold_left filter_line lines (Filt PageSearch [] [])).
