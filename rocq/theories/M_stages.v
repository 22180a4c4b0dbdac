(** * M_stages.v -- models of /repo/gb/knowledge/stages/{alpha,beta,gamma,delta,epsilon}.py
    and extractor.py *)

From Verif Require Import Py M_symbol M_token M_tree.
From Coq Require Import String.
Open Scope list_scope.

(** x in ['a', 'b', ...] *)
Definition among (x : str) (l : list string) : bool := existsb (fun s => str_eqb x (lit s)) l.

(** ** Alpha *)

(** alpha.py:31-32 *)
Definition nest_deps : list string :=
  ["aux"; "auxpass"; "cc"; "agent"; "det"; "advmod"; "amod"; "poss"; "nummod"]%string.
Definition add_to_first_deps : list string := ["pcomp"; "compound"]%string.

(** alpha.py:34-56 [process_child_token]; [rec] is process_token(token, _) *)
Definition process_child_token (rec : option Z -> SM Z) (parent_elem_id : Z) (token : token) (root_id : Z) (pos : position) : SM unit :=
  if Nat.eqb (List.length (t_dep token)) 0 || str_eqb (t_dep token) (lit "punct") then sret tt
  else
    run parent_elem <- tget parent_elem_id;
    run nested <- (if among (t_dep token) nest_deps then sret true
                   else if str_eqb (t_dep token) (lit "prep")
                        then run fuel <- budget; run b <- has_pos fuel parent_elem (lit "VERB"); sret (negb b)
                        else sret false);
    if nested then
      run child_elem_id <- rec (Some root_id);
      run r <- tget root_id;
      nest r child_elem_id;;;
      run r <- tget root_id;
      new_layer r
    else
      run child_elem_id <- rec None;
      if among (t_dep token) add_to_first_deps
      then add_to_first_child parent_elem child_elem_id pos
      else add_child parent_elem child_elem_id.

(** alpha.py:58-69 [process_token] *)
Fixpoint process_token (tok : token) (root : option Z) : SM Z :=
  match tok with
  | Token _ _ _ _ _ _ _ l r =>
      run e <- create_leaf tok;
      run elem_id <- id_of e;
      let root_id := match root with None => elem_id | Some i => i end in
      sfor (fun c => process_child_token (process_token c) elem_id c root_id LEFT) l;;;
      sfor (fun c => process_child_token (process_token c) elem_id c root_id RIGHT) r;;;
      run x <- tget elem_id;
      apply_layers x;;;
      sret elem_id
  end.

(** alpha.py:71-74 [process_sentence], on a new tree; without a root token
    process_token(None) raises AttributeError *)
Definition alpha (sentence : list token) : res unit * tree :=
  match sentence_root sentence with
  | None => (Err AttributeError, tree0)
  | Some t => (run i <- process_token t None; set_root_id i;;; remove_redundant_nesting) tree0
  end.

(** ** Beta *)

(** beta.py:22-34 [is_compound_by_entity_type]; entity_type is never None here *)
Definition is_compound_by_entity_type (node : nat) : SM bool :=
  run first_child <- get_child node 0;
  run fo <- deref first_child;
  match fo with
  | ONode _ _ _ _ _ _ => sret false
  | OLeaf _ _ ft =>
      if Nat.eqb (List.length (t_ent ft)) 0 then sret false
      else
        run cs <- children node;
        sall (fun c => run o <- deref c;
                       match o with
                       | ONode _ _ _ _ _ _ => sret false
                       | OLeaf _ _ t => sret (str_eqb (t_ent t) (t_ent ft))
                       end) cs
  end.

(** beta.py:41 *)
Definition compound_deps : list string := ["pobj"; "compound"; "dobj"; "nsubj"]%string.

(** beta.py:43-51 [is_compound_by_deps] *)
Fixpoint is_compound_by_deps (fuel : nat) (node : nat) : SM bool :=
  match fuel with
  | O => sraise OutOfFuel
  | S f =>
      run cs <- children node;
      sall (fun c => run o <- deref c;
                     match o with
                     | OLeaf _ _ t => sret (among (t_dep t) compound_deps)
                     | ONode _ _ _ _ _ _ => is_compound_by_deps f c
                     end) cs
  end.

(** beta.py:53-54 [is_compound] *)
Definition beta_is_compound (node : nat) : SM bool :=
  run b <- is_compound_by_entity_type node;
  if b then sret true else run fuel <- budget; is_compound_by_deps fuel node.

(** beta.py:59: entity.namespace = '1' *)
Definition set_namespace (r : nat) (ns : str) : SM unit :=
  run o <- deref r;
  write_obj r (match o with
               | OLeaf i _ t => OLeaf i (Some ns) t
               | ONode i _ k ls l c => ONode i (Some ns) k ls l c
               end).

(** beta.py:56-64 [process_entity] *)
Fixpoint beta_entity (fuel : nat) (entity_id : Z) : SM unit :=
  match fuel with
  | O => sraise OutOfFuel
  | S f =>
      run entity <- tget entity_id;
      set_namespace entity (lit "1");;;
      run o <- deref entity;
      if is_node o then
        run b <- beta_is_compound entity;
        run fuel' <- budget;
        set_compound fuel' entity b;;;
        run cs <- children_ids entity;
        sfor (beta_entity f) cs
      else sret tt
  end.

Definition get_root_id : SM Z := fun h => (match root_id h with Some i => Ok i | None => Err AttributeError end, h).

(** beta.py:66-68 [process]; with root_id None, tree.tget returns None and setting
    its namespace raises AttributeError *)
Definition beta : SM unit := run i <- get_root_id; run fuel <- budget; beta_entity fuel i.

(** ** Gamma *)

(** gamma.py:30, delta.py:28 *)
Definition rel_pos : list string := ["VERB"; "ADV"; "ADP"; "PART"]%string.

(** gamma.py:33-43 [is_relationship] *)
Fixpoint is_relationship (fuel : nat) (entity_id : Z) (shallow : bool) (depth : nat) : SM bool :=
  match fuel with
  | O => sraise OutOfFuel
  | S f =>
      run e <- tget entity_id;
      run o <- deref e;
      match o with
      | ONode _ _ _ _ _ _ =>
          if shallow && Nat.ltb 0 depth then sret false
          else run cs <- children_ids e; sall (fun c => is_relationship f c shallow (S depth)) cs
      | OLeaf _ _ t => sret (among (t_pos t) rel_pos)
      end
  end.

(** gamma.py:45-56 [combine_relationships] *)
Fixpoint combine_relationships (fuel : nat) (first_id second_id : Z) : SM Z :=
  match fuel with
  | O => sraise OutOfFuel
  | S f =>
      run first <- tget first_id;
      run second <- tget second_id;
      run first_child <- get_child second 0;
      run fo <- deref first_child;
      if is_node fo && negb (is_compound fo) then
        run i <- id_of first;
        combine_relationships f i (obj_id fo);;;
        id_of second
      else
        run i <- id_of first;
        add_to_first_child second i LEFT;;;
        run first_child <- get_child second 0;
        run fuel' <- budget;
        set_compound fuel' first_child true;;;
        id_of second
  end.

(** gamma.py:58-79 [process_entity1] *)
Definition process_entity1 (entity_id : Z) : SM Z :=
  run fuel <- budget;
  run entity <- tget entity_id;
  run o <- deref entity;
  if is_leaf o then sret entity_id
  else
    run trivial <- is_relationship fuel (obj_id o) true 0;
    if trivial then set_compound fuel entity true;;; sret entity_id
    else
      run cs <- children_ids entity;
      if Nat.eqb (List.length cs) 2 then
        run first <- get_child entity 0;
        run second <- get_child entity 1;
        run fo <- deref first;
        run so <- deref second;
        let article := match fo with
                       | OLeaf _ _ t => str_eqb (t_pos t) (lit "DET") && among (t_lemma t) ["the"; "an"; "a"]%string
                       | _ => false
                       end in
        if article then sret (obj_id so)
        else if is_node so && negb (is_compound so) then
          run b1 <- is_relationship fuel (obj_id fo) false 0;
          run b2 <- (if b1 then run scs <- children_ids second; run s0 <- nth_id scs 0; is_relationship fuel s0 false 0
                     else sret false);
          if b2 then combine_relationships fuel (obj_id fo) (obj_id so) else sret entity_id
        else sret entity_id
      else sret entity_id.

(** gamma.py:156-168 [process_entity].  The number of children is read once
    (range(len(...))), each child when its turn comes. *)
Fixpoint gamma_entity (fuel : nat) (entity_id : Z) : SM Z :=
  match fuel with
  | O => sraise OutOfFuel
  | S f =>
      run entity <- tget entity_id;
      run o <- deref entity;
      (if is_node o then
         run cs <- children_ids entity;
         sfor (fun i =>
           run cs' <- children_ids entity;
           run c <- nth_id cs' i;
           run x <- gamma_entity f c;
           set_child entity i x) (seq 0 (List.length cs))
       else sret tt);;;
      process_entity1 entity_id
  end.

(** gamma.py:170-172 [process] *)
Definition gamma : SM unit :=
  run i <- get_root_id; run fuel <- budget; run j <- gamma_entity fuel i; set_root_id j.

(** ** Epsilon *)

(** epsilon.py:30-32 [leaf_to_hyperedges]: build((word, namespace)) *)
Definition ns_value (n : option str) : value := match n with Some s => VStr s | None => VNone end.
Definition slift {A} (r : res A) : SM A := fun h => (r, h).

(** epsilon.py:47-51, 38-45 [compound_node_to_hyperedges] (compound_entity_to_leafs is flat_leafs) *)
Definition word_of (r : nat) : SM str :=
  run o <- deref r; match o with OLeaf _ _ t => sret (t_word t) | _ => sraise AttributeError end.
Definition compound_node_to_hyperedges (fuel : nat) (node : nat) : SM value :=
  run leafs <- flat_leafs fuel node;
  run words <- smap word_of leafs;
  slift (build [VStr (join [c_under] words); VStr (lit "?")]).

(** epsilon.py:53-59 [build_hyperedges], 34-36 [node_to_hyperedges] *)
Fixpoint build_hyperedges (fuel : nat) (entity : nat) : SM value :=
  match fuel with
  | O => sraise OutOfFuel
  | S f =>
      run o <- deref entity;
      match o with
      | OLeaf _ ns t => slift (build [VStr (t_word t); ns_value ns])
      | ONode _ _ _ _ _ true => compound_node_to_hyperedges fuel entity
      | ONode _ _ _ _ _ false => run cs <- children entity; run es <- smap (build_hyperedges f) cs; sret (VTup es)
      end
  end.

(** epsilon.py:61-62 [process] *)
Definition epsilon : SM value := run r <- tree_root; run fuel <- budget; build_hyperedges fuel r.

(** ** Delta *)

(** delta.py:31-39 [is_relationship] is gamma's with shallow=False *)
Definition delta_rel (entity_id : Z) : SM bool := run fuel <- budget; is_relationship fuel entity_id false 0.

(** delta.py:41-50 [is_part_of_rel] *)
Definition is_part_of_rel (rel part : nat) : SM bool :=
  run fuel <- budget;
  run rel_elems <- flat_leafs fuel rel;
  run part_elems <- flat_leafs fuel part;
  sany (fun r => sany (fun p => elem_eq fuel r p) part_elems) rel_elems.

(** delta.py:52-68 [is_directly_under] *)
Fixpoint is_directly_under (fuel : nat) (node parent child : nat) : SM bool :=
  match fuel with
  | O => sraise OutOfFuel
  | S f =>
      run a <- arity node;
      if Nat.ltb a 2 then sret false
      else
        run cs <- children_ids node;
        run c0 <- nth_id cs 0;
        run rel <- tget c0;
        run part <- is_part_of_rel rel parent;
        run found <- (if part then sany (fun c => run elem <- tget c; run b <- budget; elem_eq b elem child) (tl cs) else sret false);
        if found then sret true
        else sany (fun c => run elem <- tget c; is_directly_under f elem parent child) (tl cs)
  end.

(** delta.py:70-91 [node_fit] *)
Definition node_fit (node original : nat) : SM Z :=
  run fuel <- budget;
  run no <- deref node;
  if is_leaf no then sret 0%Z
  else
    run cs <- children_ids node;
    run c0 <- nth_id cs 0;
    run isr <- delta_rel c0;
    if isr then
      run rel <- tget c0;
      run ra <- arity rel;
      let n := List.length cs in
      let fit0 := if Nat.eqb ra 1 && Nat.eqb n 2 then 1000%Z
                  else if Z.eqb (Z.of_nat ra) (Z.of_nat n - 2) then 1000%Z else 0%Z in
      run ro <- deref rel;
      if is_terminal ro then sret fit0
      else
        run na <- arity node;
        let count := Z.to_nat (Z.min (Z.of_nat ra) (Z.of_nat na - 2)) in
        (fix go (fit : Z) (is_ : list nat) : SM Z :=
           match is_ with
           | [] => sret fit
           | i :: rest =>
               run rel_part <- get_child rel i;
               run param1 <- get_child node (i + 1);
               run fit1 <- (if Nat.eqb i 0
                            then run b <- is_directly_under fuel original rel_part param1; sret (if b then fit + 100 else fit)%Z
                            else sret fit);
               run param2 <- get_child node (i + 2);
               run b <- is_directly_under fuel original rel_part param2;
               go (if b then fit1 + 100 else fit1)%Z rest
           end) fit0 (seq 0 count)
    else sret 0%Z.

(** delta.py:103-107 [build_candidate]; [rec] is find_candidates_r *)
Definition build_candidate (rec : nat -> list Z -> list nat -> SM (list nat))
    (working_node : nat) (rel_id : Z) (child : nat) (to_process : list Z) (candidates : list nat) : SM (list nat) :=
  run b <- budget;
  run new_node <- clone b working_node;
  set_child new_node 0 rel_id;;;
  run ccs <- children_ids child;
  run l <- kids_ref new_node;
  run cs <- read_list l;
  write_list l (cs ++ tl ccs);;;
  rec new_node (tl to_process) candidates.

(** delta.py:117-177 [find_candidates_r]: the possibilities for a child that is a
    relationship; the list candidates is passed along *)
Definition relationship_candidates (rec : nat -> list Z -> list nat -> SM (list nat))
    (working_node child : nat) (to_process : list Z) (candidates : list nat) : SM (list nat) :=
  run wcs <- children_ids working_node;
  run w0 <- nth_id wcs 0;
  run rel_left <- tget w0;
  run ccs <- children_ids child;
  run c0 <- nth_id ccs 0;
  run rel_right <- tget c0;
  (* insert before *)
  run candidates <-
    (if Nat.eqb (List.length wcs) 1 then
       run rel <- create_node_of [c0; w0];
       run rel_id <- id_of rel;
       build_candidate rec working_node rel_id child to_process candidates
     else sret candidates);
  run lo <- deref rel_left;
  run ro <- deref rel_right;
  (* make compound *)
  run candidates <-
    (if is_terminal lo && is_terminal ro then
       run b <- budget;
       run rel <- clone b rel_left;
       run relo <- deref rel;
       run rel <- (if is_terminal relo then run i <- id_of rel; create_node_of [i] else sret rel);
       run ccs <- children_ids child;
       run c0 <- nth_id ccs 0;
       add_child rel c0;;;
       run b <- budget;
       set_compound b rel true;;;
       run rel_id <- id_of rel;
       build_candidate rec working_node rel_id child to_process candidates
     else sret candidates);
  (* merge at the center *)
  run lo <- deref rel_left;
  run ro <- deref rel_right;
  run candidates <-
    (if negb (is_terminal lo) || negb (is_terminal ro) then
       run lab <- (if is_terminal lo then sret ([], obj_id lo)
                   else run cs <- children_ids rel_left;
                        match rev cs with [] => sraise IndexError | x :: r => sret (rev r, x) end);
       run rab <- (if is_terminal ro then sret (obj_id ro, [])
                   else run cs <- children_ids rel_right;
                        match cs with [] => sraise IndexError | x :: r => sret (x, r) end);
       run center <- create_node_of [snd lab; fst rab];
       run b <- budget;
       set_compound b center true;;;
       run center_id <- id_of center;
       run rel <- create_node_of (fst lab ++ [center_id] ++ snd rab);
       run rel_id <- id_of rel;
       build_candidate rec working_node rel_id child to_process candidates
     else sret candidates);
  (* add to first child *)
  run ro <- deref rel_right;
  if is_terminal ro then
    run b <- budget;
    run new_node <- clone b working_node;
    run wcs <- children_ids working_node;
    run w0 <- nth_id wcs 0;
    run rel <- tget w0;
    run relo <- deref rel;
    run rel <- (if is_terminal relo then run i <- id_of rel; create_node_of [i] else clone b rel);
    run rel_id <- id_of rel;
    set_child new_node 0 rel_id;;;
    run ccs <- children_ids child;
    run c0 <- nth_id ccs 0;
    add_to_first_child new_node c0 RIGHT;;;
    run ncs <- children_ids new_node;
    run rel_id <- nth_id ncs 0;
    build_candidate rec working_node rel_id child to_process candidates
  else sret candidates.

(** delta.py:115-182, the loop over child_candidates *)
Fixpoint each_candidate (rec : nat -> list Z -> list nat -> SM (list nat))
    (working_node : nat) (child_id : Z) (to_process : list Z) (child_candidates : list nat) (candidates : list nat) : SM (list nat) :=
  match child_candidates with
  | [] => sret candidates
  | child :: rest =>
      run co <- deref child;
      run isrel <- (if is_node co then run cc <- children_ids child; run c0 <- nth_id cc 0; delta_rel c0 else sret false);
      run candidates <- (if isrel then relationship_candidates rec working_node child to_process candidates else sret candidates);
      (* just append the child *)
      run candidates <-
        (run b <- budget;
         run new_node <- clone b working_node;
         run l <- kids_ref new_node;
         run cs <- read_list l;
         write_list l (cs ++ [child_id]);;;
         rec new_node (tl to_process) candidates);
      each_candidate rec working_node child_id to_process rest candidates
  end.

(** delta.py:109-187 [find_candidates_r] and 93-101 [find_candidates].  The list
    candidates is passed along; original_node is only handed on.  [fuel] bounds
    both recursions. *)
Fixpoint find_candidates_r (fuel : nat) (working_node : nat) (to_process : list Z) (candidates : list nat) : SM (list nat) :=
  match fuel with
  | O => sraise OutOfFuel
  | S f =>
      match to_process with
      | [] =>
          run c <- get_child working_node 0;
          run b <- budget;
          flatten b c;;;
          sret (candidates ++ [working_node])
      | child_id :: _ =>
          run child <- tget child_id;
          run co <- deref child;
          run child_candidates <-
            (if is_leaf co then sret [child]
             else
               run ccs <- children_ids child;
               run new_node <- create_node_of (firstn 1 ccs);
               find_candidates_r f new_node (skipn 1 ccs) []);
          each_candidate (find_candidates_r f) working_node child_id to_process child_candidates candidates
      end
  end.

Definition find_candidates (fuel : nat) (original_node : nat) : SM (list nat) :=
  run o <- deref original_node;
  if is_leaf o then sret [original_node]
  else
    run cs <- children_ids original_node;
    run new_node <- create_node_of (firstn 1 cs);
    find_candidates_r fuel new_node (skipn 1 cs) [].

(** delta.py:189-204 [process_entity]; [fuel]: budget for the candidate search *)
Definition delta_entity (fuel : nat) (entity_id : Z) : SM Z :=
  run entity <- tget entity_id;
  run o <- deref entity;
  run go <- (if is_terminal o then sret false
             else run cs <- children_ids entity; run c0 <- nth_id cs 0; delta_rel c0);
  if go then
    run candidates <- find_candidates fuel entity;
    run best <-
      (fix each (l : list nat) (best : option nat) (best_fit : Z) : SM (option nat) :=
         match l with
         | [] => sret best
         | c :: rest => run fit <- node_fit c entity;
                        if (best_fit <? fit)%Z then each rest (Some c) fit else each rest best best_fit
         end) candidates None (-1)%Z;
    match best with
    | Some b => id_of b
    | None => sraise AttributeError
    end
  else sret entity_id.

(** delta.py:206-208 [process] *)
Definition delta (fuel : nat) : SM unit :=
  run i <- get_root_id; run j <- delta_entity fuel i; set_root_id j.

(** ** The extractor *)

(** What a stage returns: the tree, or (epsilon) the hyperedge. *)
Inductive output := OTree (h : tree) | OEdge (v : value).

(** extractor.py:82 [output = str(last_stage_output)], kept in self.outputs.  The
    string of a tree is recorded; that of a hyperedge (a Python tuple or string) is
    left out: None. *)
Definition out_str (o : output) : res (option str) :=
  match o with
  | OTree h => match fst (tree_str h) with Ok s => Ok (Some s) | Err e => Err e end
  | OEdge _ => Ok None
  end.

(** extractor.py:39-51 [create_stage] and the stage's process: alpha has no method
    process, and a hyperedge has no root_id and no root() -- AttributeError *)
Definition on_tree (m : SM unit) (o : output) : res output :=
  match o with
  | OTree h => match m h with (Ok _, h') => Ok (OTree h') | (Err e, _) => Err e end
  | OEdge _ => Err AttributeError
  end.
Definition do_stage (fuel : nat) (name : str) (o : output) : res output :=
  if str_eqb name (lit "alpha") then Err AttributeError
  else if str_eqb name (lit "beta") then on_tree beta o
  else if str_eqb name (lit "gamma") then on_tree gamma o
  else if str_eqb name (lit "delta") then on_tree (delta fuel) o
  else if str_eqb name (lit "epsilon") then
    match o with
    | OTree h => match epsilon h with (Ok v, _) => Ok (OEdge v) | (Err e, _) => Err e end
    | OEdge _ => Err AttributeError
    end
  else Err RuntimeError.

(** extractor.py:78-84, the loop over self.stages[1:] *)
Fixpoint do_stages (fuel : nat) (names : list str) (o : output) (outputs : list (option str)) : res (output * list (option str)) :=
  match names with
  | [] => Ok (o, outputs)
  | name :: rest =>
      let? o' := do_stage fuel name o in
      let? s := out_str o' in
      do_stages fuel rest o' (outputs ++ [s])
  end.

(** extractor.py:64-86 [read_sentence] (the debug messages are left out); only alpha
    has a method process_sentence *)
Definition known_stage (name : str) : bool := among name ["alpha"; "beta"; "gamma"; "delta"; "epsilon"]%string.
Definition read_sentence (fuel : nat) (stages : list str) (sentence : list token) : res (output * list (option str)) :=
  match stages with
  | [] => Err IndexError
  | name :: rest =>
      if str_eqb name (lit "alpha") then
        match alpha sentence with
        | (Err e, _) => Err e
        | (Ok _, h) => let? s := out_str (OTree h) in do_stages fuel rest (OTree h) [s]
        end
      else if known_stage name then Err AttributeError else Err RuntimeError
  end.

(** extractor.py:32, the default of the parameter stages *)
Definition default_stages : list str := List.map lit ["alpha"; "beta"; "gamma"; "delta"; "epsilon"]%string.
