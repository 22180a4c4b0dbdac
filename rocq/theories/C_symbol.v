(** * C_symbol.v -- property theorems C37-C45 (symbols) *)

From Verif Require Import Py M_symbol M_edge Spec P_py P_edge P_symbol P_exact.
From Coq Require Import String.
Open Scope list_scope.

(** C37 *)
Theorem C37_symbol_parts_round_trip :
  (forall s, build (parts (VStr s)) = Ok (VStr s))
  /\ (forall ps, ps <> [] -> Forall (fun p => ~ In c_slash p) ps -> url (join [c_slash] ps) = false ->
       exists t, build (List.map VStr ps) = Ok (VStr t) /\ parts (VStr t) = List.map VStr ps).
Proof. split; [exact build_parts|exact parts_build]. Qed.
Print Assumptions C37_symbol_parts_round_trip.
Example C37_nonvacuous :
  parts (VStr (lit "graphbrain/1/x")) = [VStr (lit "graphbrain"); VStr (lit "1"); VStr (lit "x")]
  /\ parts (VStr (lit "http://a/b")) = [VStr (lit "http://a/b")]
  /\ url (join [c_slash] [lit "graphbrain"; lit "1"]) = false.
Proof. vm_compute. repeat split. Qed.

(** C38 *)
Theorem C38_roots_and_namespaces :
  (forall v, root (root v) = root v)
  /\ (forall s, is_root (VStr s) = true <-> nspace (VStr s) = VNone)
  /\ (forall s, url s = false -> (is_root (VStr s) = true <-> ~ In c_slash s))
  /\ (forall r n, ~ In c_slash r -> ~ In c_slash n -> url (r ++ c_slash :: n) = false ->
        root (VStr (r ++ c_slash :: n)) = VStr r /\ nspace (VStr (r ++ c_slash :: n)) = VStr n)
  /\ (forall v, (forall s, v <> VStr s) -> nspace v = VNone /\ root v = v)
  /\ (forall z, is_root (VInt z) = true).
Proof.
  split; [exact root_idem|]. split; [exact is_root_nspace|]. split.
  { intros s Hu. rewrite is_root_spec, Hu. split; [intros [H|H]; easy|tauto]. }
  split; [exact root_nspace_slash|]. split.
  { intros [|s|z|f|l] H; try (split; reflexivity). now destruct (H s). }
  intros z. unfold is_root. cbn. now rewrite Z.eqb_refl.
Qed.
Print Assumptions C38_roots_and_namespaces.
Example C38_nonvacuous :
  ~ In c_slash (lit "is") /\ ~ In c_slash (lit "1") /\ url (lit "is" ++ c_slash :: lit "1") = false.
Proof. vm_compute. repeat split; intuition discriminate. Qed.

(** C39: for every outcome [rnd] of the random generator and every prefix
    without '/': a root concept, a symbol with a namespace, a URL, anything else (NaN,
    which is not equal to itself, is returned). *)
Theorem C39_new_meaning :
  (forall rnd r prefix, ~ In c_slash r -> ~ In c_slash prefix ->
     exists m, new_meaning rnd (VStr r) prefix = Ok (VStr m)
       /\ root (VStr m) = VStr r /\ nspace (VStr m) = VStr (prefix ++ hashed rnd)
       /\ forall rnd' prefix', new_meaning rnd' (VStr m) prefix' = Ok (VStr m))
  /\ (forall rnd s prefix, nspace (VStr s) <> VNone -> new_meaning rnd (VStr s) prefix = Ok (VStr s))
  /\ (forall rnd u prefix, url u = true ->
     exists m, m = u ++ lit "/" ++ prefix ++ hashed rnd /\ new_meaning rnd (VStr u) prefix = Ok (VStr m)
       /\ url m = true /\ root (VStr m) = VStr m)
  /\ (forall rnd v prefix, (forall s, v <> VStr s) -> py_eq v v = true -> new_meaning rnd v prefix = Err TypeError)
  /\ (forall rnd prefix, new_meaning rnd (VFlt FNan) prefix = Ok (VFlt FNan)).
Proof.
  split; [|split; [|split; [|split; [|reflexivity]]]].
  - intros rnd r prefix H1 H2. destruct (new_meaning_root rnd r prefix H1 H2) as (m & h & E1 & E2 & E3 & -> & E4).
    exists m. repeat (split; [assumption|]). exact E4.
  - exact new_meaning_nonroot.
  - intros rnd u prefix H. eexists. split; [reflexivity|]. split; [now apply new_meaning_url|].
    assert (U : url (u ++ lit "/" ++ prefix ++ hashed rnd) = true) by (now apply url_app). split; [exact U|].
    unfold root. rewrite parts_str, U. reflexivity.
  - intros rnd v prefix H Q. unfold new_meaning, is_root.
    assert (R : root v = v) by (destruct v; try reflexivity; now destruct (H s)). rewrite R, Q. destruct v; try reflexivity. now destruct (H s).
Qed.
Print Assumptions C39_new_meaning.
(** so for a URL the result has not the given root, and doing it again changes it again *)
Theorem C39_new_meaning_url_refuted :
  exists s m m', is_root (VStr s) = true
    /\ new_meaning [] (VStr s) [] = Ok (VStr m) /\ root (VStr m) <> VStr s
    /\ new_meaning [] (VStr m) [] = Ok (VStr m') /\ m' <> m.
Proof.
  exists (lit "http://x"). do 2 eexists. split; [vm_compute; reflexivity|].
  split; [vm_compute; reflexivity|]. split; [vm_compute; discriminate|].
  split; [vm_compute; reflexivity|]. vm_compute. discriminate.
Qed.
Print Assumptions C39_new_meaning_url_refuted.
Example C39_nonvacuous :
  new_meaning (lit "ab") (VStr (lit "stock")) (lit "wn.")
  = Ok (VStr (lit "stock/wn." ++ hashed (lit "ab"))) /\ nspace (VStr (lit "a/b")) <> VNone
  /\ url (lit "http://x.org") = true.
Proof. vm_compute. split; [reflexivity|]. split; [discriminate|reflexivity]. Qed.

(** C40: [negative] on every text; it undoes itself, and is_negative flips,
    exactly for the texts that are neither empty nor "~" and do not start with
    "~~"; on an edge only the first element changes; numbers and None raise; a
    tuple is sliced, formatted when it has one element, or raises. *)
Theorem C40_negative :
  (forall s, negative (VStr s) = match s with
                                 | [] => Err IndexError
                                 | c :: r => if N.eqb c c_tilde then Ok (VStr r) else Ok (VStr (c_tilde :: s))
                                 end)
  /\ (forall s, (exists t, negative (VStr s) = Ok (VStr t) /\ negative (VStr t) = Ok (VStr s)) <-> neg_ok s)
  /\ (forall s, (exists t b, negative (VStr s) = Ok (VStr t) /\ is_negative (VStr s) = Ok b
                             /\ is_negative (VStr t) = Ok (negb b)) <-> neg_ok s)
  /\ (forall x r, edge_negative (VTup (x :: r)) = (let? y := negative x in Ok (VTup (y :: r)))
                  /\ edge_is_negative (VTup (x :: r)) = is_negative x)
  /\ (forall v, (forall s, v <> VStr s) -> (forall l, v <> VTup l) ->
                negative v = Err TypeError /\ is_negative v = Err TypeError)
  /\ (negative (VTup []) = Err IndexError
      /\ (forall l, negative (VTup (VStr [c_tilde] :: l)) = Ok (VTup l))
      /\ (forall x y l, x <> VStr [c_tilde] -> negative (VTup (x :: y :: l)) = Err TypeError)
      /\ (forall x, x <> VStr [c_tilde] -> (forall l, x <> VTup l) ->
            negative (VTup [x]) = Ok (VStr (c_tilde :: show_atom x)))).
Proof.
  split; [|split; [exact negative_iff|split; [exact is_negative_flips|split; [|split]]]].
  - intros [|c s]; [reflexivity|]. rewrite negative_str. now destruct (N.eqb c c_tilde).
  - intros x r. split; reflexivity.
  - intros [|s|z|f|l] H1 H2; try (split; reflexivity); [now destruct (H1 s)|now destruct (H2 l)].
  - assert (T : forall x l, x <> VStr [c_tilde] -> is_negative (VTup (x :: l)) = Ok false).
    { intros x l H. change (is_negative (VTup (x :: l))) with (Ok (py_eq x (VStr [c_tilde]))). destruct (py_eq x (VStr [c_tilde])) eqn:E; [exfalso|reflexivity].
      destruct x as [|s|z|f|k]; try discriminate E. cbn in E. apply str_eqb_eq in E. now subst. }
    split; [reflexivity|]. split; [reflexivity|]. split.
    + intros x y l H. unfold negative. rewrite (T x _ H). cbn [rbind]. now destruct x.
    + intros x H N. unfold negative. rewrite (T x _ H). cbn [rbind]. destruct x as [|s|z|f|k]; try reflexivity. now destruct (N k).
Qed.
Print Assumptions C40_negative.
(** so it is not an involution on all symbols *)
Theorem C40_negative_involution_refuted :
  (exists s t, negative (VStr s) = Ok (VStr t) /\ negative (VStr t) <> Ok (VStr s)
      /\ is_negative (VStr s) = Ok true /\ is_negative (VStr t) = Ok true)
  /\ (exists t, negative (VStr [c_tilde]) = Ok t /\ negative t = Err IndexError).
Proof.
  split.
  - exists (lit "~~is"), (lit "~is"). vm_compute. repeat split; discriminate.
  - eexists. split; vm_compute; reflexivity.
Qed.
Print Assumptions C40_negative_involution_refuted.
Example C40_nonvacuous : neg_ok (lit "likes/1") /\ neg_ok (lit "~likes/1")
  /\ edge_negative (VTup [VStr (lit "likes"); VInt 3]) = Ok (VTup [VStr (lit "~likes"); VInt 3]).
Proof. unfold neg_ok. vm_compute. repeat split; discriminate. Qed.

(** C41: 1 to 16 lower-case hex digits, no leading zero; the 64-bit value is the polynomial hash;
    two texts that differ in exactly one character have different hashes. *)
Theorem C41_hashed :
  (forall s, (1 <= List.length (hashed s) <= 16)%nat /\ Forall (fun c => is_hex c = true) (hashed s)
     /\ (forall r, hashed s = 48%N :: r -> r = [])
     /\ unhex (hashed s) = ((1125899906842597 * 31 ^ N.of_nat (List.length s) + poly s) mod 2 ^ 64)%N)
  /\ (forall s t, hashed s = hashed t <->
        ((1125899906842597 * 31 ^ N.of_nat (List.length s) + poly s) mod 2 ^ 64
        = (1125899906842597 * 31 ^ N.of_nat (List.length t) + poly t) mod 2 ^ 64)%N)
  /\ (forall a x y b, (x <= max_cp)%N -> (y <= max_cp)%N -> x <> y ->
        hashed (a ++ x :: b) <> hashed (a ++ y :: b)).
Proof.
  split; [intros s; split; [apply hashed_length|split; [apply hashed_hex|split; [intros r; apply hex_no_zero|]]]|split].
  - unfold hashed. rewrite unhex_hex. apply hash64_poly.
  - intros s t. rewrite hashed_inj_hash, !hash64_poly. reflexivity.
  - intros a x y b Hx Hy Hne E. apply hashed_inj_hash in E. apply Hne.
    assert (Hm : (max_cp < two64)%N) by reflexivity.
    eapply hash_one_char; [| |exact E]; eapply N.le_lt_trans; eassumption.
Qed.
Print Assumptions C41_hashed.
Example C41_nonvacuous : hashed (lit "graphbrain/1") = lit "821dd667c0d1e35b".
Proof. vm_compute. reflexivity. Qed.

(** C42: no collision between different texts of the same length, up to 12
    characters, over any 31 consecutive code points (such as a-z). Beyond that
    collisions exist, and a collision of two texts of the same length survives
    any text put before and after both. *)
Theorem C42_hashed_collisions :
  (forall lo (s t : str), List.length s = List.length t -> (List.length s <= 12)%nat ->
     Forall (fun c => (lo <= c < lo + 31)%N) s -> Forall (fun c => (lo <= c < lo + 31)%N) t ->
     hashed s = hashed t -> s = t)
  /\ (forall a s t b, List.length s = List.length t -> hashed s = hashed t ->
     hashed (a ++ s ++ b) = hashed (a ++ t ++ b))
  /\ (forall a b, hashed (a ++ lit "Aa" ++ b) = hashed (a ++ lit "BB" ++ b)).
Proof.
  split; [exact hash_short|]. split; [exact hash_collision_ctx|].
  intros a b. apply hash_collision_ctx; vm_compute; reflexivity.
Qed.
Print Assumptions C42_hashed_collisions.
Theorem C42_hashed_collision_free_refuted :
  exists s t, s <> t /\ hashed s = hashed t.
Proof. exists (lit "Aa"), (lit "BB"). split; [discriminate|vm_compute; reflexivity]. Qed.
Print Assumptions C42_hashed_collision_free_refuted.
Example C42_nonvacuous : Forall (fun c => (97 <= c < 97 + 31)%N) (lit "graphbrainer")
  /\ List.length (lit "graphbrainer") = 12%nat.
Proof. split; [|reflexivity]. repeat (apply Forall_cons; [split; vm_compute; congruence|]). apply Forall_nil. Qed.

(** C43: for every lower-casing function (idempotence for those that leave
    lower-cased text alone). *)
Theorem C43_str2symbol_delimiter_free :
  (forall lower s c, In c (str2symbol lower s) ->
     c <> c_slash /\ c <> c_space /\ c <> c_lpar /\ c <> c_rpar)
  /\ (forall lower s,
       Forall2 (fun a b => if delim a then b = c_under else b = a) (lower s) (str2symbol lower s))
  /\ (forall lower s, List.length (str2symbol lower s) = List.length (lower s))
  /\ (forall lower, lower_like lower -> forall s, str2symbol lower (str2symbol lower s) = str2symbol lower s).
Proof.
  split; [|split; [|split]].
  - intros lower s c H. apply str2symbol_clean in H. unfold delim in H.
    repeat apply orb_false_iff in H as [H ?].
    repeat match goal with H : N.eqb _ _ = false |- _ => apply N.eqb_neq in H end. tauto.
  - intros lower s. pose proof (str2symbol_forall2 lower s) as F.
    induction F as [|a b l l' Hab F IH]; constructor; [|exact IH]. now destruct (delim a).
  - intros lower s. rewrite str2symbol_map. apply map_length.
  - intros lower H s. now apply str2symbol_idem.
Qed.
Print Assumptions C43_str2symbol_delimiter_free.
Example C43_nonvacuous : lower_like lower_ascii
  /\ str2symbol lower_ascii (lit "Big Cat (USA)/x") = lit "big_cat__usa__x".
Proof. split; [exact lower_ascii_like|vm_compute; reflexivity]. Qed.

(** C44: the result can be stored and read back exactly when the lower-cased
    text is not empty, has no white space but ' ', and the result does not look
    like a number. *)
Theorem C44_str2symbol_valid :
  forall lower s,
    let sym := str2symbol lower s in
    let good := lower s <> [] /\ (forall c, In c (lower s) -> is_space c = true -> c = c_space)
                /\ looks_numeric sym = false in
    (wf_atom (VStr sym) = true <-> good)
    /\ (str2edge (edge2str (VStr sym)) = Ok (VStr sym) <-> good).
Proof.
  intros lower s sym good. pose proof (str2symbol_self lower s) as H. fold sym in H. split; [|exact H].
  split.
  - intros W. apply H. now apply (str2edge_edge2str (VStr sym)).
  - intros (H1 & H2 & H3). now apply str2symbol_valid.
Qed.
Print Assumptions C44_str2symbol_valid.
(** so it is not valid for every non-empty text *)
Theorem C44_str2symbol_valid_refuted :
  (exists s, s <> [] /\ str2edge (edge2str (VStr (str2symbol lower_ascii s))) = Ok (VInt 1984))
  /\ (exists s x y, s <> [] /\ str2edge (edge2str (VStr (str2symbol lower_ascii s))) = Ok (VTup [x; y]))
  /\ (exists s, s <> [] /\ str2edge (edge2str (VStr (str2symbol lower_ascii s))) = Err ValueError).
Proof.
  split; [exists (lit "1984"); split; [discriminate|vm_compute; reflexivity]|].
  split; [exists (97 :: 9 :: 98 :: nil)%N; do 2 eexists; split; [discriminate|vm_compute; reflexivity]|].
  exists (lit "-"). split; [discriminate|vm_compute; reflexivity].
Qed.
Print Assumptions C44_str2symbol_valid_refuted.
Example C44_nonvacuous :
  (forall c, In c (lower_ascii (lit "Big Cat")) -> is_space c = true -> c = c_space)
  /\ looks_numeric (str2symbol lower_ascii (lit "Big Cat")) = false.
Proof.
  split; [|vm_compute; reflexivity]. intros c Hc Hs. vm_compute in Hc.
  repeat (destruct Hc as [<-|Hc]; [vm_compute in *; congruence|]). easy.
Qed.

(** C45 *)
Theorem C45_symbol2str_inverts :
  (forall lower s,
     (forall c, In c (lower s) -> c <> c_under /\ c <> c_slash /\ c <> c_lpar /\ c <> c_rpar) ->
     symbol2str (VStr (str2symbol lower s)) = Ok (lower s))
  /\ (forall s, url s = true -> symbol2str (VStr s) = Ok s)
  (** any other text: what is before the first '/', with ' ' for '_' *)
  /\ (forall r rest, ~ In c_slash r -> rest = [] \/ (exists n, rest = c_slash :: n) -> url (r ++ rest) = false ->
        exists t, symbol2str (VStr (r ++ rest)) = Ok t
          /\ Forall2 (fun a b => if N.eqb a c_under then b = c_space else b = a) r t)
  /\ (forall z, symbol2str (VInt z) = Ok (show_Z z))
  /\ (forall f, symbol2str (VFlt f) = Ok (show_float f)).
Proof.
  split; [exact symbol2str_str2symbol|]. split.
  { intros s H. unfold symbol2str. rewrite sym_type_str, H. reflexivity. }
  split; [|split; reflexivity].
  intros r rest Hr Hn Hu. exists (replace_char c_under c_space r). split.
  - unfold symbol2str. rewrite sym_type_str, Hu. unfold root. rewrite parts_str, Hu.
    assert (S : exists l, split_char c_slash (r ++ rest) = r :: l).
    { destruct Hn as [->|(n & ->)].
      - exists []. rewrite app_nil_r. now apply split_char_single.
      - unfold split_char. rewrite split_char_aux_app by exact Hr. cbn [app split_char_aux]. rewrite N.eqb_refl. eexists. reflexivity. }
    destruct S as (l & ->). reflexivity.
  - clear. induction r as [|c r IH]; cbn; [constructor|]. constructor; [|exact IH]. now destruct (N.eqb c c_under).
Qed.
Print Assumptions C45_symbol2str_inverts.
Example C45_nonvacuous :
  symbol2str (VStr (str2symbol lower_ascii (lit "Big Cat"))) = Ok (lit "big cat").
Proof. vm_compute. reflexivity. Qed.
