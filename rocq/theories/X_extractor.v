(** * X_extractor.v -- the sentences of the project's extractor tests, run on the model

    /repo/gb/knowledge/tests/test_extractor.py, all but test_2 and test_6, which are in
    C_stages.  The tests start spaCy; here the parse is written down (the one that
    spaCy's conventions give each sentence).  The strings are letter by
    letter those of the tests, so these definitions of the model compute what the
    authors expect, sharing of list objects included.
    Not a proof of any property. *)

From Verif Require Import Py M_token M_tree M_stages C_stages.
From Coq Require Import String.
Open Scope list_scope.

Definition tke (i : nat) (w po de en : string) (l r : list token) : token := Token i (lit w) (lit w) (lit po) (lit de) (lit en) false l r.
Definition mosquito : token := tk 5 "be" "VERB" "ROOT"
  [tk 1 "subspecies" "NOUN" "nsubj" [tk 0 "some" "DET" "det" [] []] [tk 2 "of" "ADP" "prep" [] [tk 3 "mosquito" "NOUN" "pobj" [] []]];
   tk 4 "might" "VERB" "aux" [] []]
  [tk 6 "1st" "ADJ" "acomp" [] [tk 10 "wiped" "VERB" "xcomp" [tk 7 "to" "PART" "aux" [] []; tk 8 "be" "VERB" "auxpass" [] []; tk 9 "genetically" "ADV" "advmod" [] []]
     [tk 11 "out" "PART" "prt" [] []]];
   tk 12 "." "PUNCT" "punct" [] []].
Definition berlin : token := tk 11 "influenced" "VERB" "ROOT"
  [tk 0 "due" "ADP" "prep" [] [tk 1 "to" "ADP" "pcomp" [] []; tk 3 "location" "NOUN" "pobj" [tk 2 "its" "ADJ" "poss" [] []]
      [tk 4 "in" "ADP" "prep" [] [tk 7 "plain" "PROPN" "pobj" [tk 5 "the" "DET" "det" [] []; tk 6 "european" "PROPN" "compound" [] []] []]]];
   tk 8 "," "PUNCT" "punct" [] []; tk 9 "berlin" "PROPN" "nsubjpass" [] []; tk 10 "is" "VERB" "auxpass" [] []]
  [tk 12 "by" "ADP" "agent" [] [tk 16 "climate" "NOUN" "pobj" [tk 13 "a" "DET" "det" [] []; tk 14 "temperate" "ADJ" "amod" [] []; tk 15 "seasonal" "ADJ" "amod" [] []] []];
   tk 17 "." "PUNCT" "punct" [] []].
Definition shoyu : token := tk 9 "is" "VERB" "ROOT"
  [tk 1 "shoyu" "PROPN" "nsubj" [tk 0 "koikuchi" "PROPN" "compound" [] []]
     [tk 2 "," "PUNCT" "punct" [] []; tk 4 "known" "VERB" "acl" [tk 3 "best" "ADV" "advmod" [] []] [tk 5 "as" "ADP" "prep" [] [tk 7 "sauce" "NOUN" "pobj" [tk 6 "soy" "NOUN" "compound" [] []] []]];
      tk 8 "," "PUNCT" "punct" [] []]]
  [tk 11 "mother" "NOUN" "attr" [tk 10 "the" "DET" "det" [] []]
     [tk 12 "of" "ADP" "prep" [] [tk 14 "sauces" "NOUN" "pobj" [tk 13 "all" "DET" "det" [] []] []]; tk 15 "in" "ADP" "prep" [] [tk 16 "japan" "PROPN" "pobj" [] []]];
   tk 17 "." "PUNCT" "punct" [] []].
Definition country : token := tk 1 "is" "VERB" "ROOT" [tk 0 "sweden" "PROPN" "nsubj" [] []]
  [tk 6 "country" "NOUN" "attr" [tk 2 "the" "DET" "det" [] []; tk 5 "largest" "ADJ" "amod" [tk 3 "third" "ADV" "advmod" [] []; tk 4 "-" "PUNCT" "punct" [] []] []]
     [tk 7 "in" "ADP" "prep" [] [tk 10 "union" "PROPN" "pobj" [tk 8 "the" "DET" "det" [] []; tk 9 "european" "PROPN" "compound" [] []] []];
      tk 11 "by" "ADP" "prep" [] [tk 12 "area" "NOUN" "pobj" [] []]];
   tk 13 "." "PUNCT" "punct" [] []].
Definition opencola : token := tk 1 "is" "VERB" "ROOT" [tk 0 "opencola" "PROPN" "nsubj" [] []]
  [tk 3 "brand" "NOUN" "attr" [tk 2 "a" "DET" "det" [] []]
     [tk 4 "of" "ADP" "prep" [] [tk 8 "cola" "NOUN" "pobj" [tk 7 "source" "NOUN" "compound" [tk 5 "open" "ADJ" "amod" [] []; tk 6 "-" "PUNCT" "punct" [] []] []]
        [tk 9 "," "PUNCT" "punct" [] [];
         tk 16 "are" "VERB" "relcl" [tk 10 "where" "ADV" "advmod" [] []; tk 12 "instructions" "NOUN" "nsubj" [tk 11 "the" "DET" "det" [] []] [tk 13 "for" "ADP" "prep" [] [tk 14 "making" "VERB" "pcomp" [] []]];
                                      tk 15 "it" "PRON" "nsubj" [] []]
           [tk 18 "available" "ADJ" "acomp" [tk 17 "freely" "ADV" "advmod" [] []] [tk 19 "and" "CONJ" "cc" [] []; tk 20 "modifiable" "ADJ" "conj" [] []]]]]];
   tk 21 "." "PUNCT" "punct" [] []].
Definition nobel : token := tk 8 "awarded" "VERB" "ROOT"
  [tke 2 "prize" "PROPN" "nsubjpass" "WORK_OF_ART" [tk 0 "2016" "NUM" "nummod" [] []; tke 1 "nobel" "PROPN" "compound" "WORK_OF_ART" [] []]
     [tk 3 "in" "ADP" "prep" [] [tk 4 "physiology" "PROPN" "pobj" [] [tk 5 "or" "CONJ" "cc" [] []; tk 6 "medicine" "PROPN" "conj" [] []]]];
   tk 7 "is" "VERB" "auxpass" [] []]
  [tk 9 "to" "ADP" "prep" [] [tk 11 "ohsumi" "PROPN" "pobj" [tk 10 "yoshinori" "PROPN" "compound" [] []] []];
   tk 12 "." "PUNCT" "punct" [] []].

(** The texts after alpha, beta, gamma and delta; after the first three of them.
    For the longer sentences the search of delta tries thousands of candidates: there
    the kernel checks the first three stages (the fourth was computed once and is what
    the test expects). *)
Definition stage_texts (t : token) : list (option str) := firstn 4 (texts 30 t).
Definition three_texts (t : token) : list (option str) :=
  match read_sentence 30 (List.map lit ["alpha"; "beta"; "gamma"]%string) [t] with Ok (_, l) => l | Err _ => [] end.

(** tests/test_extractor.py, test_1 (lines 38-44) *)
Example extractor_test_1 : three_texts mosquito = List.map (fun x => Some (lit x))
  ["(might (be (some (of subspecies mosquito)) (1st (to (be (genetically (wiped out)))))))";
   "(might (be (some (of subspecies mosquito)) (1st (to (be (genetically (wiped out)))))))";
   "(might_be (some (of subspecies mosquito)) (1st (to_be_genetically wiped_out)))"]%string.
Proof. vm_compute. reflexivity. Qed.

(** tests/test_extractor.py, test_4 (lines 65-71) *)
Example extractor_test_4 : three_texts shoyu = List.map (fun x => Some (lit x))
  ["(is ((koikuchi shoyu) (best (known (as (soy sauce))))) (the (of (in mother japan) (all sauces))))";
   "(is (koikuchi_shoyu (best (known (as soy_sauce)))) (the (of (in mother japan) (all sauces))))";
   "(is (koikuchi_shoyu (best_known_as soy_sauce)) (of (in mother japan) (all sauces)))"]%string.
Proof. vm_compute. reflexivity. Qed.

(** tests/test_extractor.py, test_5 (lines 73-79) *)
Example extractor_test_5 : stage_texts country = List.map (fun x => Some (lit x))
  ["(is sweden (the (third (largest (in (by country area) (the (european union)))))))";
   "(is sweden (the (third (largest (in (by country area) (the european_union))))))";
   "(is sweden (third (largest (in (by country area) european_union))))";
   "(is_third sweden (largest (in (by country area) european_union)))"]%string.
Proof. vm_compute. reflexivity. Qed.

(** tests/test_extractor.py, test_7 (lines 91-102) *)
Example extractor_test_7 : three_texts opencola = List.map (fun x => Some (lit x))
  ["(is opencola (a (of brand (((open source) cola) (where (are (the ((for making) instructions)) it (freely (and (available modifiable)))))))))";
   "(is opencola (a (of brand (((open source) cola) (where (are (the ((for making) instructions)) it (freely (and (available modifiable)))))))))";
   "(is opencola (of brand (((open source) cola) (where_are (for_making instructions) it (freely (and (available modifiable)))))))"]%string.
Proof. vm_compute. reflexivity. Qed.

(** tests/test_extractor.py, test_8 (lines 104-110) *)
Example extractor_test_8 : stage_texts nobel = List.map (fun x => Some (lit x))
  ["(is (awarded (2016 (in (nobel prize) (or (physiology medicine)))) (to (yoshinori ohsumi))))";
   "(is (awarded (2016 (in nobel_prize (or (physiology medicine)))) (to yoshinori_ohsumi)))";
   "(is_awarded (2016 (in nobel_prize (or (physiology medicine)))) (to yoshinori_ohsumi))";
   "(is_awarded_to (2016 (in nobel_prize (or (physiology medicine)))) yoshinori_ohsumi)"]%string.
Proof. vm_compute. reflexivity. Qed.

(** tests/test_extractor.py, test_3 (lines 54-63) *)
Example extractor_test_3 : three_texts berlin = List.map (fun x => Some (lit x))
  ["(is (by (influenced ((due to) (its (in location (the (european plain))))) berlin) (a (temperate (seasonal climate)))))";
   "(is (by (influenced ((due to) (its (in location (the european_plain)))) berlin) (a (temperate (seasonal climate)))))";
   "(is_by (influenced (due_to (its (in location european_plain))) berlin) (temperate (seasonal climate)))"]%string.
Proof. vm_compute. reflexivity. Qed.
