(** C44: the other spellings of the boundary locations. *)
From Coq Require Import String Ascii.
From Verif Require Import Prelude ZSum TypesModel ConfigModel ConfigSpec ConfigProof ConfigUse.
Local Open Scope string_scope.
Local Open Scope list_scope.

(** The side names and the names of the constants, with the documented word. *)
Definition synonyms : list (string * string) :=
  [("left", "xMinus"); ("right", "xPlus"); ("bottom", "yMinus"); ("top", "yPlus"); ("back", "zMinus"); ("front", "zPlus");
   ("XMINUS", "xMinus"); ("XPLUS", "xPlus"); ("YMINUS", "yMinus"); ("YPLUS", "yPlus"); ("ZMINUS", "zMinus"); ("ZPLUS", "zPlus")].

(** C44: a boundary condition given for a side name is that of the documented
    location, whatever else it contains and whatever was read before. *)
Theorem location_synonyms : forall rd a b rest t, In (a, b) synonyms ->
  parse_bc rd t (YMap (("location", YScalar a) :: rest)) = parse_bc rd t (YMap (("location", YScalar b) :: rest)).
Proof.
  intros rd a b rest t H. assert (E : decode_bcloc a = decode_bcloc b) by (cbn in H; repeat (destruct H as [H|H]; [injection H as <- <-; reflexivity|]); destruct H).
  unfold parse_bc. cbn [yget assoc String.eqb Ascii.eqb Bool.eqb bind as_string]. now rewrite E.
Qed.
Print Assumptions location_synonyms.

Example synonyms_case : In ("top", "yPlus") synonyms /\ decode_bcloc "top" <> decode_bcloc "bottom".
Proof. split; [cbn; auto|discriminate]. Qed.
