(** Property C63: exactly which documents are wallet data. *)
From Coq Require Import Strings.String.
From Verif Require Import Base CodingSpec Dict Errors FMap Base64 Json Data PropertiesData JsonSpec DocumentSpec DocumentFacts.
Open Scope list_scope.

(** C63.  The envelope: version and content. *)
Theorem C63_envelope : forall (C : data_config) (b : bytes) (v : versioned),
  versioned_from_bytes C b = Ok v <->
  whole (envelope_text C (version_num (v_version v)) (v_data v)) b.
Proof. exact envelope_exact. Qed.
Print Assumptions C63_envelope.

(** C63.  The content, by version. *)
Theorem C63_document : forall (C : data_config) (v : versioned) (w : wallet),
  get_data C v = Ok w <->
  match v_version v with
  | V1 => whole (v1_doc_text C (w_keys w)) (v_data v) /\ w_seed w = None /\ w_mnemonic w = None /\ w_dictionary w = None
  | V2 => whole (v2_doc_text C w) (v_data v)
  end.
Proof. exact document_exact. Qed.
Print Assumptions C63_document.

(** An envelope with white space, an escaped name, an unknown member and the
    members in another order; the same with the version given twice; with the
    version missing; as an array. *)
Definition C63_content : bytes := blit "{""keys"":[[60,""AQ==""],[1,""Ag==""],[60,""Aw==""]],""seed"":null}".
Definition C63_envelopes : list bytes :=
  [blit " {""d\u0061ta"" : ""eyJrZXlzIjpbWzYwLCJBUT09Il0sWzEsIkFnPT0iXSxbNjAsIkF3PT0iXV0sInNlZWQiOm51bGx9"", ""x"":[-1.5e+3,{""y"":true}], ""version"":2} ";
   blit "[2,""eyJrZXlzIjpbWzYwLCJBUT09Il0sWzEsIkFnPT0iXSxbNjAsIkF3PT0iXV0sInNlZWQiOm51bGx9""]"].
Definition C63_rejected : list bytes :=
  [blit "{""version"":2,""data"":"""",""version"":2}"; blit "{""data"":""""}"; blit "{""version"":2,""data"":"""",}";
   blit "{""version"":3,""data"":""""}"; blit "{""version"":2,""data"":""""} x"; blit "[2,"""",3]"].
Definition C63_wallet : wallet :=
  {| w_seed := None; w_mnemonic := None; w_dictionary := None; w_keys := [(1, [x02]); (60, [x03])] |}.

Example C63_case :
  Forall (whole (envelope_text C33_config 2 C63_content)) C63_envelopes /\
  Forall (fun b => forall n d, n = 1 \/ n = 2 -> ~ whole (envelope_text C33_config n d) b) C63_rejected.
Proof.
  split.
  - repeat constructor; apply (C63_envelope C33_config _ {| v_version := V2; v_data := C63_content |}); vm_compute; reflexivity.
  - repeat constructor; intros n d [->| ->] H;
      first [apply (C63_envelope C33_config _ {| v_version := V1; v_data := d |}) in H; vm_compute in H; discriminate
            |apply (C63_envelope C33_config _ {| v_version := V2; v_data := d |}) in H; vm_compute in H; discriminate].
Qed.

Example C63_document_case :
  whole (v2_doc_text C33_config C63_wallet) C63_content /\
  whole (v1_doc_text C33_config (w_keys C63_wallet)) C63_content /\
  ~ (exists w, whole (v2_doc_text C33_config w) (blit "{""keys"":[]}")) /\
  ~ (exists w, whole (v2_doc_text C33_config w) (blit "{""seed"":null,""dictionary"":""Klingon"",""keys"":[]}")).
Proof.
  split; [apply (C63_document C33_config {| v_version := V2; v_data := C63_content |}); vm_compute; reflexivity|].
  split; [apply (C63_document C33_config {| v_version := V1; v_data := C63_content |} C63_wallet); vm_compute; reflexivity|].
  split; intros (w & H).
  - apply (C63_document C33_config {| v_version := V2; v_data := _ |}) in H. vm_compute in H. discriminate.
  - apply (C63_document C33_config {| v_version := V2; v_data := _ |}) in H. vm_compute in H. discriminate.
Qed.
