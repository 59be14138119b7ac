(** * PropsJ: C54. *)
From Verif Require Import Base Utf8 Value DataTypes Records Parser Wire Grammar BaseLemmas DataTypesLemmas
  RecordsLemmas MethodLemmas SafetyLemmas Safety Heads Complete Sound Fuel Message Run Spec LemmasA LemmasB LemmasC PropsA
  Serde Display ErrorKinds.
From Coq Require Import Lia.
Import String.StringSyntax.

(** ** C54 Error texts identify the kind of error *)

(** Two errors of different kinds have different texts. *)
Definition all_kinds : list error_inner :=
  [ E_Eof; E_TrailingData; E_UnresolvableMemberReference; E_InvalidCallArrayId; E_MissingRootObject;
    E_InvalidNullCount; E_InvalidObjectId; E_DuplicateObjectId; E_InvalidLength; E_InvalidMajorVersion;
    E_InvalidMinorVersion; E_InvalidRootId; E_MissingMetadataId; E_InvalidMetadataId; E_InvalidArgs;
    E_UnexpectedClass; E_ExpectedBinaryType; E_ExpectedBinaryArrayType; E_MissingLibraryId;
    E_InvalidLibraryId; E_DuplicateLibraryId; E_ExpectedClassInfo; E_ExpectedMessageFlags;
    E_InvalidMessageFlags; E_ExpectedPrimitiveType; E_Other ]
  ++ map E_ExpectedRecordType
    [ RT_SerializedStreamHeader; RT_ClassWithId; RT_SystemClassWithMembers; RT_ClassWithMembers;
      RT_SystemClassWithMembersAndTypes; RT_ClassWithMembersAndTypes; RT_BinaryObjectString;
      RT_BinaryArray; RT_MemberPrimitiveTyped; RT_MemberReference; RT_ObjectNull; RT_MessageEnd;
      RT_BinaryLibrary; RT_ObjectNullMultiple256; RT_ObjectNullMultiple; RT_ArraySinglePrimitive;
      RT_ArraySingleObject; RT_ArraySingleString; RT_MethodCall; RT_MethodReturn ]
  ++ map E_ExpectedPrimitive
    [ PT_Boolean; PT_Byte; PT_Char; PT_Decimal; PT_Double; PT_Int16; PT_Int32; PT_Int64; PT_SByte;
      PT_Single; PT_TimeSpan; PT_DateTime; PT_UInt16; PT_UInt32; PT_UInt64; PT_Null; PT_String ].
Lemma all_kinds_all k : k ∈ all_kinds.
Proof.
  unfold all_kinds. rewrite !elem_of_app.
  destruct k; try (left; solve [repeat (apply elem_of_list_here || apply elem_of_list_further)]).
  - right; left. apply elem_of_list_fmap. exists r. split; [done|].
    destruct r; repeat (apply elem_of_list_here || apply elem_of_list_further).
  - right; right. apply elem_of_list_fmap. exists p. split; [done|].
    destruct p; repeat (apply elem_of_list_here || apply elem_of_list_further).
Qed.
Lemma nodup_fmap_inj {A B} (f : A -> B) l : NoDup (map f l) ->
  forall x y, x ∈ l -> y ∈ l -> f x = f y -> x = y.
Proof.
  induction l as [|a l IH]; intros Hn x y Hx Hy E; [by apply elem_of_nil in Hx|].
  apply NoDup_cons in Hn as [H1 H2]. apply elem_of_cons in Hx, Hy.
  destruct Hx as [->|Hx], Hy as [->|Hy]; [done| | |by apply IH].
  - exfalso. apply H1. rewrite E. by apply (elem_of_list_fmap_1 f).
  - exfalso. apply H1. rewrite <- E. by apply (elem_of_list_fmap_1 f).
Qed.
Theorem C54_texts_distinct : forall k1 k2, inner_text k1 = inner_text k2 -> k1 = k2.
Proof.
  intros k1 k2. apply (nodup_fmap_inj inner_text all_kinds); try apply all_kinds_all.
  apply (bool_decide_unpack _). vm_compute. exact I.
Qed.

(** The same for the texts of the errors of [from_slice] that come from the parser. *)
Theorem C54_slice_texts : forall e1 e2,
  slice_error_text e1 = slice_error_text e2 <-> e_inner e1 = e_inner e2.
Proof.
  intros e1 e2. unfold slice_error_text, error_text. split; [|intros ->; reflexivity].
  intros H. apply C54_texts_distinct. apply app_inv_head in H. exact H.
Qed.

Section with_decimal.
Context {DL : DecimalLib} {FL : FloatLib}.

(** The kinds of errors that the parser can report: "unexpected end of input", "unresolvable
    member reference" and "duplicate object ID" are not among them, and the only record types
    that are ever said to be missing are the header and the end of the message. *)
Inductive reportable : error_inner -> Prop :=
| R_TrailingData : reportable E_TrailingData
| R_InvalidCallArrayId : reportable E_InvalidCallArrayId
| R_MissingRootObject : reportable E_MissingRootObject
| R_InvalidNullCount : reportable E_InvalidNullCount
| R_InvalidObjectId : reportable E_InvalidObjectId
| R_InvalidLength : reportable E_InvalidLength
| R_InvalidMajorVersion : reportable E_InvalidMajorVersion
| R_InvalidMinorVersion : reportable E_InvalidMinorVersion
| R_InvalidRootId : reportable E_InvalidRootId
| R_MissingMetadataId : reportable E_MissingMetadataId
| R_InvalidMetadataId : reportable E_InvalidMetadataId
| R_InvalidArgs : reportable E_InvalidArgs
| R_UnexpectedClass : reportable E_UnexpectedClass
| R_ExpectedBinaryType : reportable E_ExpectedBinaryType
| R_ExpectedBinaryArrayType : reportable E_ExpectedBinaryArrayType
| R_MissingLibraryId : reportable E_MissingLibraryId
| R_InvalidLibraryId : reportable E_InvalidLibraryId
| R_DuplicateLibraryId : reportable E_DuplicateLibraryId
| R_header : reportable (E_ExpectedRecordType RT_SerializedStreamHeader)
| R_end : reportable (E_ExpectedRecordType RT_MessageEnd)
| R_ExpectedClassInfo : reportable E_ExpectedClassInfo
| R_ExpectedMessageFlags : reportable E_ExpectedMessageFlags
| R_InvalidMessageFlags : reportable E_InvalidMessageFlags
| R_ExpectedPrimitiveType : reportable E_ExpectedPrimitiveType
| R_Other : reportable E_Other
| R_primitive p : p <> PT_Null -> p <> PT_Decimal -> reportable (E_ExpectedPrimitive p)
| R_decimal s : utf8 s -> (N.of_nat (length s) < 2 ^ 31)%N -> dec_from_str s = None ->
    reportable (E_ExpectedPrimitive PT_Decimal).

(** Names "a" and "b" of a method call, and the flags "no args, no context". *)
Notation ab := [18; 1; 97; 18; 1; 98]%N.

(** A message that is rejected with an error of the given kind. *)
Definition bad_message (k : error_inner) : bytes :=
  match k with
  | E_TrailingData => header_bytes 0 0 ++ bs_of [11; 0]
  | E_InvalidCallArrayId => header_bytes 1 0 ++ bs_of ([21; 17;0;0;0] ++ ab ++ [16; 2;0;0;0; 0;0;0;0; 11])
  | E_MissingRootObject => header_bytes 1 0 ++ bs_of [11]
  | E_InvalidNullCount => header_bytes 0 0 ++ bs_of [16; 1;0;0;0; 1;0;0;0; 14; 0;0;0;0]
  | E_InvalidObjectId => header_bytes 0 0 ++ bs_of [6; 0;0;0;0]
  | E_InvalidLength => header_bytes 0 0 ++ bs_of [16; 1;0;0;0; 255;255;255;255]
  | E_InvalidMajorVersion => bs_of [0; 0;0;0;0; 0;0;0;0; 2;0;0;0]
  | E_InvalidMinorVersion => bs_of [0; 0;0;0;0; 0;0;0;0; 1;0;0;0; 1;0;0;0]
  | E_InvalidRootId => bs_of [0; 255;255;255;255]
  | E_MissingMetadataId => header_bytes 0 0 ++ bs_of [1; 1;0;0;0; 2;0;0;0]
  | E_InvalidMetadataId => header_bytes 0 0 ++ bs_of [1; 1;0;0;0; 1;0;0;0]
  | E_InvalidArgs => header_bytes 1 0 ++ bs_of ([21; 20;0;0;0] ++ ab ++ [11])
  | E_UnexpectedClass =>
      header_bytes 0 0 ++ bs_of [4; 1;0;0;0; 1; 97; 1;0;0;0; 1; 120; 3; 1; 97; 2; 2;0;0;0; 1; 98; 0;0;0;0]
  | E_ExpectedBinaryType => header_bytes 0 0 ++ bs_of [7; 1;0;0;0; 0; 1;0;0;0; 0;0;0;0; 255]
  | E_ExpectedBinaryArrayType => header_bytes 0 0 ++ bs_of [7; 1;0;0;0; 255]
  | E_MissingLibraryId => header_bytes 0 0 ++ bs_of [3; 1;0;0;0; 1; 97; 0;0;0;0; 5;0;0;0]
  | E_InvalidLibraryId => header_bytes 0 0 ++ bs_of [3; 1;0;0;0; 1; 97; 0;0;0;0; 0;0;0;0]
  | E_DuplicateLibraryId => header_bytes 0 0 ++ bs_of [12; 1;0;0;0; 1; 97; 11]
  | E_ExpectedRecordType RT_MessageEnd => header_bytes 0 0
  | E_ExpectedClassInfo => header_bytes 0 0 ++ bs_of [2; 0;0;0;0]
  | E_ExpectedMessageFlags => header_bytes 0 0 ++ bs_of [21]
  | E_InvalidMessageFlags => header_bytes 0 0 ++ bs_of [21; 3;0;0;0]
  | E_ExpectedPrimitiveType => header_bytes 0 0 ++ bs_of [15; 1;0;0;0; 0;0;0;0; 255]
  | E_Other => header_bytes 0 0 ++ bs_of [15; 1;0;0;0; 1;0;0;0; 17]
  | E_ExpectedPrimitive PT_String => header_bytes 0 0 ++ bs_of [21; 17;0;0;0]
  | E_ExpectedPrimitive p => header_bytes 0 0 ++ bs_of [15; 1;0;0;0; 1;0;0;0; pt_code p]
  | _ => []
  end%N.

(** The kinds that are reported are exactly these. *)
Theorem C54_reported_kinds : forall k,
  reportable k <-> exists W e, deserialize W = PErr e /\ e_inner e = k.
Proof.
  intros k. split.
  - intros H. destruct H as [| | | | | | | | | | | | | | | | | | | | | | | | |p Hp1 Hp2|s Hu Hl Hs];
      try (match goal with |- exists W e, _ /\ e_inner e = ?k =>
        lazymatch k with
        | E_ExpectedPrimitive _ => fail
        | _ => exists (bad_message k); eexists; split; [vm_compute; reflexivity|reflexivity]
        end end).
    + exists (bad_message (E_ExpectedPrimitive p)).
      destruct p; try done; eexists; (split; [vm_compute; reflexivity|reflexivity]).
    + exists (header_bytes 0 0 ++ x0f :: enc_uint 4 1 ++ enc_uint 4 1 ++ x05 :: leb128 (N.of_nat (length s)) ++ s).
      eexists. split.
      * eapply (run_fail _ _ _ _ _ 2); [by apply header_of|apply G_objs_nil|].
        rewrite ref_prim_array by hd.
        change (x0f :: enc_uint 4 1 ++ enc_uint 4 1 ++ x05 :: ?a)
          with (x0f :: enc_uint 4 1 ++ enc_uint 4 1 ++ n2b (pt_code PT_Decimal) :: [] ++ a).
        rewrite (prim_array_fail _ _ _ _ [] _ (leb128 (N.of_nat (length s)) ++ s)
          (mkError (leb128 (N.of_nat (length s)) ++ s) (E_ExpectedPrimitive PT_Decimal))); try done.
        -- constructor.
        -- cbn [member_primitive_untyped]. unfold decimal_parse.
           assert (lps_parse (leb128 (N.of_nat (length s)) ++ s) = Ok [] s) as ->.
           { apply lps_exact. exists (leb128 (N.of_nat (length s)) ++ s). rewrite app_nil_r. split; [|done].
             exists (leb128 (N.of_nat (length s))). split; [by apply leb128_prefix|]. done. }
           cbn [bind]. by rewrite Hs.
      * done.
  - intros (W & e & H & <-). apply error_kinds in H. destruct H as [H|[->|[->|[->| ->]]]]; try constructor.
    destruct (e_inner e); try done; try (solve [constructor]). destruct p; try done; try (by constructor).
    cbn [failing] in H. destruct H as (s & H1 & H2 & H3). by eapply R_decimal.
Qed.

(** For example a missing end of the message is reported, and by this text; an invalid boolean
    member by that one. *)
Example C54_ex :
  (exists e, deserialize (header_bytes 0 0) = PErr e /\ error_text e = lit "expected a MessageEnd")
  /\ (exists e, deserialize (header_bytes 0 0 ++ bs_of [15; 1;0;0;0; 1;0;0;0; 1; 2]%N) = PErr e
        /\ slice_error_text e = lit "parsing error: expected a BOOLEAN")
  /\ ~ reportable E_Eof /\ ~ reportable (E_ExpectedPrimitive PT_Null).
Proof.
  split; [|split; [|split]].
  - eexists. split; [vm_compute; reflexivity|vm_compute; reflexivity].
  - eexists. split; [vm_compute; reflexivity|vm_compute; reflexivity].
  - intros H. inversion H.
  - intros H. inversion H. done.
Qed.
End with_decimal.
