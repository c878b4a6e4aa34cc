(** * Conformance: the repository's integration tests replayed on the model

    Generated by tools/conformance.py from xsd/tests/*.rs and xsd/tests/xsd/*.
    Tests, not proofs: each example runs schema parsing, code generation,
    decoding and encoding of the model on a concrete input. *)
From Verif Require Import Base Libs Xml Ast XsdNode Parse Decode Writer Gen Run Harness.

Definition files : list (string * xelem) := [
  ("tests/xsd/all.xsd",
   XE "schema" (Some "http://www.w3.org/2001/XMLSchema") [] [((Some "xs"), "http://www.w3.org/2001/XMLSchema")] (22%N, 0%N) [KText "
  "; KElem (XE "element" (Some "http://www.w3.org/2001/XMLSchema") [mkAttr "name" None "all" (80%N, 1%N)] [((Some "xs"), "http://www.w3.org/2001/XMLSchema")] (80%N, 0%N) [KText "
    "; KElem (XE "complexType" (Some "http://www.w3.org/2001/XMLSchema") [] [((Some "xs"), "http://www.w3.org/2001/XMLSchema")] (108%N, 0%N) [KText "
      "; KElem (XE "all" (Some "http://www.w3.org/2001/XMLSchema") [] [((Some "xs"), "http://www.w3.org/2001/XMLSchema")] (131%N, 0%N) [KText "
        "; KElem (XE "annotation" (Some "http://www.w3.org/2001/XMLSchema") [] [((Some "xs"), "http://www.w3.org/2001/XMLSchema")] (148%N, 0%N) [KText "
          "; KElem (XE "documentation" (Some "http://www.w3.org/2001/XMLSchema") [] [((Some "xs"), "http://www.w3.org/2001/XMLSchema")] (174%N, 0%N) [KText "all"]); KText "
        "]); KText "
        "; KElem (XE "element" (Some "http://www.w3.org/2001/XMLSchema") [mkAttr "name" None "first" (248%N, 1%N); mkAttr "type" None "xs:string" (248%N, 2%N)] [((Some "xs"), "http://www.w3.org/2001/XMLSchema")] (248%N, 0%N) []); KText "
        "; KElem (XE "element" (Some "http://www.w3.org/2001/XMLSchema") [mkAttr "name" None "second" (301%N, 1%N); mkAttr "type" None "xs:string" (301%N, 2%N)] [((Some "xs"), "http://www.w3.org/2001/XMLSchema")] (301%N, 0%N) []); KText "
        "; KElem (XE "element" (Some "http://www.w3.org/2001/XMLSchema") [mkAttr "name" None "third" (355%N, 1%N); mkAttr "type" None "xs:string" (355%N, 2%N)] [((Some "xs"), "http://www.w3.org/2001/XMLSchema")] (355%N, 0%N) []); KText "
      "]); KText "
    "]); KText "
  "]); KText "
"]);
  ("tests/xsd/attribute_default.xsd",
   XE "schema" (Some "http://www.w3.org/2001/XMLSchema") [] [((Some "xs"), "http://www.w3.org/2001/XMLSchema")] (22%N, 0%N) [KText "
  "; KElem (XE "element" (Some "http://www.w3.org/2001/XMLSchema") [mkAttr "name" None "text" (80%N, 1%N)] [((Some "xs"), "http://www.w3.org/2001/XMLSchema")] (80%N, 0%N) [KText "
    "; KElem (XE "complexType" (Some "http://www.w3.org/2001/XMLSchema") [] [((Some "xs"), "http://www.w3.org/2001/XMLSchema")] (109%N, 0%N) [KText "
      "; KElem (XE "simpleContent" (Some "http://www.w3.org/2001/XMLSchema") [] [((Some "xs"), "http://www.w3.org/2001/XMLSchema")] (132%N, 0%N) [KText "
        "; KElem (XE "extension" (Some "http://www.w3.org/2001/XMLSchema") [mkAttr "base" None "xs:string" (159%N, 1%N)] [((Some "xs"), "http://www.w3.org/2001/XMLSchema")] (159%N, 0%N) [KText "
          "; KElem (XE "attribute" (Some "http://www.w3.org/2001/XMLSchema") [mkAttr "name" None "lang" (201%N, 1%N); mkAttr "type" None "xs:string" (201%N, 2%N); mkAttr "default" None "en" (201%N, 3%N)] [((Some "xs"), "http://www.w3.org/2001/XMLSchema")] (201%N, 0%N) []); KText "
        "]); KText "
      "]); KText "
    "]); KText "
  "]); KText "
"]);
  ("tests/xsd/attribute_simple_type.xsd",
   XE "schema" (Some "http://www.w3.org/2001/XMLSchema") [] [((Some "xs"), "http://www.w3.org/2001/XMLSchema")] (22%N, 0%N) [KText "
  "; KElem (XE "element" (Some "http://www.w3.org/2001/XMLSchema") [mkAttr "name" None "text" (80%N, 1%N)] [((Some "xs"), "http://www.w3.org/2001/XMLSchema")] (80%N, 0%N) [KText "
    "; KElem (XE "complexType" (Some "http://www.w3.org/2001/XMLSchema") [] [((Some "xs"), "http://www.w3.org/2001/XMLSchema")] (109%N, 0%N) [KText "
      "; KElem (XE "simpleContent" (Some "http://www.w3.org/2001/XMLSchema") [] [((Some "xs"), "http://www.w3.org/2001/XMLSchema")] (132%N, 0%N) [KText "
        "; KElem (XE "extension" (Some "http://www.w3.org/2001/XMLSchema") [mkAttr "base" None "xs:string" (159%N, 1%N)] [((Some "xs"), "http://www.w3.org/2001/XMLSchema")] (159%N, 0%N) [KText "
          "; KElem (XE "attribute" (Some "http://www.w3.org/2001/XMLSchema") [mkAttr "name" None "lang" (201%N, 1%N); mkAttr "use" None "required" (201%N, 2%N)] [((Some "xs"), "http://www.w3.org/2001/XMLSchema")] (201%N, 0%N) [KText "
            "; KElem (XE "simpleType" (Some "http://www.w3.org/2001/XMLSchema") [] [((Some "xs"), "http://www.w3.org/2001/XMLSchema")] (255%N, 0%N) [KText "
              "; KElem (XE "restriction" (Some "http://www.w3.org/2001/XMLSchema") [mkAttr "base" None "xs:string" (285%N, 1%N)] [((Some "xs"), "http://www.w3.org/2001/XMLSchema")] (285%N, 0%N) [KText "
                "; KElem (XE "length" (Some "http://www.w3.org/2001/XMLSchema") [mkAttr "value" None "2" (335%N, 1%N)] [((Some "xs"), "http://www.w3.org/2001/XMLSchema")] (335%N, 0%N) []); KText "
              "]); KText "
            "]); KText "
          "]); KText "
        "]); KText "
      "]); KText "
    "]); KText "
  "]); KText "
"]);
  ("tests/xsd/attribute_use.xsd",
   XE "schema" (Some "http://www.w3.org/2001/XMLSchema") [] [((Some "xs"), "http://www.w3.org/2001/XMLSchema")] (22%N, 0%N) [KText "
  "; KElem (XE "element" (Some "http://www.w3.org/2001/XMLSchema") [mkAttr "name" None "setting" (80%N, 1%N)] [((Some "xs"), "http://www.w3.org/2001/XMLSchema")] (80%N, 0%N) [KText "
    "; KElem (XE "complexType" (Some "http://www.w3.org/2001/XMLSchema") [] [((Some "xs"), "http://www.w3.org/2001/XMLSchema")] (112%N, 0%N) [KText "
      "; KElem (XE "attribute" (Some "http://www.w3.org/2001/XMLSchema") [mkAttr "name" None "key" (135%N, 1%N); mkAttr "type" None "xs:string" (135%N, 2%N); mkAttr "use" None "required" (135%N, 3%N)] [((Some "xs"), "http://www.w3.org/2001/XMLSchema")] (135%N, 0%N) []); KText "
      "; KElem (XE "attribute" (Some "http://www.w3.org/2001/XMLSchema") [mkAttr "name" None "value" (201%N, 1%N); mkAttr "type" None "xs:string" (201%N, 2%N); mkAttr "use" None "optional" (201%N, 3%N)] [((Some "xs"), "http://www.w3.org/2001/XMLSchema")] (201%N, 0%N) []); KText "
      "; KElem (XE "attribute" (Some "http://www.w3.org/2001/XMLSchema") [mkAttr "name" None "debug" (269%N, 1%N); mkAttr "type" None "xs:boolean" (269%N, 2%N); mkAttr "use" None "prohibited" (269%N, 3%N)] [((Some "xs"), "http://www.w3.org/2001/XMLSchema")] (269%N, 0%N) []); KText "
    "]); KText "
  "]); KText "
"]);
  ("tests/xsd/choice_element_vec.xsd",
   XE "schema" (Some "http://www.w3.org/2001/XMLSchema") [] [((Some "xs"), "http://www.w3.org/2001/XMLSchema")] (22%N, 0%N) [KText "
  "; KElem (XE "element" (Some "http://www.w3.org/2001/XMLSchema") [mkAttr "name" None "shape" (80%N, 1%N)] [((Some "xs"), "http://www.w3.org/2001/XMLSchema")] (80%N, 0%N) [KText "
    "; KElem (XE "complexType" (Some "http://www.w3.org/2001/XMLSchema") [] [((Some "xs"), "http://www.w3.org/2001/XMLSchema")] (110%N, 0%N) [KText "
      "; KElem (XE "sequence" (Some "http://www.w3.org/2001/XMLSchema") [] [((Some "xs"), "http://www.w3.org/2001/XMLSchema")] (133%N, 0%N) [KText "
        "; KElem (XE "choice" (Some "http://www.w3.org/2001/XMLSchema") [] [((Some "xs"), "http://www.w3.org/2001/XMLSchema")] (155%N, 0%N) [KText "
          "; KElem (XE "element" (Some "http://www.w3.org/2001/XMLSchema") [mkAttr "name" None "points" (177%N, 1%N); mkAttr "minOccurs" None "1" (177%N, 2%N); mkAttr "maxOccurs" None "unbounded" (177%N, 3%N); mkAttr "type" None "xs:string" (177%N, 4%N)] [((Some "xs"), "http://www.w3.org/2001/XMLSchema")] (177%N, 0%N) []); KText "
          "; KElem (XE "element" (Some "http://www.w3.org/2001/XMLSchema") [mkAttr "name" None "lines" (269%N, 1%N); mkAttr "minOccurs" None "1" (269%N, 2%N); mkAttr "maxOccurs" None "unbounded" (269%N, 3%N); mkAttr "type" None "xs:string" (269%N, 4%N)] [((Some "xs"), "http://www.w3.org/2001/XMLSchema")] (269%N, 0%N) []); KText "
        "]); KText "
      "]); KText "
    "]); KText "
  "]); KText "
"]);
  ("tests/xsd/choice_literal.xsd",
   XE "schema" (Some "http://www.w3.org/2001/XMLSchema") [] [((Some "xs"), "http://www.w3.org/2001/XMLSchema")] (22%N, 0%N) [KText "
  "; KElem (XE "element" (Some "http://www.w3.org/2001/XMLSchema") [mkAttr "name" None "article" (80%N, 1%N)] [((Some "xs"), "http://www.w3.org/2001/XMLSchema")] (80%N, 0%N) [KText "
    "; KElem (XE "complexType" (Some "http://www.w3.org/2001/XMLSchema") [] [((Some "xs"), "http://www.w3.org/2001/XMLSchema")] (112%N, 0%N) [KText "
      "; KElem (XE "sequence" (Some "http://www.w3.org/2001/XMLSchema") [] [((Some "xs"), "http://www.w3.org/2001/XMLSchema")] (135%N, 0%N) [KText "
        "; KElem (XE "choice" (Some "http://www.w3.org/2001/XMLSchema") [] [((Some "xs"), "http://www.w3.org/2001/XMLSchema")] (157%N, 0%N) [KText "
          "; KElem (XE "element" (Some "http://www.w3.org/2001/XMLSchema") [mkAttr "name" None "user" (179%N, 1%N); mkAttr "type" None "xs:string" (179%N, 2%N)] [((Some "xs"), "http://www.w3.org/2001/XMLSchema")] (179%N, 0%N) []); KText "
          "; KElem (XE "element" (Some "http://www.w3.org/2001/XMLSchema") [mkAttr "name" None "bot" (233%N, 1%N); mkAttr "type" None "xs:string" (233%N, 2%N)] [((Some "xs"), "http://www.w3.org/2001/XMLSchema")] (233%N, 0%N) []); KText "
        "]); KText "
      "]); KText "
    "]); KText "
  "]); KText "
"]);
  ("tests/xsd/choice_optional.xsd",
   XE "schema" (Some "http://www.w3.org/2001/XMLSchema") [] [((Some "xs"), "http://www.w3.org/2001/XMLSchema")] (22%N, 0%N) [KText "
  "; KElem (XE "complexType" (Some "http://www.w3.org/2001/XMLSchema") [mkAttr "name" None "User" (80%N, 1%N)] [((Some "xs"), "http://www.w3.org/2001/XMLSchema")] (80%N, 0%N) [KText "
    "; KElem (XE "sequence" (Some "http://www.w3.org/2001/XMLSchema") [] [((Some "xs"), "http://www.w3.org/2001/XMLSchema")] (113%N, 0%N) [KText "
      "; KElem (XE "element" (Some "http://www.w3.org/2001/XMLSchema") [mkAttr "name" None "name" (133%N, 1%N); mkAttr "type" None "xs:string" (133%N, 2%N)] [((Some "xs"), "http://www.w3.org/2001/XMLSchema")] (133%N, 0%N) []); KText "
    "]); KText "
  "]); KText "
  "; KElem (XE "complexType" (Some "http://www.w3.org/2001/XMLSchema") [mkAttr "name" None "Bot" (218%N, 1%N)] [((Some "xs"), "http://www.w3.org/2001/XMLSchema")] (218%N, 0%N) [KText "
    "; KElem (XE "sequence" (Some "http://www.w3.org/2001/XMLSchema") [] [((Some "xs"), "http://www.w3.org/2001/XMLSchema")] (250%N, 0%N) [KText "
      "; KElem (XE "element" (Some "http://www.w3.org/2001/XMLSchema") [mkAttr "name" None "handle" (270%N, 1%N); mkAttr "type" None "xs:string" (270%N, 2%N)] [((Some "xs"), "http://www.w3.org/2001/XMLSchema")] (270%N, 0%N) []); KText "
    "]); KText "
  "]); KText "
  "; KElem (XE "element" (Some "http://www.w3.org/2001/XMLSchema") [mkAttr "name" None "article" (357%N, 1%N)] [((Some "xs"), "http://www.w3.org/2001/XMLSchema")] (357%N, 0%N) [KText "
    "; KElem (XE "complexType" (Some "http://www.w3.org/2001/XMLSchema") [] [((Some "xs"), "http://www.w3.org/2001/XMLSchema")] (389%N, 0%N) [KText "
      "; KElem (XE "sequence" (Some "http://www.w3.org/2001/XMLSchema") [] [((Some "xs"), "http://www.w3.org/2001/XMLSchema")] (412%N, 0%N) [KText "
        "; KElem (XE "element" (Some "http://www.w3.org/2001/XMLSchema") [mkAttr "name" None "body" (434%N, 1%N); mkAttr "type" None "xs:string" (434%N, 2%N)] [((Some "xs"), "http://www.w3.org/2001/XMLSchema")] (434%N, 0%N) []); KText "
        "; KElem (XE "choice" (Some "http://www.w3.org/2001/XMLSchema") [mkAttr "minOccurs" None "0" (486%N, 1%N); mkAttr "maxOccurs" None "1" (486%N, 2%N)] [((Some "xs"), "http://www.w3.org/2001/XMLSchema")] (486%N, 0%N) [KText "
          "; KElem (XE "element" (Some "http://www.w3.org/2001/XMLSchema") [mkAttr "name" None "user" (536%N, 1%N); mkAttr "type" None "User" (536%N, 2%N)] [((Some "xs"), "http://www.w3.org/2001/XMLSchema")] (536%N, 0%N) []); KText "
          "; KElem (XE "element" (Some "http://www.w3.org/2001/XMLSchema") [mkAttr "name" None "bot" (585%N, 1%N); mkAttr "type" None "Bot" (585%N, 2%N)] [((Some "xs"), "http://www.w3.org/2001/XMLSchema")] (585%N, 0%N) []); KText "
        "]); KText "
      "]); KText "
    "]); KText "
  "]); KText "
"]);
  ("tests/xsd/choice_selection_optional.xsd",
   XE "schema" (Some "http://www.w3.org/2001/XMLSchema") [] [((Some "xs"), "http://www.w3.org/2001/XMLSchema")] (22%N, 0%N) [KText "
  "; KElem (XE "complexType" (Some "http://www.w3.org/2001/XMLSchema") [mkAttr "name" None "GeometryType" (80%N, 1%N)] [((Some "xs"), "http://www.w3.org/2001/XMLSchema")] (80%N, 0%N) [KText "
		"; KElem (XE "sequence" (Some "http://www.w3.org/2001/XMLSchema") [] [((Some "xs"), "http://www.w3.org/2001/XMLSchema")] (119%N, 0%N) [KText "
			"; KElem (XE "element" (Some "http://www.w3.org/2001/XMLSchema") [mkAttr "name" None "diameter" (136%N, 1%N); mkAttr "type" None "xs:float" (136%N, 2%N)] [((Some "xs"), "http://www.w3.org/2001/XMLSchema")] (136%N, 0%N) []); KText "
			"; KElem (XE "choice" (Some "http://www.w3.org/2001/XMLSchema") [] [((Some "xs"), "http://www.w3.org/2001/XMLSchema")] (186%N, 0%N) [KText "
				"; KElem (XE "sequence" (Some "http://www.w3.org/2001/XMLSchema") [] [((Some "xs"), "http://www.w3.org/2001/XMLSchema")] (202%N, 0%N) [KText "
					"; KElem (XE "element" (Some "http://www.w3.org/2001/XMLSchema") [mkAttr "name" None "thickness" (221%N, 1%N); mkAttr "minOccurs" None "0" (221%N, 2%N); mkAttr "maxOccurs" None "unbounded" (221%N, 3%N)] [((Some "xs"), "http://www.w3.org/2001/XMLSchema")] (221%N, 0%N) [KText "
						"; KElem (XE "complexType" (Some "http://www.w3.org/2001/XMLSchema") [] [((Some "xs"), "http://www.w3.org/2001/XMLSchema")] (293%N, 0%N) [KText "
							"; KElem (XE "simpleContent" (Some "http://www.w3.org/2001/XMLSchema") [] [((Some "xs"), "http://www.w3.org/2001/XMLSchema")] (317%N, 0%N) [KText "
								"; KElem (XE "extension" (Some "http://www.w3.org/2001/XMLSchema") [mkAttr "base" None "xs:float" (344%N, 1%N)] [((Some "xs"), "http://www.w3.org/2001/XMLSchema")] (344%N, 0%N) [KText "
									"; KElem (XE "attribute" (Some "http://www.w3.org/2001/XMLSchema") [mkAttr "name" None "reference" (384%N, 1%N); mkAttr "type" None "xs:string" (384%N, 2%N); mkAttr "use" None "required" (384%N, 3%N)] [((Some "xs"), "http://www.w3.org/2001/XMLSchema")] (384%N, 0%N) []); KText "
								"]); KText "
							"]); KText "
						"]); KText "
					"]); KText "
					"; KElem (XE "element" (Some "http://www.w3.org/2001/XMLSchema") [mkAttr "name" None "thicknessReduction" (549%N, 1%N); mkAttr "default" None "false" (549%N, 2%N); mkAttr "minOccurs" None "0" (549%N, 3%N)] [((Some "xs"), "http://www.w3.org/2001/XMLSchema")] (549%N, 0%N) [KText "
						"; KElem (XE "complexType" (Some "http://www.w3.org/2001/XMLSchema") [] [((Some "xs"), "http://www.w3.org/2001/XMLSchema")] (624%N, 0%N) [KText "
							"; KElem (XE "simpleContent" (Some "http://www.w3.org/2001/XMLSchema") [] [((Some "xs"), "http://www.w3.org/2001/XMLSchema")] (648%N, 0%N) [KText "
								"; KElem (XE "extension" (Some "http://www.w3.org/2001/XMLSchema") [mkAttr "base" None "xs:boolean" (675%N, 1%N)] [((Some "xs"), "http://www.w3.org/2001/XMLSchema")] (675%N, 0%N) [KText "
									"; KElem (XE "attribute" (Some "http://www.w3.org/2001/XMLSchema") [mkAttr "name" None "reference" (717%N, 1%N); mkAttr "type" None "xs:string" (717%N, 2%N); mkAttr "use" None "required" (717%N, 3%N)] [((Some "xs"), "http://www.w3.org/2001/XMLSchema")] (717%N, 0%N) []); KText "
								"]); KText "
							"]); KText "
						"]); KText "
					"]); KText "
				"]); KText "
				"; KElem (XE "element" (Some "http://www.w3.org/2001/XMLSchema") [mkAttr "name" None "thicknessReductionThin" (900%N, 1%N); mkAttr "type" None "xs:boolean" (900%N, 2%N); mkAttr "default" None "false" (900%N, 3%N); mkAttr "minOccurs" None "0" (900%N, 4%N)] [((Some "xs"), "http://www.w3.org/2001/XMLSchema")] (900%N, 0%N) []); KText "
			"]); KText "
		"]); KText "
	"]); KText "
  "; KElem (XE "element" (Some "http://www.w3.org/2001/XMLSchema") [mkAttr "name" None "geometry" (1047%N, 1%N); mkAttr "type" None "GeometryType" (1047%N, 2%N)] [((Some "xs"), "http://www.w3.org/2001/XMLSchema")] (1047%N, 0%N) []); KText "
"]);
  ("tests/xsd/choice_sequence.xsd",
   XE "schema" (Some "http://www.w3.org/2001/XMLSchema") [] [((Some "xs"), "http://www.w3.org/2001/XMLSchema")] (22%N, 0%N) [KText "
  "; KElem (XE "element" (Some "http://www.w3.org/2001/XMLSchema") [mkAttr "name" None "user" (80%N, 1%N)] [((Some "xs"), "http://www.w3.org/2001/XMLSchema")] (80%N, 0%N) [KText "
    "; KElem (XE "complexType" (Some "http://www.w3.org/2001/XMLSchema") [] [((Some "xs"), "http://www.w3.org/2001/XMLSchema")] (109%N, 0%N) [KText "
      "; KElem (XE "sequence" (Some "http://www.w3.org/2001/XMLSchema") [] [((Some "xs"), "http://www.w3.org/2001/XMLSchema")] (132%N, 0%N) [KText "
        "; KElem (XE "element" (Some "http://www.w3.org/2001/XMLSchema") [mkAttr "name" None "id" (154%N, 1%N); mkAttr "type" None "xs:long" (154%N, 2%N)] [((Some "xs"), "http://www.w3.org/2001/XMLSchema")] (154%N, 0%N) []); KText "
        "; KElem (XE "choice" (Some "http://www.w3.org/2001/XMLSchema") [] [((Some "xs"), "http://www.w3.org/2001/XMLSchema")] (202%N, 0%N) [KText "
          "; KElem (XE "annotation" (Some "http://www.w3.org/2001/XMLSchema") [] [((Some "xs"), "http://www.w3.org/2001/XMLSchema")] (224%N, 0%N) [KText "
            "; KElem (XE "documentation" (Some "http://www.w3.org/2001/XMLSchema") [] [((Some "xs"), "http://www.w3.org/2001/XMLSchema")] (252%N, 0%N) [KText "the name"]); KText "
          "]); KText "
          "; KElem (XE "element" (Some "http://www.w3.org/2001/XMLSchema") [mkAttr "name" None "fullName" (335%N, 1%N); mkAttr "type" None "xs:string" (335%N, 2%N)] [((Some "xs"), "http://www.w3.org/2001/XMLSchema")] (335%N, 0%N) []); KText "
          "; KElem (XE "sequence" (Some "http://www.w3.org/2001/XMLSchema") [] [((Some "xs"), "http://www.w3.org/2001/XMLSchema")] (393%N, 0%N) [KText "
            "; KElem (XE "element" (Some "http://www.w3.org/2001/XMLSchema") [mkAttr "name" None "firstName" (419%N, 1%N); mkAttr "type" None "xs:string" (419%N, 2%N)] [((Some "xs"), "http://www.w3.org/2001/XMLSchema")] (419%N, 0%N) []); KText "
            "; KElem (XE "element" (Some "http://www.w3.org/2001/XMLSchema") [mkAttr "name" None "lastName" (480%N, 1%N); mkAttr "type" None "xs:string" (480%N, 2%N)] [((Some "xs"), "http://www.w3.org/2001/XMLSchema")] (480%N, 0%N) []); KText "
          "]); KText "
        "]); KText "
      "]); KText "
    "]); KText "
  "]); KText "
"]);
  ("tests/xsd/choice_vec.xsd",
   XE "schema" (Some "http://www.w3.org/2001/XMLSchema") [] [((Some "xs"), "http://www.w3.org/2001/XMLSchema")] (22%N, 0%N) [KText "
  "; KElem (XE "element" (Some "http://www.w3.org/2001/XMLSchema") [mkAttr "name" None "user" (80%N, 1%N)] [((Some "xs"), "http://www.w3.org/2001/XMLSchema")] (80%N, 0%N) [KText "
    "; KElem (XE "complexType" (Some "http://www.w3.org/2001/XMLSchema") [] [((Some "xs"), "http://www.w3.org/2001/XMLSchema")] (109%N, 0%N) [KText "
      "; KElem (XE "sequence" (Some "http://www.w3.org/2001/XMLSchema") [] [((Some "xs"), "http://www.w3.org/2001/XMLSchema")] (132%N, 0%N) [KText "
        "; KElem (XE "element" (Some "http://www.w3.org/2001/XMLSchema") [mkAttr "name" None "id" (154%N, 1%N); mkAttr "type" None "xs:long" (154%N, 2%N)] [((Some "xs"), "http://www.w3.org/2001/XMLSchema")] (154%N, 0%N) []); KText "
        "; KElem (XE "choice" (Some "http://www.w3.org/2001/XMLSchema") [mkAttr "minOccurs" None "0" (202%N, 1%N); mkAttr "maxOccurs" None "unbounded" (202%N, 2%N)] [((Some "xs"), "http://www.w3.org/2001/XMLSchema")] (202%N, 0%N) [KText "
          "; KElem (XE "element" (Some "http://www.w3.org/2001/XMLSchema") [mkAttr "name" None "alias" (260%N, 1%N); mkAttr "type" None "xs:string" (260%N, 2%N)] [((Some "xs"), "http://www.w3.org/2001/XMLSchema")] (260%N, 0%N) []); KText "
          "; KElem (XE "element" (Some "http://www.w3.org/2001/XMLSchema") [mkAttr "name" None "email" (315%N, 1%N); mkAttr "type" None "xs:string" (315%N, 2%N)] [((Some "xs"), "http://www.w3.org/2001/XMLSchema")] (315%N, 0%N) []); KText "
        "]); KText "
      "]); KText "
    "]); KText "
  "]); KText "
"]);
  ("tests/xsd/complex_content.xsd",
   XE "schema" (Some "http://www.w3.org/2001/XMLSchema") [] [((Some "xs"), "http://www.w3.org/2001/XMLSchema")] (22%N, 0%N) [KText "
	"; KElem (XE "complexType" (Some "http://www.w3.org/2001/XMLSchema") [mkAttr "name" None "User" (79%N, 1%N)] [((Some "xs"), "http://www.w3.org/2001/XMLSchema")] (79%N, 0%N) [KText "
		"; KElem (XE "sequence" (Some "http://www.w3.org/2001/XMLSchema") [] [((Some "xs"), "http://www.w3.org/2001/XMLSchema")] (110%N, 0%N) [KText "
			"; KElem (XE "element" (Some "http://www.w3.org/2001/XMLSchema") [mkAttr "name" None "name" (127%N, 1%N); mkAttr "type" None "xs:string" (127%N, 2%N)] [((Some "xs"), "http://www.w3.org/2001/XMLSchema")] (127%N, 0%N) []); KText "
    "]); KText "
    "; KElem (XE "attribute" (Some "http://www.w3.org/2001/XMLSchema") [mkAttr "name" None "id" (194%N, 1%N); mkAttr "type" None "xs:long" (194%N, 2%N); mkAttr "use" None "required" (194%N, 3%N)] [((Some "xs"), "http://www.w3.org/2001/XMLSchema")] (194%N, 0%N) []); KText "
  "]); KText "
	"; KElem (XE "simpleType" (Some "http://www.w3.org/2001/XMLSchema") [mkAttr "name" None "Roles" (273%N, 1%N)] [((Some "xs"), "http://www.w3.org/2001/XMLSchema")] (273%N, 0%N) [KText "
		"; KElem (XE "restriction" (Some "http://www.w3.org/2001/XMLSchema") [mkAttr "base" None "xs:string" (304%N, 1%N)] [((Some "xs"), "http://www.w3.org/2001/XMLSchema")] (304%N, 0%N) [KText "
			"; KElem (XE "enumeration" (Some "http://www.w3.org/2001/XMLSchema") [mkAttr "value" None "USER" (341%N, 1%N)] [((Some "xs"), "http://www.w3.org/2001/XMLSchema")] (341%N, 0%N) []); KText "
			"; KElem (XE "enumeration" (Some "http://www.w3.org/2001/XMLSchema") [mkAttr "value" None "ADMIN" (375%N, 1%N)] [((Some "xs"), "http://www.w3.org/2001/XMLSchema")] (375%N, 0%N) []); KText "
		"]); KText "
	"]); KText "
  "; KElem (XE "element" (Some "http://www.w3.org/2001/XMLSchema") [mkAttr "name" None "Account" (447%N, 1%N)] [((Some "xs"), "http://www.w3.org/2001/XMLSchema")] (447%N, 0%N) [KText "
    "; KElem (XE "complexType" (Some "http://www.w3.org/2001/XMLSchema") [mkAttr "mixed" None "false" (479%N, 1%N)] [((Some "xs"), "http://www.w3.org/2001/XMLSchema")] (479%N, 0%N) [KText "
      "; KElem (XE "annotation" (Some "http://www.w3.org/2001/XMLSchema") [] [((Some "xs"), "http://www.w3.org/2001/XMLSchema")] (516%N, 0%N) [KText "
        "; KElem (XE "documentation" (Some "http://www.w3.org/2001/XMLSchema") [] [((Some "xs"), "http://www.w3.org/2001/XMLSchema")] (540%N, 0%N) [KText "A account."]); KText "
      "]); KText "
      "; KElem (XE "complexContent" (Some "http://www.w3.org/2001/XMLSchema") [] [((Some "xs"), "http://www.w3.org/2001/XMLSchema")] (617%N, 0%N) [KText "
        "; KElem (XE "extension" (Some "http://www.w3.org/2001/XMLSchema") [mkAttr "base" None "User" (645%N, 1%N)] [((Some "xs"), "http://www.w3.org/2001/XMLSchema")] (645%N, 0%N) [KText "
          "; KElem (XE "attribute" (Some "http://www.w3.org/2001/XMLSchema") [mkAttr "name" None "role" (682%N, 1%N); mkAttr "type" None "Roles" (682%N, 2%N); mkAttr "use" None "required" (682%N, 3%N)] [((Some "xs"), "http://www.w3.org/2001/XMLSchema")] (682%N, 0%N) []); KText "
        "]); KText "
      "]); KText "
    "]); KText "
  "]); KText "
"]);
  ("tests/xsd/complex_content_sequence.xsd",
   XE "schema" (Some "http://www.w3.org/2001/XMLSchema") [] [((Some "xs"), "http://www.w3.org/2001/XMLSchema")] (22%N, 0%N) [KText "
	"; KElem (XE "complexType" (Some "http://www.w3.org/2001/XMLSchema") [mkAttr "name" None "User" (79%N, 1%N)] [((Some "xs"), "http://www.w3.org/2001/XMLSchema")] (79%N, 0%N) [KText "
		"; KElem (XE "sequence" (Some "http://www.w3.org/2001/XMLSchema") [] [((Some "xs"), "http://www.w3.org/2001/XMLSchema")] (110%N, 0%N) [KText "
			"; KElem (XE "element" (Some "http://www.w3.org/2001/XMLSchema") [mkAttr "name" None "id" (127%N, 1%N); mkAttr "type" None "xs:long" (127%N, 2%N)] [((Some "xs"), "http://www.w3.org/2001/XMLSchema")] (127%N, 0%N) []); KText "
			"; KElem (XE "element" (Some "http://www.w3.org/2001/XMLSchema") [mkAttr "name" None "name" (170%N, 1%N); mkAttr "type" None "xs:string" (170%N, 2%N)] [((Some "xs"), "http://www.w3.org/2001/XMLSchema")] (170%N, 0%N) []); KText "
    "]); KText "
  "]); KText "
	"; KElem (XE "simpleType" (Some "http://www.w3.org/2001/XMLSchema") [mkAttr "name" None "Roles" (254%N, 1%N)] [((Some "xs"), "http://www.w3.org/2001/XMLSchema")] (254%N, 0%N) [KText "
		"; KElem (XE "restriction" (Some "http://www.w3.org/2001/XMLSchema") [mkAttr "base" None "xs:string" (285%N, 1%N)] [((Some "xs"), "http://www.w3.org/2001/XMLSchema")] (285%N, 0%N) [KText "
			"; KElem (XE "enumeration" (Some "http://www.w3.org/2001/XMLSchema") [mkAttr "value" None "USER" (322%N, 1%N)] [((Some "xs"), "http://www.w3.org/2001/XMLSchema")] (322%N, 0%N) []); KText "
			"; KElem (XE "enumeration" (Some "http://www.w3.org/2001/XMLSchema") [mkAttr "value" None "ADMIN" (356%N, 1%N)] [((Some "xs"), "http://www.w3.org/2001/XMLSchema")] (356%N, 0%N) []); KText "
		"]); KText "
	"]); KText "
  "; KElem (XE "element" (Some "http://www.w3.org/2001/XMLSchema") [mkAttr "name" None "Account" (428%N, 1%N)] [((Some "xs"), "http://www.w3.org/2001/XMLSchema")] (428%N, 0%N) [KText "
    "; KElem (XE "complexType" (Some "http://www.w3.org/2001/XMLSchema") [mkAttr "mixed" None "false" (460%N, 1%N)] [((Some "xs"), "http://www.w3.org/2001/XMLSchema")] (460%N, 0%N) [KText "
      "; KElem (XE "complexContent" (Some "http://www.w3.org/2001/XMLSchema") [] [((Some "xs"), "http://www.w3.org/2001/XMLSchema")] (497%N, 0%N) [KText "
        "; KElem (XE "extension" (Some "http://www.w3.org/2001/XMLSchema") [mkAttr "base" None "User" (525%N, 1%N)] [((Some "xs"), "http://www.w3.org/2001/XMLSchema")] (525%N, 0%N) [KText "
          "; KElem (XE "sequence" (Some "http://www.w3.org/2001/XMLSchema") [] [((Some "xs"), "http://www.w3.org/2001/XMLSchema")] (562%N, 0%N) [KText "
            "; KElem (XE "element" (Some "http://www.w3.org/2001/XMLSchema") [mkAttr "name" None "role" (588%N, 1%N); mkAttr "type" None "Roles" (588%N, 2%N)] [((Some "xs"), "http://www.w3.org/2001/XMLSchema")] (588%N, 0%N) []); KText "
            "; KElem (XE "element" (Some "http://www.w3.org/2001/XMLSchema") [mkAttr "name" None "enabled" (640%N, 1%N); mkAttr "type" None "xs:boolean" (640%N, 2%N)] [((Some "xs"), "http://www.w3.org/2001/XMLSchema")] (640%N, 0%N) []); KText "
          "]); KText "
        "]); KText "
      "]); KText "
    "]); KText "
  "]); KText "
"]);
  ("tests/xsd/complex_content_sequence_optional.xsd",
   XE "schema" (Some "http://www.w3.org/2001/XMLSchema") [] [((Some "xs"), "http://www.w3.org/2001/XMLSchema")] (22%N, 0%N) [KText "
	"; KElem (XE "complexType" (Some "http://www.w3.org/2001/XMLSchema") [mkAttr "name" None "User" (79%N, 1%N)] [((Some "xs"), "http://www.w3.org/2001/XMLSchema")] (79%N, 0%N) [KText "
		"; KElem (XE "sequence" (Some "http://www.w3.org/2001/XMLSchema") [] [((Some "xs"), "http://www.w3.org/2001/XMLSchema")] (110%N, 0%N) [KText "
			"; KElem (XE "element" (Some "http://www.w3.org/2001/XMLSchema") [mkAttr "name" None "id" (127%N, 1%N); mkAttr "type" None "xs:long" (127%N, 2%N)] [((Some "xs"), "http://www.w3.org/2001/XMLSchema")] (127%N, 0%N) []); KText "
			"; KElem (XE "element" (Some "http://www.w3.org/2001/XMLSchema") [mkAttr "name" None "name" (170%N, 1%N); mkAttr "type" None "xs:string" (170%N, 2%N)] [((Some "xs"), "http://www.w3.org/2001/XMLSchema")] (170%N, 0%N) []); KText "
    "]); KText "
  "]); KText "
	"; KElem (XE "simpleType" (Some "http://www.w3.org/2001/XMLSchema") [mkAttr "name" None "Roles" (254%N, 1%N)] [((Some "xs"), "http://www.w3.org/2001/XMLSchema")] (254%N, 0%N) [KText "
		"; KElem (XE "restriction" (Some "http://www.w3.org/2001/XMLSchema") [mkAttr "base" None "xs:string" (285%N, 1%N)] [((Some "xs"), "http://www.w3.org/2001/XMLSchema")] (285%N, 0%N) [KText "
			"; KElem (XE "enumeration" (Some "http://www.w3.org/2001/XMLSchema") [mkAttr "value" None "USER" (322%N, 1%N)] [((Some "xs"), "http://www.w3.org/2001/XMLSchema")] (322%N, 0%N) []); KText "
			"; KElem (XE "enumeration" (Some "http://www.w3.org/2001/XMLSchema") [mkAttr "value" None "ADMIN" (356%N, 1%N)] [((Some "xs"), "http://www.w3.org/2001/XMLSchema")] (356%N, 0%N) []); KText "
		"]); KText "
	"]); KText "
  "; KElem (XE "element" (Some "http://www.w3.org/2001/XMLSchema") [mkAttr "name" None "Account" (428%N, 1%N)] [((Some "xs"), "http://www.w3.org/2001/XMLSchema")] (428%N, 0%N) [KText "
    "; KElem (XE "complexType" (Some "http://www.w3.org/2001/XMLSchema") [mkAttr "mixed" None "false" (460%N, 1%N)] [((Some "xs"), "http://www.w3.org/2001/XMLSchema")] (460%N, 0%N) [KText "
      "; KElem (XE "complexContent" (Some "http://www.w3.org/2001/XMLSchema") [] [((Some "xs"), "http://www.w3.org/2001/XMLSchema")] (497%N, 0%N) [KText "
        "; KElem (XE "extension" (Some "http://www.w3.org/2001/XMLSchema") [mkAttr "base" None "User" (525%N, 1%N)] [((Some "xs"), "http://www.w3.org/2001/XMLSchema")] (525%N, 0%N) [KText "
          "; KElem (XE "sequence" (Some "http://www.w3.org/2001/XMLSchema") [mkAttr "minOccurs" None "0" (562%N, 1%N)] [((Some "xs"), "http://www.w3.org/2001/XMLSchema")] (562%N, 0%N) [KText "
            "; KElem (XE "element" (Some "http://www.w3.org/2001/XMLSchema") [mkAttr "name" None "role" (602%N, 1%N); mkAttr "type" None "Roles" (602%N, 2%N)] [((Some "xs"), "http://www.w3.org/2001/XMLSchema")] (602%N, 0%N) []); KText "
            "; KElem (XE "element" (Some "http://www.w3.org/2001/XMLSchema") [mkAttr "name" None "enabled" (654%N, 1%N); mkAttr "type" None "xs:boolean" (654%N, 2%N)] [((Some "xs"), "http://www.w3.org/2001/XMLSchema")] (654%N, 0%N) []); KText "
          "]); KText "
        "]); KText "
      "]); KText "
    "]); KText "
  "]); KText "
"]);
  ("tests/xsd/complex_type_attribute.xsd",
   XE "schema" (Some "http://www.w3.org/2001/XMLSchema") [] [((Some "xs"), "http://www.w3.org/2001/XMLSchema")] (22%N, 0%N) [KText "
  "; KElem (XE "element" (Some "http://www.w3.org/2001/XMLSchema") [mkAttr "name" None "article" (80%N, 1%N)] [((Some "xs"), "http://www.w3.org/2001/XMLSchema")] (80%N, 0%N) [KText "
    "; KElem (XE "complexType" (Some "http://www.w3.org/2001/XMLSchema") [] [((Some "xs"), "http://www.w3.org/2001/XMLSchema")] (112%N, 0%N) [KText "
      "; KElem (XE "annotation" (Some "http://www.w3.org/2001/XMLSchema") [] [((Some "xs"), "http://www.w3.org/2001/XMLSchema")] (135%N, 0%N) [KText "
        "; KElem (XE "documentation" (Some "http://www.w3.org/2001/XMLSchema") [] [((Some "xs"), "http://www.w3.org/2001/XMLSchema")] (159%N, 0%N) [KText "An article."]); KText "
      "]); KText "
      "; KElem (XE "sequence" (Some "http://www.w3.org/2001/XMLSchema") [] [((Some "xs"), "http://www.w3.org/2001/XMLSchema")] (237%N, 0%N) [KText "
        "; KElem (XE "element" (Some "http://www.w3.org/2001/XMLSchema") [mkAttr "name" None "excerpt" (259%N, 1%N); mkAttr "type" None "xs:string" (259%N, 2%N)] [((Some "xs"), "http://www.w3.org/2001/XMLSchema")] (259%N, 0%N) []); KText "
      "]); KText "
      "; KElem (XE "attribute" (Some "http://www.w3.org/2001/XMLSchema") [mkAttr "name" None "author" (333%N, 1%N); mkAttr "type" None "xs:string" (333%N, 2%N)] [((Some "xs"), "http://www.w3.org/2001/XMLSchema")] (333%N, 0%N) [KText "
        "; KElem (XE "annotation" (Some "http://www.w3.org/2001/XMLSchema") [] [((Some "xs"), "http://www.w3.org/2001/XMLSchema")] (387%N, 0%N) [KText "
          "; KElem (XE "documentation" (Some "http://www.w3.org/2001/XMLSchema") [] [((Some "xs"), "http://www.w3.org/2001/XMLSchema")] (413%N, 0%N) [KText "The article author."]); KText "
        "]); KText "
      "]); KText "
    "]); KText "
  "]); KText "
"]);
  ("tests/xsd/complex_type_choice.xsd",
   XE "schema" (Some "http://www.w3.org/2001/XMLSchema") [] [((Some "xs"), "http://www.w3.org/2001/XMLSchema")] (22%N, 0%N) [KText "
  "; KElem (XE "complexType" (Some "http://www.w3.org/2001/XMLSchema") [mkAttr "name" None "User" (80%N, 1%N)] [((Some "xs"), "http://www.w3.org/2001/XMLSchema")] (80%N, 0%N) [KText "
    "; KElem (XE "annotation" (Some "http://www.w3.org/2001/XMLSchema") [] [((Some "xs"), "http://www.w3.org/2001/XMLSchema")] (113%N, 0%N) [KText "
      "; KElem (XE "documentation" (Some "http://www.w3.org/2001/XMLSchema") [] [((Some "xs"), "http://www.w3.org/2001/XMLSchema")] (135%N, 0%N) [KText "An user."]); KText "
    "]); KText "
    "; KElem (XE "attribute" (Some "http://www.w3.org/2001/XMLSchema") [mkAttr "name" None "name" (206%N, 1%N); mkAttr "type" None "xs:string" (206%N, 2%N); mkAttr "use" None "required" (206%N, 3%N)] [((Some "xs"), "http://www.w3.org/2001/XMLSchema")] (206%N, 0%N) []); KText "
  "]); KText "
  "; KElem (XE "complexType" (Some "http://www.w3.org/2001/XMLSchema") [mkAttr "name" None "Bot" (289%N, 1%N)] [((Some "xs"), "http://www.w3.org/2001/XMLSchema")] (289%N, 0%N) [KText "
    "; KElem (XE "attribute" (Some "http://www.w3.org/2001/XMLSchema") [mkAttr "name" None "handle" (321%N, 1%N); mkAttr "type" None "xs:string" (321%N, 2%N); mkAttr "use" None "required" (321%N, 3%N)] [((Some "xs"), "http://www.w3.org/2001/XMLSchema")] (321%N, 0%N) []); KText "
  "]); KText "
  "; KElem (XE "complexType" (Some "http://www.w3.org/2001/XMLSchema") [mkAttr "name" None "Author" (406%N, 1%N)] [((Some "xs"), "http://www.w3.org/2001/XMLSchema")] (406%N, 0%N) [KText "
    "; KElem (XE "annotation" (Some "http://www.w3.org/2001/XMLSchema") [] [((Some "xs"), "http://www.w3.org/2001/XMLSchema")] (441%N, 0%N) [KText "
      "; KElem (XE "documentation" (Some "http://www.w3.org/2001/XMLSchema") [] [((Some "xs"), "http://www.w3.org/2001/XMLSchema")] (463%N, 0%N) [KText "An author."]); KText "
    "]); KText "
    "; KElem (XE "choice" (Some "http://www.w3.org/2001/XMLSchema") [] [((Some "xs"), "http://www.w3.org/2001/XMLSchema")] (536%N, 0%N) [KText "
      "; KElem (XE "element" (Some "http://www.w3.org/2001/XMLSchema") [mkAttr "name" None "user" (554%N, 1%N); mkAttr "type" None "User" (554%N, 2%N)] [((Some "xs"), "http://www.w3.org/2001/XMLSchema")] (554%N, 0%N) []); KText "
      "; KElem (XE "element" (Some "http://www.w3.org/2001/XMLSchema") [mkAttr "name" None "bot" (599%N, 1%N); mkAttr "type" None "Bot" (599%N, 2%N)] [((Some "xs"), "http://www.w3.org/2001/XMLSchema")] (599%N, 0%N) []); KText "
    "]); KText "
    "; KElem (XE "attribute" (Some "http://www.w3.org/2001/XMLSchema") [mkAttr "name" None "isVerified" (657%N, 1%N); mkAttr "type" None "xs:boolean" (657%N, 2%N); mkAttr "use" None "required" (657%N, 3%N)] [((Some "xs"), "http://www.w3.org/2001/XMLSchema")] (657%N, 0%N) []); KText "
  "]); KText "
  "; KElem (XE "element" (Some "http://www.w3.org/2001/XMLSchema") [mkAttr "name" None "article" (746%N, 1%N)] [((Some "xs"), "http://www.w3.org/2001/XMLSchema")] (746%N, 0%N) [KText "
    "; KElem (XE "complexType" (Some "http://www.w3.org/2001/XMLSchema") [] [((Some "xs"), "http://www.w3.org/2001/XMLSchema")] (778%N, 0%N) [KText "
      "; KElem (XE "annotation" (Some "http://www.w3.org/2001/XMLSchema") [] [((Some "xs"), "http://www.w3.org/2001/XMLSchema")] (801%N, 0%N) [KText "
        "; KElem (XE "documentation" (Some "http://www.w3.org/2001/XMLSchema") [] [((Some "xs"), "http://www.w3.org/2001/XMLSchema")] (825%N, 0%N) [KText "An article."]); KText "
      "]); KText "
      "; KElem (XE "sequence" (Some "http://www.w3.org/2001/XMLSchema") [] [((Some "xs"), "http://www.w3.org/2001/XMLSchema")] (903%N, 0%N) [KText "
        "; KElem (XE "element" (Some "http://www.w3.org/2001/XMLSchema") [mkAttr "name" None "createdBy" (925%N, 1%N); mkAttr "type" None "Author" (925%N, 2%N)] [((Some "xs"), "http://www.w3.org/2001/XMLSchema")] (925%N, 0%N) []); KText "
        "; KElem (XE "element" (Some "http://www.w3.org/2001/XMLSchema") [mkAttr "name" None "postedBy" (979%N, 1%N)] [((Some "xs"), "http://www.w3.org/2001/XMLSchema")] (979%N, 0%N) [KText "
          "; KElem (XE "complexType" (Some "http://www.w3.org/2001/XMLSchema") [] [((Some "xs"), "http://www.w3.org/2001/XMLSchema")] (1018%N, 0%N) [KText "
            "; KElem (XE "choice" (Some "http://www.w3.org/2001/XMLSchema") [] [((Some "xs"), "http://www.w3.org/2001/XMLSchema")] (1047%N, 0%N) [KText "
              "; KElem (XE "element" (Some "http://www.w3.org/2001/XMLSchema") [mkAttr "name" None "user" (1073%N, 1%N); mkAttr "type" None "User" (1073%N, 2%N)] [((Some "xs"), "http://www.w3.org/2001/XMLSchema")] (1073%N, 0%N) []); KText "
              "; KElem (XE "element" (Some "http://www.w3.org/2001/XMLSchema") [mkAttr "name" None "bot" (1126%N, 1%N); mkAttr "type" None "Bot" (1126%N, 2%N)] [((Some "xs"), "http://www.w3.org/2001/XMLSchema")] (1126%N, 0%N) []); KText "
            "]); KText "
            "; KElem (XE "attribute" (Some "http://www.w3.org/2001/XMLSchema") [mkAttr "name" None "isVerified" (1200%N, 1%N); mkAttr "type" None "xs:boolean" (1200%N, 2%N); mkAttr "use" None "required" (1200%N, 3%N)] [((Some "xs"), "http://www.w3.org/2001/XMLSchema")] (1200%N, 0%N) []); KText "
          "]); KText "
        "]); KText "
      "]); KText "
    "]); KText "
  "]); KText "
"]);
  ("tests/xsd/complex_type_fixed.xsd",
   XE "schema" (Some "http://www.w3.org/2001/XMLSchema") [] [((Some "xs"), "http://www.w3.org/2001/XMLSchema")] (22%N, 0%N) [KText "
  "; KElem (XE "element" (Some "http://www.w3.org/2001/XMLSchema") [mkAttr "name" None "meta" (80%N, 1%N)] [((Some "xs"), "http://www.w3.org/2001/XMLSchema")] (80%N, 0%N) [KText "
    "; KElem (XE "complexType" (Some "http://www.w3.org/2001/XMLSchema") [] [((Some "xs"), "http://www.w3.org/2001/XMLSchema")] (109%N, 0%N) [KText "
      "; KElem (XE "annotation" (Some "http://www.w3.org/2001/XMLSchema") [] [((Some "xs"), "http://www.w3.org/2001/XMLSchema")] (132%N, 0%N) [KText "
        "; KElem (XE "documentation" (Some "http://www.w3.org/2001/XMLSchema") [] [((Some "xs"), "http://www.w3.org/2001/XMLSchema")] (156%N, 0%N) [KText "Service information."]); KText "
      "]); KText "
      "; KElem (XE "sequence" (Some "http://www.w3.org/2001/XMLSchema") [] [((Some "xs"), "http://www.w3.org/2001/XMLSchema")] (243%N, 0%N) [KText "
        "; KElem (XE "element" (Some "http://www.w3.org/2001/XMLSchema") [mkAttr "name" None "version" (265%N, 1%N); mkAttr "type" None "xs:int" (265%N, 2%N); mkAttr "fixed" None "2" (265%N, 3%N); mkAttr "minOccurs" None "1" (265%N, 4%N)] [((Some "xs"), "http://www.w3.org/2001/XMLSchema")] (265%N, 0%N) [KText "
          "; KElem (XE "annotation" (Some "http://www.w3.org/2001/XMLSchema") [] [((Some "xs"), "http://www.w3.org/2001/XMLSchema")] (341%N, 0%N) [KText "
            "; KElem (XE "documentation" (Some "http://www.w3.org/2001/XMLSchema") [] [((Some "xs"), "http://www.w3.org/2001/XMLSchema")] (369%N, 0%N) [KText "The major version number."]); KText "
          "]); KText "
        "]); KText "
      "]); KText "
      "; KElem (XE "attribute" (Some "http://www.w3.org/2001/XMLSchema") [mkAttr "name" None "name" (508%N, 1%N); mkAttr "type" None "xs:string" (508%N, 2%N); mkAttr "fixed" None "foobar" (508%N, 3%N)] [((Some "xs"), "http://www.w3.org/2001/XMLSchema")] (508%N, 0%N) [KText "
        "; KElem (XE "annotation" (Some "http://www.w3.org/2001/XMLSchema") [] [((Some "xs"), "http://www.w3.org/2001/XMLSchema")] (575%N, 0%N) [KText "
          "; KElem (XE "documentation" (Some "http://www.w3.org/2001/XMLSchema") [] [((Some "xs"), "http://www.w3.org/2001/XMLSchema")] (601%N, 0%N) [KText "The service name."]); KText "
        "]); KText "
      "]); KText "
    "]); KText "
  "]); KText "
"]);
  ("tests/xsd/element_complex_type_sequence.xsd",
   XE "schema" (Some "http://www.w3.org/2001/XMLSchema") [] [((Some "xs"), "http://www.w3.org/2001/XMLSchema")] (22%N, 0%N) [KText "
  "; KElem (XE "element" (Some "http://www.w3.org/2001/XMLSchema") [mkAttr "name" None "article" (80%N, 1%N)] [((Some "xs"), "http://www.w3.org/2001/XMLSchema")] (80%N, 0%N) [KText "
    "; KElem (XE "annotation" (Some "http://www.w3.org/2001/XMLSchema") [] [((Some "xs"), "http://www.w3.org/2001/XMLSchema")] (112%N, 0%N) [KText "
      "; KElem (XE "documentation" (Some "http://www.w3.org/2001/XMLSchema") [] [((Some "xs"), "http://www.w3.org/2001/XMLSchema")] (134%N, 0%N) [KText "A single article."]); KText "
    "]); KText "
    "; KElem (XE "complexType" (Some "http://www.w3.org/2001/XMLSchema") [] [((Some "xs"), "http://www.w3.org/2001/XMLSchema")] (214%N, 0%N) [KText "
      "; KElem (XE "sequence" (Some "http://www.w3.org/2001/XMLSchema") [] [((Some "xs"), "http://www.w3.org/2001/XMLSchema")] (237%N, 0%N) [KText "
        "; KElem (XE "element" (Some "http://www.w3.org/2001/XMLSchema") [mkAttr "name" None "subject" (259%N, 1%N); mkAttr "type" None "xs:string" (259%N, 2%N)] [((Some "xs"), "http://www.w3.org/2001/XMLSchema")] (259%N, 0%N) []); KText "
        "; KElem (XE "element" (Some "http://www.w3.org/2001/XMLSchema") [mkAttr "name" None "body" (314%N, 1%N); mkAttr "type" None "xs:string" (314%N, 2%N)] [((Some "xs"), "http://www.w3.org/2001/XMLSchema")] (314%N, 0%N) []); KText "
        "; KElem (XE "element" (Some "http://www.w3.org/2001/XMLSchema") [mkAttr "name" None "author" (366%N, 1%N); mkAttr "type" None "xs:string" (366%N, 2%N)] [((Some "xs"), "http://www.w3.org/2001/XMLSchema")] (366%N, 0%N) []); KText "
      "]); KText "
    "]); KText "
  "]); KText "
"]);
  ("tests/xsd/element_default.xsd",
   XE "schema" (Some "http://www.w3.org/2001/XMLSchema") [] [((Some "xs"), "http://www.w3.org/2001/XMLSchema")] (22%N, 0%N) [KText "
  "; KElem (XE "element" (Some "http://www.w3.org/2001/XMLSchema") [mkAttr "name" None "settings" (80%N, 1%N)] [((Some "xs"), "http://www.w3.org/2001/XMLSchema")] (80%N, 0%N) [KText "
    "; KElem (XE "complexType" (Some "http://www.w3.org/2001/XMLSchema") [] [((Some "xs"), "http://www.w3.org/2001/XMLSchema")] (113%N, 0%N) [KText "
      "; KElem (XE "sequence" (Some "http://www.w3.org/2001/XMLSchema") [] [((Some "xs"), "http://www.w3.org/2001/XMLSchema")] (136%N, 0%N) [KText "
        "; KElem (XE "element" (Some "http://www.w3.org/2001/XMLSchema") [mkAttr "name" None "debug" (158%N, 1%N); mkAttr "type" None "xs:boolean" (158%N, 2%N); mkAttr "minOccurs" None "0" (158%N, 3%N); mkAttr "default" None "false" (158%N, 4%N)] [((Some "xs"), "http://www.w3.org/2001/XMLSchema")] (158%N, 0%N) []); KText "
      "]); KText "
    "]); KText "
  "]); KText "
"]);
  ("tests/xsd/element_fixed.xsd",
   XE "schema" (Some "http://www.w3.org/2001/XMLSchema") [] [((Some "xs"), "http://www.w3.org/2001/XMLSchema")] (22%N, 0%N) [KText "
  "; KElem (XE "element" (Some "http://www.w3.org/2001/XMLSchema") [mkAttr "name" None "name" (80%N, 1%N); mkAttr "type" None "xs:string" (80%N, 2%N); mkAttr "fixed" None "foobar" (80%N, 3%N)] [((Some "xs"), "http://www.w3.org/2001/XMLSchema")] (80%N, 0%N) [KText "
    "; KElem (XE "annotation" (Some "http://www.w3.org/2001/XMLSchema") [] [((Some "xs"), "http://www.w3.org/2001/XMLSchema")] (141%N, 0%N) [KText "
      "; KElem (XE "documentation" (Some "http://www.w3.org/2001/XMLSchema") [] [((Some "xs"), "http://www.w3.org/2001/XMLSchema")] (163%N, 0%N) [KText "The service name."]); KText "
    "]); KText "
  "]); KText "
  "; KOther " <xs:complexType name=""version"">
    <xs:annotation>
      <xs:documentation>The service version.</xs:documentation>
    </xs:annotation>
    <xs:sequence>
      <xs:element name=""major"" type=""xs:int"" fixed=""2"" minOccurs=""1"">
        <xs:annotation>
          <xs:documentation>Majore version number.</xs:documentation>
        </xs:annotation>
      </xs:element>
    </xs:sequence>
  </xs:complexType> "; KText "
"]);
  ("tests/xsd/element_nested.xsd",
   XE "schema" (Some "http://www.w3.org/2001/XMLSchema") [] [((Some "xs"), "http://www.w3.org/2001/XMLSchema")] (22%N, 0%N) [KText "
  "; KElem (XE "element" (Some "http://www.w3.org/2001/XMLSchema") [mkAttr "name" None "article" (80%N, 1%N)] [((Some "xs"), "http://www.w3.org/2001/XMLSchema")] (80%N, 0%N) [KText "
    "; KElem (XE "complexType" (Some "http://www.w3.org/2001/XMLSchema") [] [((Some "xs"), "http://www.w3.org/2001/XMLSchema")] (112%N, 0%N) [KText "
      "; KElem (XE "sequence" (Some "http://www.w3.org/2001/XMLSchema") [] [((Some "xs"), "http://www.w3.org/2001/XMLSchema")] (135%N, 0%N) [KText "
        "; KElem (XE "element" (Some "http://www.w3.org/2001/XMLSchema") [mkAttr "name" None "excerpt" (157%N, 1%N); mkAttr "type" None "xs:string" (157%N, 2%N)] [((Some "xs"), "http://www.w3.org/2001/XMLSchema")] (157%N, 0%N) []); KText "
        "; KElem (XE "element" (Some "http://www.w3.org/2001/XMLSchema") [mkAttr "name" None "author" (212%N, 1%N)] [((Some "xs"), "http://www.w3.org/2001/XMLSchema")] (212%N, 0%N) [KText "
          "; KElem (XE "complexType" (Some "http://www.w3.org/2001/XMLSchema") [] [((Some "xs"), "http://www.w3.org/2001/XMLSchema")] (249%N, 0%N) [KText "
            "; KElem (XE "sequence" (Some "http://www.w3.org/2001/XMLSchema") [] [((Some "xs"), "http://www.w3.org/2001/XMLSchema")] (278%N, 0%N) [KText "
              "; KElem (XE "element" (Some "http://www.w3.org/2001/XMLSchema") [mkAttr "name" None "name" (306%N, 1%N); mkAttr "type" None "xs:string" (306%N, 2%N)] [((Some "xs"), "http://www.w3.org/2001/XMLSchema")] (306%N, 0%N) []); KText "
            "]); KText "
          "]); KText "
        "]); KText "
      "]); KText "
    "]); KText "
  "]); KText "
"]);
  ("tests/xsd/element_nested_attribute.xsd",
   XE "schema" (Some "http://www.w3.org/2001/XMLSchema") [] [((Some "xs"), "http://www.w3.org/2001/XMLSchema")] (22%N, 0%N) [KText "
  "; KElem (XE "element" (Some "http://www.w3.org/2001/XMLSchema") [mkAttr "name" None "article" (80%N, 1%N)] [((Some "xs"), "http://www.w3.org/2001/XMLSchema")] (80%N, 0%N) [KText "
    "; KElem (XE "complexType" (Some "http://www.w3.org/2001/XMLSchema") [] [((Some "xs"), "http://www.w3.org/2001/XMLSchema")] (112%N, 0%N) [KText "
      "; KElem (XE "sequence" (Some "http://www.w3.org/2001/XMLSchema") [] [((Some "xs"), "http://www.w3.org/2001/XMLSchema")] (135%N, 0%N) [KText "
        "; KElem (XE "element" (Some "http://www.w3.org/2001/XMLSchema") [mkAttr "name" None "excerpt" (157%N, 1%N); mkAttr "type" None "xs:string" (157%N, 2%N)] [((Some "xs"), "http://www.w3.org/2001/XMLSchema")] (157%N, 0%N) []); KText "
        "; KElem (XE "element" (Some "http://www.w3.org/2001/XMLSchema") [mkAttr "name" None "author" (212%N, 1%N)] [((Some "xs"), "http://www.w3.org/2001/XMLSchema")] (212%N, 0%N) [KText "
          "; KElem (XE "complexType" (Some "http://www.w3.org/2001/XMLSchema") [] [((Some "xs"), "http://www.w3.org/2001/XMLSchema")] (249%N, 0%N) [KText "
            "; KElem (XE "sequence" (Some "http://www.w3.org/2001/XMLSchema") [] [((Some "xs"), "http://www.w3.org/2001/XMLSchema")] (278%N, 0%N) [KText "
              "; KElem (XE "element" (Some "http://www.w3.org/2001/XMLSchema") [mkAttr "name" None "name" (306%N, 1%N); mkAttr "type" None "xs:string" (306%N, 2%N)] [((Some "xs"), "http://www.w3.org/2001/XMLSchema")] (306%N, 0%N) []); KText "
            "]); KText "
            "; KElem (XE "attribute" (Some "http://www.w3.org/2001/XMLSchema") [mkAttr "name" None "id" (389%N, 1%N); mkAttr "type" None "xs:long" (389%N, 2%N)] [((Some "xs"), "http://www.w3.org/2001/XMLSchema")] (389%N, 0%N) []); KText "
          "]); KText "
        "]); KText "
      "]); KText "
    "]); KText "
  "]); KText "
"]);
  ("tests/xsd/element_optional.xsd",
   XE "schema" (Some "http://www.w3.org/2001/XMLSchema") [] [((Some "xs"), "http://www.w3.org/2001/XMLSchema")] (22%N, 0%N) [KText "
  "; KElem (XE "element" (Some "http://www.w3.org/2001/XMLSchema") [mkAttr "name" None "settings" (80%N, 1%N)] [((Some "xs"), "http://www.w3.org/2001/XMLSchema")] (80%N, 0%N) [KText "
    "; KElem (XE "complexType" (Some "http://www.w3.org/2001/XMLSchema") [] [((Some "xs"), "http://www.w3.org/2001/XMLSchema")] (113%N, 0%N) [KText "
      "; KElem (XE "sequence" (Some "http://www.w3.org/2001/XMLSchema") [] [((Some "xs"), "http://www.w3.org/2001/XMLSchema")] (136%N, 0%N) [KText "
        "; KElem (XE "element" (Some "http://www.w3.org/2001/XMLSchema") [mkAttr "name" None "debug" (158%N, 1%N); mkAttr "type" None "xs:boolean" (158%N, 2%N); mkAttr "minOccurs" None "0" (158%N, 3%N)] [((Some "xs"), "http://www.w3.org/2001/XMLSchema")] (158%N, 0%N) []); KText "
      "]); KText "
    "]); KText "
  "]); KText "
"]);
  ("tests/xsd/element_optional_vec.xsd",
   XE "schema" (Some "http://www.w3.org/2001/XMLSchema") [] [((Some "xs"), "http://www.w3.org/2001/XMLSchema")] (22%N, 0%N) [KText "
  "; KElem (XE "element" (Some "http://www.w3.org/2001/XMLSchema") [mkAttr "name" None "list" (80%N, 1%N)] [((Some "xs"), "http://www.w3.org/2001/XMLSchema")] (80%N, 0%N) [KText "
    "; KElem (XE "complexType" (Some "http://www.w3.org/2001/XMLSchema") [] [((Some "xs"), "http://www.w3.org/2001/XMLSchema")] (109%N, 0%N) [KText "
      "; KElem (XE "sequence" (Some "http://www.w3.org/2001/XMLSchema") [] [((Some "xs"), "http://www.w3.org/2001/XMLSchema")] (132%N, 0%N) [KText "
        "; KElem (XE "element" (Some "http://www.w3.org/2001/XMLSchema") [mkAttr "name" None "id" (154%N, 1%N); mkAttr "type" None "xs:long" (154%N, 2%N); mkAttr "minOccurs" None "0" (154%N, 3%N); mkAttr "maxOccurs" None "unbounded" (154%N, 4%N)] [((Some "xs"), "http://www.w3.org/2001/XMLSchema")] (154%N, 0%N) []); KText "
      "]); KText "
    "]); KText "
  "]); KText "
"]);
  ("tests/xsd/element_ref.xsd",
   XE "schema" (Some "http://www.w3.org/2001/XMLSchema") [mkAttr "elementFormDefault" None "qualified" (39%N, 1%N); mkAttr "targetNamespace" None "urn:main" (39%N, 2%N)] [((Some "xs"), "http://www.w3.org/2001/XMLSchema"); ((Some "main"), "urn:main"); ((Some "base"), "urn:base")] (39%N, 0%N) [KText "
	"; KElem (XE "import" (Some "http://www.w3.org/2001/XMLSchema") [mkAttr "namespace" None "urn:base" (198%N, 1%N); mkAttr "schemaLocation" None "./element_ref_other.xsd" (198%N, 2%N)] [((Some "xs"), "http://www.w3.org/2001/XMLSchema"); ((Some "main"), "urn:main"); ((Some "base"), "urn:base")] (198%N, 0%N) []); KText "
  "; KElem (XE "complexType" (Some "http://www.w3.org/2001/XMLSchema") [mkAttr "name" None "ArticleType" (275%N, 1%N)] [((Some "xs"), "http://www.w3.org/2001/XMLSchema"); ((Some "main"), "urn:main"); ((Some "base"), "urn:base")] (275%N, 0%N) [KText "
    "; KElem (XE "sequence" (Some "http://www.w3.org/2001/XMLSchema") [] [((Some "xs"), "http://www.w3.org/2001/XMLSchema"); ((Some "main"), "urn:main"); ((Some "base"), "urn:base")] (315%N, 0%N) [KText "
      "; KElem (XE "element" (Some "http://www.w3.org/2001/XMLSchema") [mkAttr "ref" None "base:content" (335%N, 1%N); mkAttr "minOccurs" None "0" (335%N, 2%N); mkAttr "maxOccurs" None "1" (335%N, 3%N)] [((Some "xs"), "http://www.w3.org/2001/XMLSchema"); ((Some "main"), "urn:main"); ((Some "base"), "urn:base")] (335%N, 0%N) []); KText "
      "; KElem (XE "element" (Some "http://www.w3.org/2001/XMLSchema") [mkAttr "ref" None "main:author" (403%N, 1%N)] [((Some "xs"), "http://www.w3.org/2001/XMLSchema"); ((Some "main"), "urn:main"); ((Some "base"), "urn:base")] (403%N, 0%N) []); KText "
    "]); KText "
  "]); KText "
  "; KElem (XE "element" (Some "http://www.w3.org/2001/XMLSchema") [mkAttr "name" None "article" (477%N, 1%N); mkAttr "type" None "main:ArticleType" (477%N, 2%N)] [((Some "xs"), "http://www.w3.org/2001/XMLSchema"); ((Some "main"), "urn:main"); ((Some "base"), "urn:base")] (477%N, 0%N) []); KText "
  "; KElem (XE "element" (Some "http://www.w3.org/2001/XMLSchema") [mkAttr "name" None "author" (533%N, 1%N); mkAttr "type" None "xs:string" (533%N, 2%N)] [((Some "xs"), "http://www.w3.org/2001/XMLSchema"); ((Some "main"), "urn:main"); ((Some "base"), "urn:base")] (533%N, 0%N) []); KText "
"]);
  ("tests/xsd/element_ref_element.xsd",
   XE "schema" (Some "http://www.w3.org/2001/XMLSchema") [mkAttr "elementFormDefault" None "qualified" (39%N, 1%N); mkAttr "targetNamespace" None "urn:main" (39%N, 2%N)] [((Some "xs"), "http://www.w3.org/2001/XMLSchema"); ((Some "main"), "urn:main")] (39%N, 0%N) [KText "
  "; KElem (XE "element" (Some "http://www.w3.org/2001/XMLSchema") [mkAttr "name" None "service" (177%N, 1%N)] [((Some "xs"), "http://www.w3.org/2001/XMLSchema"); ((Some "main"), "urn:main")] (177%N, 0%N) [KText "
    "; KElem (XE "complexType" (Some "http://www.w3.org/2001/XMLSchema") [] [((Some "xs"), "http://www.w3.org/2001/XMLSchema"); ((Some "main"), "urn:main")] (209%N, 0%N) [KText "
      "; KElem (XE "sequence" (Some "http://www.w3.org/2001/XMLSchema") [] [((Some "xs"), "http://www.w3.org/2001/XMLSchema"); ((Some "main"), "urn:main")] (232%N, 0%N) [KText "
        "; KElem (XE "element" (Some "http://www.w3.org/2001/XMLSchema") [mkAttr "ref" None "main:versionNumber" (254%N, 1%N)] [((Some "xs"), "http://www.w3.org/2001/XMLSchema"); ((Some "main"), "urn:main")] (254%N, 0%N) []); KText "
      "]); KText "
    "]); KText "
  "]); KText "
  "; KElem (XE "element" (Some "http://www.w3.org/2001/XMLSchema") [mkAttr "name" None "versionNumber" (355%N, 1%N)] [((Some "xs"), "http://www.w3.org/2001/XMLSchema"); ((Some "main"), "urn:main")] (355%N, 0%N) [KText "
		"; KElem (XE "complexType" (Some "http://www.w3.org/2001/XMLSchema") [] [((Some "xs"), "http://www.w3.org/2001/XMLSchema"); ((Some "main"), "urn:main")] (391%N, 0%N) [KText "
			"; KElem (XE "sequence" (Some "http://www.w3.org/2001/XMLSchema") [] [((Some "xs"), "http://www.w3.org/2001/XMLSchema"); ((Some "main"), "urn:main")] (411%N, 0%N) [KText "
				"; KElem (XE "element" (Some "http://www.w3.org/2001/XMLSchema") [mkAttr "name" None "major" (429%N, 1%N); mkAttr "type" None "xs:int" (429%N, 2%N)] [((Some "xs"), "http://www.w3.org/2001/XMLSchema"); ((Some "main"), "urn:main")] (429%N, 0%N) []); KText "
				"; KElem (XE "element" (Some "http://www.w3.org/2001/XMLSchema") [mkAttr "name" None "minor" (475%N, 1%N); mkAttr "type" None "xs:int" (475%N, 2%N)] [((Some "xs"), "http://www.w3.org/2001/XMLSchema"); ((Some "main"), "urn:main")] (475%N, 0%N) []); KText "
				"; KElem (XE "element" (Some "http://www.w3.org/2001/XMLSchema") [mkAttr "name" None "bug" (521%N, 1%N); mkAttr "type" None "xs:int" (521%N, 2%N)] [((Some "xs"), "http://www.w3.org/2001/XMLSchema"); ((Some "main"), "urn:main")] (521%N, 0%N) []); KText "
			"]); KText "
		"]); KText "
	"]); KText "
"]);
  ("tests/xsd/element_ref_other.xsd",
   XE "schema" (Some "http://www.w3.org/2001/XMLSchema") [mkAttr "elementFormDefault" None "qualified" (22%N, 1%N); mkAttr "targetNamespace" None "urn:base" (22%N, 2%N)] [((Some "xs"), "http://www.w3.org/2001/XMLSchema"); ((Some "base"), "urn:base")] (22%N, 0%N) [KText "
  "; KElem (XE "element" (Some "http://www.w3.org/2001/XMLSchema") [mkAttr "name" None "content" (160%N, 1%N); mkAttr "type" None "base:ArticleContent" (160%N, 2%N)] [((Some "xs"), "http://www.w3.org/2001/XMLSchema"); ((Some "base"), "urn:base")] (160%N, 0%N) []); KText "
  "; KElem (XE "complexType" (Some "http://www.w3.org/2001/XMLSchema") [mkAttr "name" None "ArticleContent" (219%N, 1%N)] [((Some "xs"), "http://www.w3.org/2001/XMLSchema"); ((Some "base"), "urn:base")] (219%N, 0%N) [KText "
    "; KElem (XE "sequence" (Some "http://www.w3.org/2001/XMLSchema") [] [((Some "xs"), "http://www.w3.org/2001/XMLSchema"); ((Some "base"), "urn:base")] (262%N, 0%N) [KText "
      "; KElem (XE "element" (Some "http://www.w3.org/2001/XMLSchema") [mkAttr "name" None "excerpt" (282%N, 1%N); mkAttr "type" None "xs:string" (282%N, 2%N)] [((Some "xs"), "http://www.w3.org/2001/XMLSchema"); ((Some "base"), "urn:base")] (282%N, 0%N) []); KText "
    "]); KText "
  "]); KText "
"]);
  ("tests/xsd/element_ref_type.xsd",
   XE "schema" (Some "http://www.w3.org/2001/XMLSchema") [] [((Some "xs"), "http://www.w3.org/2001/XMLSchema"); ((Some "main"), "urn:main")] (22%N, 0%N) [KText "
	"; KElem (XE "simpleType" (Some "http://www.w3.org/2001/XMLSchema") [mkAttr "name" None "ZipType" (101%N, 1%N)] [((Some "xs"), "http://www.w3.org/2001/XMLSchema"); ((Some "main"), "urn:main")] (101%N, 0%N) [KText "
		"; KElem (XE "restriction" (Some "http://www.w3.org/2001/XMLSchema") [mkAttr "base" None "xs:string" (134%N, 1%N)] [((Some "xs"), "http://www.w3.org/2001/XMLSchema"); ((Some "main"), "urn:main")] (134%N, 0%N) [KText "
      "; KElem (XE "minLength" (Some "http://www.w3.org/2001/XMLSchema") [mkAttr "value" None "5" (174%N, 1%N)] [((Some "xs"), "http://www.w3.org/2001/XMLSchema"); ((Some "main"), "urn:main")] (174%N, 0%N) []); KText "
      "; KElem (XE "maxLength" (Some "http://www.w3.org/2001/XMLSchema") [mkAttr "value" None "5" (206%N, 1%N)] [((Some "xs"), "http://www.w3.org/2001/XMLSchema"); ((Some "main"), "urn:main")] (206%N, 0%N) []); KText "
      "; KElem (XE "pattern" (Some "http://www.w3.org/2001/XMLSchema") [mkAttr "value" None "[0-9]{5}" (238%N, 1%N)] [((Some "xs"), "http://www.w3.org/2001/XMLSchema"); ((Some "main"), "urn:main")] (238%N, 0%N) []); KText "
		"]); KText "
	"]); KText "
	"; KElem (XE "element" (Some "http://www.w3.org/2001/XMLSchema") [mkAttr "name" None "zip" (308%N, 1%N); mkAttr "type" None "ZipType" (308%N, 2%N)] [((Some "xs"), "http://www.w3.org/2001/XMLSchema"); ((Some "main"), "urn:main")] (308%N, 0%N) []); KText "
  "; KElem (XE "element" (Some "http://www.w3.org/2001/XMLSchema") [mkAttr "name" None "address" (350%N, 1%N)] [((Some "xs"), "http://www.w3.org/2001/XMLSchema"); ((Some "main"), "urn:main")] (350%N, 0%N) [KText "
    "; KElem (XE "complexType" (Some "http://www.w3.org/2001/XMLSchema") [] [((Some "xs"), "http://www.w3.org/2001/XMLSchema"); ((Some "main"), "urn:main")] (382%N, 0%N) [KText "
      "; KElem (XE "sequence" (Some "http://www.w3.org/2001/XMLSchema") [] [((Some "xs"), "http://www.w3.org/2001/XMLSchema"); ((Some "main"), "urn:main")] (405%N, 0%N) [KText "
        "; KElem (XE "element" (Some "http://www.w3.org/2001/XMLSchema") [mkAttr "ref" None "zip" (427%N, 1%N)] [((Some "xs"), "http://www.w3.org/2001/XMLSchema"); ((Some "main"), "urn:main")] (427%N, 0%N) []); KText "
      "]); KText "
    "]); KText "
  "]); KText "
"]);
  ("tests/xsd/element_simple_type.xsd",
   XE "schema" (Some "http://www.w3.org/2001/XMLSchema") [] [((Some "xs"), "http://www.w3.org/2001/XMLSchema")] (22%N, 0%N) [KText "
  "; KElem (XE "element" (Some "http://www.w3.org/2001/XMLSchema") [mkAttr "name" None "count" (80%N, 1%N)] [((Some "xs"), "http://www.w3.org/2001/XMLSchema")] (80%N, 0%N) [KText "
    "; KElem (XE "simpleType" (Some "http://www.w3.org/2001/XMLSchema") [] [((Some "xs"), "http://www.w3.org/2001/XMLSchema")] (110%N, 0%N) [KText "
      "; KElem (XE "restriction" (Some "http://www.w3.org/2001/XMLSchema") [mkAttr "base" None "xs:integer" (132%N, 1%N)] [((Some "xs"), "http://www.w3.org/2001/XMLSchema")] (132%N, 0%N) []); KText "
    "]); KText "
  "]); KText "
"]);
  ("tests/xsd/element_type_complex.xsd",
   XE "schema" (Some "http://www.w3.org/2001/XMLSchema") [] [((Some "xs"), "http://www.w3.org/2001/XMLSchema")] (22%N, 0%N) [KText "
  "; KElem (XE "element" (Some "http://www.w3.org/2001/XMLSchema") [mkAttr "name" None "article" (80%N, 1%N)] [((Some "xs"), "http://www.w3.org/2001/XMLSchema")] (80%N, 0%N) [KText "
    "; KElem (XE "complexType" (Some "http://www.w3.org/2001/XMLSchema") [] [((Some "xs"), "http://www.w3.org/2001/XMLSchema")] (112%N, 0%N) [KText "
      "; KElem (XE "sequence" (Some "http://www.w3.org/2001/XMLSchema") [] [((Some "xs"), "http://www.w3.org/2001/XMLSchema")] (135%N, 0%N) [KText "
        "; KElem (XE "element" (Some "http://www.w3.org/2001/XMLSchema") [mkAttr "name" None "excerpt" (157%N, 1%N); mkAttr "type" None "xs:string" (157%N, 2%N)] [((Some "xs"), "http://www.w3.org/2001/XMLSchema")] (157%N, 0%N) []); KText "
        "; KElem (XE "element" (Some "http://www.w3.org/2001/XMLSchema") [mkAttr "name" None "author" (212%N, 1%N); mkAttr "type" None "author" (212%N, 2%N)] [((Some "xs"), "http://www.w3.org/2001/XMLSchema")] (212%N, 0%N) []); KText "
      "]); KText "
    "]); KText "
  "]); KText "
  "; KElem (XE "complexType" (Some "http://www.w3.org/2001/XMLSchema") [mkAttr "name" None "author" (316%N, 1%N)] [((Some "xs"), "http://www.w3.org/2001/XMLSchema")] (316%N, 0%N) [KText "
    "; KElem (XE "sequence" (Some "http://www.w3.org/2001/XMLSchema") [] [((Some "xs"), "http://www.w3.org/2001/XMLSchema")] (351%N, 0%N) [KText "
      "; KElem (XE "element" (Some "http://www.w3.org/2001/XMLSchema") [mkAttr "name" None "name" (371%N, 1%N); mkAttr "type" None "xs:string" (371%N, 2%N)] [((Some "xs"), "http://www.w3.org/2001/XMLSchema")] (371%N, 0%N) []); KText "
    "]); KText "
  "]); KText "
"]);
  ("tests/xsd/element_type_literal.xsd",
   XE "schema" (Some "http://www.w3.org/2001/XMLSchema") [] [((Some "xs"), "http://www.w3.org/2001/XMLSchema")] (22%N, 0%N) [KText "
  "; KElem (XE "element" (Some "http://www.w3.org/2001/XMLSchema") [mkAttr "name" None "Name" (80%N, 1%N); mkAttr "type" None "xs:string" (80%N, 2%N)] [((Some "xs"), "http://www.w3.org/2001/XMLSchema")] (80%N, 0%N) []); KText "
"]);
  ("tests/xsd/element_vec.xsd",
   XE "schema" (Some "http://www.w3.org/2001/XMLSchema") [] [((Some "xs"), "http://www.w3.org/2001/XMLSchema")] (22%N, 0%N) [KText "
  "; KElem (XE "element" (Some "http://www.w3.org/2001/XMLSchema") [mkAttr "name" None "list" (80%N, 1%N)] [((Some "xs"), "http://www.w3.org/2001/XMLSchema")] (80%N, 0%N) [KText "
    "; KElem (XE "complexType" (Some "http://www.w3.org/2001/XMLSchema") [] [((Some "xs"), "http://www.w3.org/2001/XMLSchema")] (109%N, 0%N) [KText "
      "; KElem (XE "sequence" (Some "http://www.w3.org/2001/XMLSchema") [] [((Some "xs"), "http://www.w3.org/2001/XMLSchema")] (132%N, 0%N) [KText "
        "; KElem (XE "element" (Some "http://www.w3.org/2001/XMLSchema") [mkAttr "name" None "id" (154%N, 1%N); mkAttr "type" None "xs:long" (154%N, 2%N); mkAttr "maxOccurs" None "unbounded" (154%N, 3%N)] [((Some "xs"), "http://www.w3.org/2001/XMLSchema")] (154%N, 0%N) []); KText "
      "]); KText "
    "]); KText "
  "]); KText "
"]);
  ("tests/xsd/enum_attribute.xsd",
   XE "schema" (Some "http://www.w3.org/2001/XMLSchema") [] [((Some "xs"), "http://www.w3.org/2001/XMLSchema")] (22%N, 0%N) [KText "
  "; KElem (XE "simpleType" (Some "http://www.w3.org/2001/XMLSchema") [mkAttr "name" None "ArticleState" (80%N, 1%N)] [((Some "xs"), "http://www.w3.org/2001/XMLSchema")] (80%N, 0%N) [KText "
    "; KElem (XE "restriction" (Some "http://www.w3.org/2001/XMLSchema") [mkAttr "base" None "xs:string" (120%N, 1%N)] [((Some "xs"), "http://www.w3.org/2001/XMLSchema")] (120%N, 0%N) [KText "
      "; KElem (XE "enumeration" (Some "http://www.w3.org/2001/XMLSchema") [mkAttr "value" None "DRAFT" (160%N, 1%N)] [((Some "xs"), "http://www.w3.org/2001/XMLSchema")] (160%N, 0%N) []); KText "
      "; KElem (XE "enumeration" (Some "http://www.w3.org/2001/XMLSchema") [mkAttr "value" None "PUBLISHED" (198%N, 1%N)] [((Some "xs"), "http://www.w3.org/2001/XMLSchema")] (198%N, 0%N) []); KText "
    "]); KText "
  "]); KText "
  "; KElem (XE "element" (Some "http://www.w3.org/2001/XMLSchema") [mkAttr "name" None "article" (277%N, 1%N)] [((Some "xs"), "http://www.w3.org/2001/XMLSchema")] (277%N, 0%N) [KText "
    "; KElem (XE "complexType" (Some "http://www.w3.org/2001/XMLSchema") [] [((Some "xs"), "http://www.w3.org/2001/XMLSchema")] (309%N, 0%N) [KText "
      "; KElem (XE "attribute" (Some "http://www.w3.org/2001/XMLSchema") [mkAttr "name" None "state" (332%N, 1%N); mkAttr "type" None "ArticleState" (332%N, 2%N)] [((Some "xs"), "http://www.w3.org/2001/XMLSchema")] (332%N, 0%N) []); KText "
    "]); KText "
  "]); KText "
"]);
  ("tests/xsd/enum_literal.xsd",
   XE "schema" (Some "http://www.w3.org/2001/XMLSchema") [] [((Some "xs"), "http://www.w3.org/2001/XMLSchema")] (22%N, 0%N) [KText "
  "; KElem (XE "simpleType" (Some "http://www.w3.org/2001/XMLSchema") [mkAttr "name" None "OrderState" (80%N, 1%N)] [((Some "xs"), "http://www.w3.org/2001/XMLSchema")] (80%N, 0%N) [KText "
    "; KElem (XE "restriction" (Some "http://www.w3.org/2001/XMLSchema") [mkAttr "base" None "xs:string" (118%N, 1%N)] [((Some "xs"), "http://www.w3.org/2001/XMLSchema")] (118%N, 0%N) [KText "
      "; KElem (XE "enumeration" (Some "http://www.w3.org/2001/XMLSchema") [mkAttr "value" None "PENDING" (158%N, 1%N)] [((Some "xs"), "http://www.w3.org/2001/XMLSchema")] (158%N, 0%N) []); KText "
      "; KElem (XE "enumeration" (Some "http://www.w3.org/2001/XMLSchema") [mkAttr "value" None "READY" (198%N, 1%N)] [((Some "xs"), "http://www.w3.org/2001/XMLSchema")] (198%N, 0%N) []); KText "
    "]); KText "
  "]); KText "
  "; KElem (XE "element" (Some "http://www.w3.org/2001/XMLSchema") [mkAttr "name" None "order" (273%N, 1%N)] [((Some "xs"), "http://www.w3.org/2001/XMLSchema")] (273%N, 0%N) [KText "
    "; KElem (XE "complexType" (Some "http://www.w3.org/2001/XMLSchema") [] [((Some "xs"), "http://www.w3.org/2001/XMLSchema")] (303%N, 0%N) [KText "
      "; KElem (XE "sequence" (Some "http://www.w3.org/2001/XMLSchema") [] [((Some "xs"), "http://www.w3.org/2001/XMLSchema")] (326%N, 0%N) [KText "
        "; KElem (XE "element" (Some "http://www.w3.org/2001/XMLSchema") [mkAttr "name" None "state" (348%N, 1%N); mkAttr "type" None "OrderState" (348%N, 2%N)] [((Some "xs"), "http://www.w3.org/2001/XMLSchema")] (348%N, 0%N) []); KText "
      "]); KText "
    "]); KText "
  "]); KText "
"]);
  ("tests/xsd/enum_literal_root.xsd",
   XE "schema" (Some "http://www.w3.org/2001/XMLSchema") [] [((Some "xs"), "http://www.w3.org/2001/XMLSchema")] (22%N, 0%N) [KText "
  "; KElem (XE "simpleType" (Some "http://www.w3.org/2001/XMLSchema") [mkAttr "name" None "StateType" (80%N, 1%N)] [((Some "xs"), "http://www.w3.org/2001/XMLSchema")] (80%N, 0%N) [KText "
    "; KElem (XE "restriction" (Some "http://www.w3.org/2001/XMLSchema") [mkAttr "base" None "xs:string" (117%N, 1%N)] [((Some "xs"), "http://www.w3.org/2001/XMLSchema")] (117%N, 0%N) [KText "
      "; KElem (XE "enumeration" (Some "http://www.w3.org/2001/XMLSchema") [mkAttr "value" None "PENDING" (157%N, 1%N)] [((Some "xs"), "http://www.w3.org/2001/XMLSchema")] (157%N, 0%N) []); KText "
      "; KElem (XE "enumeration" (Some "http://www.w3.org/2001/XMLSchema") [mkAttr "value" None "READY" (197%N, 1%N)] [((Some "xs"), "http://www.w3.org/2001/XMLSchema")] (197%N, 0%N) []); KText "
    "]); KText "
  "]); KText "
  "; KElem (XE "element" (Some "http://www.w3.org/2001/XMLSchema") [mkAttr "name" None "state" (272%N, 1%N); mkAttr "type" None "StateType" (272%N, 2%N)] [((Some "xs"), "http://www.w3.org/2001/XMLSchema")] (272%N, 0%N) []); KText "
"]);
  ("tests/xsd/form_qualified.xsd",
   XE "schema" (Some "http://www.w3.org/2001/XMLSchema") [mkAttr "elementFormDefault" None "qualified" (22%N, 1%N)] [((Some "xs"), "http://www.w3.org/2001/XMLSchema")] (22%N, 0%N) [KText "
  "; KElem (XE "element" (Some "http://www.w3.org/2001/XMLSchema") [mkAttr "name" None "article" (111%N, 1%N)] [((Some "xs"), "http://www.w3.org/2001/XMLSchema")] (111%N, 0%N) [KText "
    "; KElem (XE "complexType" (Some "http://www.w3.org/2001/XMLSchema") [] [((Some "xs"), "http://www.w3.org/2001/XMLSchema")] (143%N, 0%N) [KText "
      "; KElem (XE "sequence" (Some "http://www.w3.org/2001/XMLSchema") [] [((Some "xs"), "http://www.w3.org/2001/XMLSchema")] (166%N, 0%N) [KText "
        "; KElem (XE "element" (Some "http://www.w3.org/2001/XMLSchema") [mkAttr "name" None "excerpt" (188%N, 1%N); mkAttr "type" None "xs:string" (188%N, 2%N)] [((Some "xs"), "http://www.w3.org/2001/XMLSchema")] (188%N, 0%N) []); KText "
        "; KElem (XE "element" (Some "http://www.w3.org/2001/XMLSchema") [mkAttr "name" None "author" (243%N, 1%N)] [((Some "xs"), "http://www.w3.org/2001/XMLSchema")] (243%N, 0%N) [KText "
          "; KElem (XE "complexType" (Some "http://www.w3.org/2001/XMLSchema") [] [((Some "xs"), "http://www.w3.org/2001/XMLSchema")] (280%N, 0%N) [KText "
            "; KElem (XE "sequence" (Some "http://www.w3.org/2001/XMLSchema") [] [((Some "xs"), "http://www.w3.org/2001/XMLSchema")] (309%N, 0%N) [KText "
              "; KElem (XE "element" (Some "http://www.w3.org/2001/XMLSchema") [mkAttr "name" None "name" (337%N, 1%N); mkAttr "type" None "xs:string" (337%N, 2%N)] [((Some "xs"), "http://www.w3.org/2001/XMLSchema")] (337%N, 0%N) []); KText "
            "]); KText "
          "]); KText "
        "]); KText "
      "]); KText "
    "]); KText "
  "]); KText "
"]);
  ("tests/xsd/form_qualified_with_target_namespace.xsd",
   XE "schema" (Some "http://www.w3.org/2001/XMLSchema") [mkAttr "elementFormDefault" None "qualified" (22%N, 1%N); mkAttr "targetNamespace" None "urn:foobar" (22%N, 2%N)] [((Some "xs"), "http://www.w3.org/2001/XMLSchema")] (22%N, 0%N) [KText "
  "; KElem (XE "element" (Some "http://www.w3.org/2001/XMLSchema") [mkAttr "name" None "article" (140%N, 1%N)] [((Some "xs"), "http://www.w3.org/2001/XMLSchema")] (140%N, 0%N) [KText "
    "; KElem (XE "complexType" (Some "http://www.w3.org/2001/XMLSchema") [] [((Some "xs"), "http://www.w3.org/2001/XMLSchema")] (172%N, 0%N) [KText "
      "; KElem (XE "sequence" (Some "http://www.w3.org/2001/XMLSchema") [] [((Some "xs"), "http://www.w3.org/2001/XMLSchema")] (195%N, 0%N) [KText "
        "; KElem (XE "element" (Some "http://www.w3.org/2001/XMLSchema") [mkAttr "name" None "excerpt" (217%N, 1%N); mkAttr "type" None "xs:string" (217%N, 2%N)] [((Some "xs"), "http://www.w3.org/2001/XMLSchema")] (217%N, 0%N) []); KText "
        "; KElem (XE "element" (Some "http://www.w3.org/2001/XMLSchema") [mkAttr "name" None "author" (272%N, 1%N)] [((Some "xs"), "http://www.w3.org/2001/XMLSchema")] (272%N, 0%N) [KText "
          "; KElem (XE "complexType" (Some "http://www.w3.org/2001/XMLSchema") [] [((Some "xs"), "http://www.w3.org/2001/XMLSchema")] (309%N, 0%N) [KText "
            "; KElem (XE "sequence" (Some "http://www.w3.org/2001/XMLSchema") [] [((Some "xs"), "http://www.w3.org/2001/XMLSchema")] (338%N, 0%N) [KText "
              "; KElem (XE "element" (Some "http://www.w3.org/2001/XMLSchema") [mkAttr "name" None "name" (366%N, 1%N); mkAttr "type" None "xs:string" (366%N, 2%N)] [((Some "xs"), "http://www.w3.org/2001/XMLSchema")] (366%N, 0%N) []); KText "
            "]); KText "
          "]); KText "
        "]); KText "
      "]); KText "
    "]); KText "
  "]); KText "
"]);
  ("tests/xsd/form_unqualified.xsd",
   XE "schema" (Some "http://www.w3.org/2001/XMLSchema") [mkAttr "elementFormDefault" None "unqualified" (22%N, 1%N)] [((Some "xs"), "http://www.w3.org/2001/XMLSchema")] (22%N, 0%N) [KText "
  "; KElem (XE "element" (Some "http://www.w3.org/2001/XMLSchema") [mkAttr "name" None "article" (113%N, 1%N)] [((Some "xs"), "http://www.w3.org/2001/XMLSchema")] (113%N, 0%N) [KText "
    "; KElem (XE "complexType" (Some "http://www.w3.org/2001/XMLSchema") [] [((Some "xs"), "http://www.w3.org/2001/XMLSchema")] (145%N, 0%N) [KText "
      "; KElem (XE "sequence" (Some "http://www.w3.org/2001/XMLSchema") [] [((Some "xs"), "http://www.w3.org/2001/XMLSchema")] (168%N, 0%N) [KText "
        "; KElem (XE "element" (Some "http://www.w3.org/2001/XMLSchema") [mkAttr "name" None "excerpt" (190%N, 1%N); mkAttr "type" None "xs:string" (190%N, 2%N)] [((Some "xs"), "http://www.w3.org/2001/XMLSchema")] (190%N, 0%N) []); KText "
        "; KElem (XE "element" (Some "http://www.w3.org/2001/XMLSchema") [mkAttr "name" None "author" (245%N, 1%N)] [((Some "xs"), "http://www.w3.org/2001/XMLSchema")] (245%N, 0%N) [KText "
          "; KElem (XE "complexType" (Some "http://www.w3.org/2001/XMLSchema") [] [((Some "xs"), "http://www.w3.org/2001/XMLSchema")] (282%N, 0%N) [KText "
            "; KElem (XE "sequence" (Some "http://www.w3.org/2001/XMLSchema") [] [((Some "xs"), "http://www.w3.org/2001/XMLSchema")] (311%N, 0%N) [KText "
              "; KElem (XE "element" (Some "http://www.w3.org/2001/XMLSchema") [mkAttr "name" None "name" (339%N, 1%N); mkAttr "type" None "xs:string" (339%N, 2%N)] [((Some "xs"), "http://www.w3.org/2001/XMLSchema")] (339%N, 0%N) []); KText "
            "]); KText "
          "]); KText "
        "]); KText "
      "]); KText "
    "]); KText "
  "]); KText "
"]);
  ("tests/xsd/form_unqualified_with_target_namespace.xsd",
   XE "schema" (Some "http://www.w3.org/2001/XMLSchema") [mkAttr "elementFormDefault" None "unqualified" (22%N, 1%N); mkAttr "targetNamespace" None "urn:foobar" (22%N, 2%N)] [((Some "xs"), "http://www.w3.org/2001/XMLSchema")] (22%N, 0%N) [KText "
  "; KElem (XE "element" (Some "http://www.w3.org/2001/XMLSchema") [mkAttr "name" None "article" (142%N, 1%N)] [((Some "xs"), "http://www.w3.org/2001/XMLSchema")] (142%N, 0%N) [KText "
    "; KElem (XE "complexType" (Some "http://www.w3.org/2001/XMLSchema") [] [((Some "xs"), "http://www.w3.org/2001/XMLSchema")] (174%N, 0%N) [KText "
      "; KElem (XE "sequence" (Some "http://www.w3.org/2001/XMLSchema") [] [((Some "xs"), "http://www.w3.org/2001/XMLSchema")] (197%N, 0%N) [KText "
        "; KElem (XE "element" (Some "http://www.w3.org/2001/XMLSchema") [mkAttr "name" None "excerpt" (219%N, 1%N); mkAttr "type" None "xs:string" (219%N, 2%N)] [((Some "xs"), "http://www.w3.org/2001/XMLSchema")] (219%N, 0%N) []); KText "
        "; KElem (XE "element" (Some "http://www.w3.org/2001/XMLSchema") [mkAttr "name" None "author" (274%N, 1%N)] [((Some "xs"), "http://www.w3.org/2001/XMLSchema")] (274%N, 0%N) [KText "
          "; KElem (XE "complexType" (Some "http://www.w3.org/2001/XMLSchema") [] [((Some "xs"), "http://www.w3.org/2001/XMLSchema")] (311%N, 0%N) [KText "
            "; KElem (XE "sequence" (Some "http://www.w3.org/2001/XMLSchema") [] [((Some "xs"), "http://www.w3.org/2001/XMLSchema")] (340%N, 0%N) [KText "
              "; KElem (XE "element" (Some "http://www.w3.org/2001/XMLSchema") [mkAttr "name" None "name" (368%N, 1%N); mkAttr "type" None "xs:string" (368%N, 2%N)] [((Some "xs"), "http://www.w3.org/2001/XMLSchema")] (368%N, 0%N) []); KText "
            "]); KText "
          "]); KText "
        "]); KText "
      "]); KText "
    "]); KText "
  "]); KText "
"]);
  ("tests/xsd/import.xsd",
   XE "schema" (Some "http://www.w3.org/2001/XMLSchema") [mkAttr "elementFormDefault" None "qualified" (39%N, 1%N); mkAttr "targetNamespace" None "urn:main" (39%N, 2%N)] [((Some "xs"), "http://www.w3.org/2001/XMLSchema"); ((Some "base"), "urn:base")] (39%N, 0%N) [KText "
	"; KElem (XE "import" (Some "http://www.w3.org/2001/XMLSchema") [mkAttr "namespace" None "urn:base" (176%N, 1%N); mkAttr "schemaLocation" None "./import_other.xsd" (176%N, 2%N)] [((Some "xs"), "http://www.w3.org/2001/XMLSchema"); ((Some "base"), "urn:base")] (176%N, 0%N) []); KText "
  "; KElem (XE "element" (Some "http://www.w3.org/2001/XMLSchema") [mkAttr "name" None "article" (248%N, 1%N)] [((Some "xs"), "http://www.w3.org/2001/XMLSchema"); ((Some "base"), "urn:base")] (248%N, 0%N) [KText "
    "; KElem (XE "complexType" (Some "http://www.w3.org/2001/XMLSchema") [] [((Some "xs"), "http://www.w3.org/2001/XMLSchema"); ((Some "base"), "urn:base")] (280%N, 0%N) [KText "
      "; KElem (XE "sequence" (Some "http://www.w3.org/2001/XMLSchema") [] [((Some "xs"), "http://www.w3.org/2001/XMLSchema"); ((Some "base"), "urn:base")] (303%N, 0%N) [KText "
        "; KElem (XE "element" (Some "http://www.w3.org/2001/XMLSchema") [mkAttr "name" None "content" (325%N, 1%N); mkAttr "type" None "base:ArticleContent" (325%N, 2%N)] [((Some "xs"), "http://www.w3.org/2001/XMLSchema"); ((Some "base"), "urn:base")] (325%N, 0%N) []); KText "
      "]); KText "
    "]); KText "
  "]); KText "
"]);
  ("tests/xsd/import_other.xsd",
   XE "schema" (Some "http://www.w3.org/2001/XMLSchema") [mkAttr "elementFormDefault" None "qualified" (22%N, 1%N); mkAttr "targetNamespace" None "urn:base" (22%N, 2%N)] [((Some "xs"), "http://www.w3.org/2001/XMLSchema")] (22%N, 0%N) [KText "
  "; KElem (XE "complexType" (Some "http://www.w3.org/2001/XMLSchema") [mkAttr "name" None "ArticleContent" (138%N, 1%N)] [((Some "xs"), "http://www.w3.org/2001/XMLSchema")] (138%N, 0%N) [KText "
    "; KElem (XE "sequence" (Some "http://www.w3.org/2001/XMLSchema") [] [((Some "xs"), "http://www.w3.org/2001/XMLSchema")] (181%N, 0%N) [KText "
      "; KElem (XE "element" (Some "http://www.w3.org/2001/XMLSchema") [mkAttr "name" None "excerpt" (201%N, 1%N); mkAttr "type" None "xs:string" (201%N, 2%N)] [((Some "xs"), "http://www.w3.org/2001/XMLSchema")] (201%N, 0%N) []); KText "
      "; KElem (XE "element" (Some "http://www.w3.org/2001/XMLSchema") [mkAttr "name" None "author" (254%N, 1%N)] [((Some "xs"), "http://www.w3.org/2001/XMLSchema")] (254%N, 0%N) [KText "
        "; KElem (XE "complexType" (Some "http://www.w3.org/2001/XMLSchema") [] [((Some "xs"), "http://www.w3.org/2001/XMLSchema")] (289%N, 0%N) [KText "
          "; KElem (XE "sequence" (Some "http://www.w3.org/2001/XMLSchema") [] [((Some "xs"), "http://www.w3.org/2001/XMLSchema")] (316%N, 0%N) [KText "
            "; KElem (XE "element" (Some "http://www.w3.org/2001/XMLSchema") [mkAttr "name" None "name" (342%N, 1%N); mkAttr "type" None "xs:string" (342%N, 2%N)] [((Some "xs"), "http://www.w3.org/2001/XMLSchema")] (342%N, 0%N) []); KText "
          "]); KText "
        "]); KText "
      "]); KText "
    "]); KText "
  "]); KText "
"]);
  ("tests/xsd/include.xsd",
   XE "schema" (Some "http://www.w3.org/2001/XMLSchema") [mkAttr "elementFormDefault" None "qualified" (39%N, 1%N)] [((Some "xs"), "http://www.w3.org/2001/XMLSchema")] (39%N, 0%N) [KText "
	"; KElem (XE "include" (Some "http://www.w3.org/2001/XMLSchema") [mkAttr "schemaLocation" None "./include_other.xsd" (127%N, 1%N)] [((Some "xs"), "http://www.w3.org/2001/XMLSchema")] (127%N, 0%N) []); KText "
  "; KElem (XE "element" (Some "http://www.w3.org/2001/XMLSchema") [mkAttr "name" None "article" (180%N, 1%N)] [((Some "xs"), "http://www.w3.org/2001/XMLSchema")] (180%N, 0%N) [KText "
    "; KElem (XE "complexType" (Some "http://www.w3.org/2001/XMLSchema") [] [((Some "xs"), "http://www.w3.org/2001/XMLSchema")] (212%N, 0%N) [KText "
      "; KElem (XE "sequence" (Some "http://www.w3.org/2001/XMLSchema") [] [((Some "xs"), "http://www.w3.org/2001/XMLSchema")] (235%N, 0%N) [KText "
        "; KElem (XE "element" (Some "http://www.w3.org/2001/XMLSchema") [mkAttr "name" None "content" (257%N, 1%N); mkAttr "type" None "ArticleContent" (257%N, 2%N)] [((Some "xs"), "http://www.w3.org/2001/XMLSchema")] (257%N, 0%N) []); KText "
      "]); KText "
    "]); KText "
  "]); KText "
"]);
  ("tests/xsd/include_other.xsd",
   XE "schema" (Some "http://www.w3.org/2001/XMLSchema") [mkAttr "elementFormDefault" None "qualified" (22%N, 1%N)] [((Some "xs"), "http://www.w3.org/2001/XMLSchema")] (22%N, 0%N) [KText "
  "; KElem (XE "complexType" (Some "http://www.w3.org/2001/XMLSchema") [mkAttr "name" None "ArticleContent" (111%N, 1%N)] [((Some "xs"), "http://www.w3.org/2001/XMLSchema")] (111%N, 0%N) [KText "
    "; KElem (XE "sequence" (Some "http://www.w3.org/2001/XMLSchema") [] [((Some "xs"), "http://www.w3.org/2001/XMLSchema")] (154%N, 0%N) [KText "
      "; KElem (XE "element" (Some "http://www.w3.org/2001/XMLSchema") [mkAttr "name" None "excerpt" (174%N, 1%N); mkAttr "type" None "xs:string" (174%N, 2%N)] [((Some "xs"), "http://www.w3.org/2001/XMLSchema")] (174%N, 0%N) []); KText "
      "; KElem (XE "element" (Some "http://www.w3.org/2001/XMLSchema") [mkAttr "name" None "author" (227%N, 1%N)] [((Some "xs"), "http://www.w3.org/2001/XMLSchema")] (227%N, 0%N) [KText "
        "; KElem (XE "complexType" (Some "http://www.w3.org/2001/XMLSchema") [] [((Some "xs"), "http://www.w3.org/2001/XMLSchema")] (262%N, 0%N) [KText "
          "; KElem (XE "sequence" (Some "http://www.w3.org/2001/XMLSchema") [] [((Some "xs"), "http://www.w3.org/2001/XMLSchema")] (289%N, 0%N) [KText "
            "; KElem (XE "element" (Some "http://www.w3.org/2001/XMLSchema") [mkAttr "name" None "name" (315%N, 1%N); mkAttr "type" None "xs:string" (315%N, 2%N)] [((Some "xs"), "http://www.w3.org/2001/XMLSchema")] (315%N, 0%N) []); KText "
          "]); KText "
        "]); KText "
      "]); KText "
    "]); KText "
  "]); KText "
"]);
  ("tests/xsd/sequence_choice.xsd",
   XE "schema" (Some "http://www.w3.org/2001/XMLSchema") [] [((Some "xs"), "http://www.w3.org/2001/XMLSchema")] (22%N, 0%N) [KText "
  "; KElem (XE "complexType" (Some "http://www.w3.org/2001/XMLSchema") [mkAttr "name" None "User" (80%N, 1%N)] [((Some "xs"), "http://www.w3.org/2001/XMLSchema")] (80%N, 0%N) [KText "
    "; KElem (XE "sequence" (Some "http://www.w3.org/2001/XMLSchema") [] [((Some "xs"), "http://www.w3.org/2001/XMLSchema")] (113%N, 0%N) [KText "
      "; KElem (XE "element" (Some "http://www.w3.org/2001/XMLSchema") [mkAttr "name" None "name" (133%N, 1%N); mkAttr "type" None "xs:string" (133%N, 2%N)] [((Some "xs"), "http://www.w3.org/2001/XMLSchema")] (133%N, 0%N) []); KText "
    "]); KText "
  "]); KText "
  "; KElem (XE "complexType" (Some "http://www.w3.org/2001/XMLSchema") [mkAttr "name" None "Bot" (218%N, 1%N)] [((Some "xs"), "http://www.w3.org/2001/XMLSchema")] (218%N, 0%N) [KText "
    "; KElem (XE "sequence" (Some "http://www.w3.org/2001/XMLSchema") [] [((Some "xs"), "http://www.w3.org/2001/XMLSchema")] (250%N, 0%N) [KText "
      "; KElem (XE "element" (Some "http://www.w3.org/2001/XMLSchema") [mkAttr "name" None "handle" (270%N, 1%N); mkAttr "type" None "xs:string" (270%N, 2%N)] [((Some "xs"), "http://www.w3.org/2001/XMLSchema")] (270%N, 0%N) []); KText "
    "]); KText "
  "]); KText "
  "; KElem (XE "element" (Some "http://www.w3.org/2001/XMLSchema") [mkAttr "name" None "article" (357%N, 1%N)] [((Some "xs"), "http://www.w3.org/2001/XMLSchema")] (357%N, 0%N) [KText "
    "; KElem (XE "complexType" (Some "http://www.w3.org/2001/XMLSchema") [] [((Some "xs"), "http://www.w3.org/2001/XMLSchema")] (389%N, 0%N) [KText "
      "; KElem (XE "sequence" (Some "http://www.w3.org/2001/XMLSchema") [] [((Some "xs"), "http://www.w3.org/2001/XMLSchema")] (412%N, 0%N) [KText "
        "; KElem (XE "element" (Some "http://www.w3.org/2001/XMLSchema") [mkAttr "name" None "body" (434%N, 1%N); mkAttr "type" None "xs:string" (434%N, 2%N)] [((Some "xs"), "http://www.w3.org/2001/XMLSchema")] (434%N, 0%N) []); KText "
        "; KElem (XE "choice" (Some "http://www.w3.org/2001/XMLSchema") [] [((Some "xs"), "http://www.w3.org/2001/XMLSchema")] (486%N, 0%N) [KText "
          "; KElem (XE "element" (Some "http://www.w3.org/2001/XMLSchema") [mkAttr "name" None "user" (508%N, 1%N); mkAttr "type" None "User" (508%N, 2%N)] [((Some "xs"), "http://www.w3.org/2001/XMLSchema")] (508%N, 0%N) []); KText "
          "; KElem (XE "element" (Some "http://www.w3.org/2001/XMLSchema") [mkAttr "name" None "bot" (557%N, 1%N); mkAttr "type" None "Bot" (557%N, 2%N)] [((Some "xs"), "http://www.w3.org/2001/XMLSchema")] (557%N, 0%N) []); KText "
        "]); KText "
      "]); KText "
    "]); KText "
  "]); KText "
"]);
  ("tests/xsd/sequence_optional.xsd",
   XE "schema" (Some "http://www.w3.org/2001/XMLSchema") [] [((Some "xs"), "http://www.w3.org/2001/XMLSchema")] (22%N, 0%N) [KText "
  "; KElem (XE "element" (Some "http://www.w3.org/2001/XMLSchema") [mkAttr "name" None "settings" (80%N, 1%N)] [((Some "xs"), "http://www.w3.org/2001/XMLSchema")] (80%N, 0%N) [KText "
    "; KElem (XE "complexType" (Some "http://www.w3.org/2001/XMLSchema") [] [((Some "xs"), "http://www.w3.org/2001/XMLSchema")] (113%N, 0%N) [KText "
      "; KElem (XE "sequence" (Some "http://www.w3.org/2001/XMLSchema") [] [((Some "xs"), "http://www.w3.org/2001/XMLSchema")] (136%N, 0%N) [KText "
        "; KElem (XE "element" (Some "http://www.w3.org/2001/XMLSchema") [mkAttr "name" None "scope" (158%N, 1%N); mkAttr "type" None "xs:string" (158%N, 2%N)] [((Some "xs"), "http://www.w3.org/2001/XMLSchema")] (158%N, 0%N) []); KText "
        "; KElem (XE "sequence" (Some "http://www.w3.org/2001/XMLSchema") [mkAttr "minOccurs" None "0" (211%N, 1%N)] [((Some "xs"), "http://www.w3.org/2001/XMLSchema")] (211%N, 0%N) [KText "
          "; KElem (XE "element" (Some "http://www.w3.org/2001/XMLSchema") [mkAttr "name" None "key" (249%N, 1%N); mkAttr "type" None "xs:string" (249%N, 2%N)] [((Some "xs"), "http://www.w3.org/2001/XMLSchema")] (249%N, 0%N) []); KText "
          "; KElem (XE "element" (Some "http://www.w3.org/2001/XMLSchema") [mkAttr "name" None "value" (302%N, 1%N); mkAttr "type" None "xs:int" (302%N, 2%N)] [((Some "xs"), "http://www.w3.org/2001/XMLSchema")] (302%N, 0%N) []); KText "
        "]); KText "
      "]); KText "
    "]); KText "
  "]); KText "
"]);
  ("tests/xsd/sequence_optional_with_optionals.xsd",
   XE "schema" (Some "http://www.w3.org/2001/XMLSchema") [] [((Some "xs"), "http://www.w3.org/2001/XMLSchema")] (22%N, 0%N) [KText "
  "; KElem (XE "complexType" (Some "http://www.w3.org/2001/XMLSchema") [mkAttr "name" None "Account" (80%N, 1%N)] [((Some "xs"), "http://www.w3.org/2001/XMLSchema")] (80%N, 0%N) [KText "
    "; KElem (XE "sequence" (Some "http://www.w3.org/2001/XMLSchema") [] [((Some "xs"), "http://www.w3.org/2001/XMLSchema")] (116%N, 0%N) [KText "
      "; KElem (XE "element" (Some "http://www.w3.org/2001/XMLSchema") [mkAttr "name" None "id" (136%N, 1%N); mkAttr "type" None "xs:long" (136%N, 2%N)] [((Some "xs"), "http://www.w3.org/2001/XMLSchema")] (136%N, 0%N) []); KText "
    "]); KText "
  "]); KText "
  "; KElem (XE "complexType" (Some "http://www.w3.org/2001/XMLSchema") [mkAttr "name" None "Patient" (217%N, 1%N)] [((Some "xs"), "http://www.w3.org/2001/XMLSchema")] (217%N, 0%N) [KText "
    "; KElem (XE "complexContent" (Some "http://www.w3.org/2001/XMLSchema") [] [((Some "xs"), "http://www.w3.org/2001/XMLSchema")] (253%N, 0%N) [KText "
			"; KElem (XE "extension" (Some "http://www.w3.org/2001/XMLSchema") [mkAttr "base" None "Account" (276%N, 1%N)] [((Some "xs"), "http://www.w3.org/2001/XMLSchema")] (276%N, 0%N) [KText "
				"; KElem (XE "sequence" (Some "http://www.w3.org/2001/XMLSchema") [mkAttr "minOccurs" None "0" (310%N, 1%N)] [((Some "xs"), "http://www.w3.org/2001/XMLSchema")] (310%N, 0%N) [KText "
          "; KElem (XE "element" (Some "http://www.w3.org/2001/XMLSchema") [mkAttr "name" None "fullName" (348%N, 1%N); mkAttr "type" None "xs:string" (348%N, 2%N); mkAttr "minOccurs" None "0" (348%N, 3%N)] [((Some "xs"), "http://www.w3.org/2001/XMLSchema")] (348%N, 0%N) []); KText "
          "; KElem (XE "sequence" (Some "http://www.w3.org/2001/XMLSchema") [mkAttr "minOccurs" None "0" (420%N, 1%N)] [((Some "xs"), "http://www.w3.org/2001/XMLSchema")] (420%N, 0%N) [KText "
            "; KElem (XE "element" (Some "http://www.w3.org/2001/XMLSchema") [mkAttr "name" None "firstName" (460%N, 1%N); mkAttr "type" None "xs:string" (460%N, 2%N); mkAttr "minOccurs" None "0" (460%N, 3%N)] [((Some "xs"), "http://www.w3.org/2001/XMLSchema")] (460%N, 0%N) []); KText "
            "; KElem (XE "element" (Some "http://www.w3.org/2001/XMLSchema") [mkAttr "name" None "lastName" (535%N, 1%N); mkAttr "type" None "xs:string" (535%N, 2%N); mkAttr "minOccurs" None "0" (535%N, 3%N)] [((Some "xs"), "http://www.w3.org/2001/XMLSchema")] (535%N, 0%N) []); KText "
          "]); KText "
        "]); KText "
      "]); KText "
    "]); KText "
  "]); KText "
  "; KElem (XE "element" (Some "http://www.w3.org/2001/XMLSchema") [mkAttr "name" None "record" (714%N, 1%N)] [((Some "xs"), "http://www.w3.org/2001/XMLSchema")] (714%N, 0%N) [KText "
    "; KElem (XE "complexType" (Some "http://www.w3.org/2001/XMLSchema") [] [((Some "xs"), "http://www.w3.org/2001/XMLSchema")] (745%N, 0%N) [KText "
      "; KElem (XE "sequence" (Some "http://www.w3.org/2001/XMLSchema") [] [((Some "xs"), "http://www.w3.org/2001/XMLSchema")] (768%N, 0%N) [KText "
        "; KElem (XE "element" (Some "http://www.w3.org/2001/XMLSchema") [mkAttr "name" None "patient" (790%N, 1%N); mkAttr "type" None "Patient" (790%N, 2%N); mkAttr "minOccurs" None "0" (790%N, 3%N)] [((Some "xs"), "http://www.w3.org/2001/XMLSchema")] (790%N, 0%N) []); KText "
      "]); KText "
    "]); KText "
  "]); KText "
"]);
  ("tests/xsd/sequence_sequence.xsd",
   XE "schema" (Some "http://www.w3.org/2001/XMLSchema") [] [((Some "xs"), "http://www.w3.org/2001/XMLSchema")] (22%N, 0%N) [KText "
  "; KElem (XE "element" (Some "http://www.w3.org/2001/XMLSchema") [mkAttr "name" None "settings" (80%N, 1%N)] [((Some "xs"), "http://www.w3.org/2001/XMLSchema")] (80%N, 0%N) [KText "
    "; KElem (XE "complexType" (Some "http://www.w3.org/2001/XMLSchema") [] [((Some "xs"), "http://www.w3.org/2001/XMLSchema")] (113%N, 0%N) [KText "
      "; KElem (XE "sequence" (Some "http://www.w3.org/2001/XMLSchema") [] [((Some "xs"), "http://www.w3.org/2001/XMLSchema")] (136%N, 0%N) [KText "
        "; KElem (XE "annotation" (Some "http://www.w3.org/2001/XMLSchema") [] [((Some "xs"), "http://www.w3.org/2001/XMLSchema")] (158%N, 0%N) [KText "
          "; KElem (XE "documentation" (Some "http://www.w3.org/2001/XMLSchema") [] [((Some "xs"), "http://www.w3.org/2001/XMLSchema")] (184%N, 0%N) [KText "includes"]); KText "
        "]); KText "
        "; KElem (XE "element" (Some "http://www.w3.org/2001/XMLSchema") [mkAttr "name" None "scope" (263%N, 1%N); mkAttr "type" None "xs:string" (263%N, 2%N)] [((Some "xs"), "http://www.w3.org/2001/XMLSchema")] (263%N, 0%N) []); KText "
        "; KElem (XE "sequence" (Some "http://www.w3.org/2001/XMLSchema") [] [((Some "xs"), "http://www.w3.org/2001/XMLSchema")] (316%N, 0%N) [KText "
          "; KElem (XE "element" (Some "http://www.w3.org/2001/XMLSchema") [mkAttr "name" None "key" (340%N, 1%N); mkAttr "type" None "xs:string" (340%N, 2%N)] [((Some "xs"), "http://www.w3.org/2001/XMLSchema")] (340%N, 0%N) []); KText "
          "; KElem (XE "element" (Some "http://www.w3.org/2001/XMLSchema") [mkAttr "name" None "value" (393%N, 1%N); mkAttr "type" None "xs:int" (393%N, 2%N)] [((Some "xs"), "http://www.w3.org/2001/XMLSchema")] (393%N, 0%N) []); KText "
        "]); KText "
      "]); KText "
    "]); KText "
  "]); KText "
"]);
  ("tests/xsd/sequence_vec.xsd",
   XE "schema" (Some "http://www.w3.org/2001/XMLSchema") [] [((Some "xs"), "http://www.w3.org/2001/XMLSchema")] (22%N, 0%N) [KText "
  "; KElem (XE "element" (Some "http://www.w3.org/2001/XMLSchema") [mkAttr "name" None "settings" (80%N, 1%N)] [((Some "xs"), "http://www.w3.org/2001/XMLSchema")] (80%N, 0%N) [KText "
    "; KElem (XE "complexType" (Some "http://www.w3.org/2001/XMLSchema") [] [((Some "xs"), "http://www.w3.org/2001/XMLSchema")] (113%N, 0%N) [KText "
      "; KElem (XE "sequence" (Some "http://www.w3.org/2001/XMLSchema") [mkAttr "maxOccurs" None "unbounded" (136%N, 1%N)] [((Some "xs"), "http://www.w3.org/2001/XMLSchema")] (136%N, 0%N) [KText "
        "; KElem (XE "element" (Some "http://www.w3.org/2001/XMLSchema") [mkAttr "name" None "key" (180%N, 1%N); mkAttr "type" None "xs:string" (180%N, 2%N)] [((Some "xs"), "http://www.w3.org/2001/XMLSchema")] (180%N, 0%N) []); KText "
        "; KElem (XE "element" (Some "http://www.w3.org/2001/XMLSchema") [mkAttr "name" None "value" (231%N, 1%N); mkAttr "type" None "xs:int" (231%N, 2%N)] [((Some "xs"), "http://www.w3.org/2001/XMLSchema")] (231%N, 0%N) []); KText "
      "]); KText "
    "]); KText "
  "]); KText "
"]);
  ("tests/xsd/simple_content.xsd",
   XE "schema" (Some "http://www.w3.org/2001/XMLSchema") [] [((Some "xs"), "http://www.w3.org/2001/XMLSchema")] (22%N, 0%N) [KText "
  "; KElem (XE "element" (Some "http://www.w3.org/2001/XMLSchema") [mkAttr "name" None "text" (80%N, 1%N)] [((Some "xs"), "http://www.w3.org/2001/XMLSchema")] (80%N, 0%N) [KText "
    "; KElem (XE "complexType" (Some "http://www.w3.org/2001/XMLSchema") [] [((Some "xs"), "http://www.w3.org/2001/XMLSchema")] (109%N, 0%N) [KText "
      "; KElem (XE "annotation" (Some "http://www.w3.org/2001/XMLSchema") [] [((Some "xs"), "http://www.w3.org/2001/XMLSchema")] (132%N, 0%N) [KText "
        "; KElem (XE "documentation" (Some "http://www.w3.org/2001/XMLSchema") [] [((Some "xs"), "http://www.w3.org/2001/XMLSchema")] (156%N, 0%N) [KText "A text snippet."]); KText "
      "]); KText "
      "; KElem (XE "simpleContent" (Some "http://www.w3.org/2001/XMLSchema") [] [((Some "xs"), "http://www.w3.org/2001/XMLSchema")] (238%N, 0%N) [KText "
        "; KElem (XE "extension" (Some "http://www.w3.org/2001/XMLSchema") [mkAttr "base" None "xs:string" (265%N, 1%N)] [((Some "xs"), "http://www.w3.org/2001/XMLSchema")] (265%N, 0%N) [KText "
          "; KElem (XE "attribute" (Some "http://www.w3.org/2001/XMLSchema") [mkAttr "name" None "lang" (307%N, 1%N); mkAttr "type" None "xs:string" (307%N, 2%N)] [((Some "xs"), "http://www.w3.org/2001/XMLSchema")] (307%N, 0%N) []); KText "
        "]); KText "
      "]); KText "
    "]); KText "
  "]); KText "
"]);
  ("tests/xsd/simple_content_custom_base.xsd",
   XE "schema" (Some "http://www.w3.org/2001/XMLSchema") [] [((Some "xs"), "http://www.w3.org/2001/XMLSchema")] (22%N, 0%N) [KText "
  "; KElem (XE "simpleType" (Some "http://www.w3.org/2001/XMLSchema") [mkAttr "name" None "Role" (80%N, 1%N)] [((Some "xs"), "http://www.w3.org/2001/XMLSchema")] (80%N, 0%N) [KText "
    "; KElem (XE "restriction" (Some "http://www.w3.org/2001/XMLSchema") [mkAttr "base" None "xs:string" (112%N, 1%N)] [((Some "xs"), "http://www.w3.org/2001/XMLSchema")] (112%N, 0%N) [KText "
      "; KElem (XE "enumeration" (Some "http://www.w3.org/2001/XMLSchema") [mkAttr "value" None "User" (152%N, 1%N)] [((Some "xs"), "http://www.w3.org/2001/XMLSchema")] (152%N, 0%N) []); KText "
      "; KElem (XE "enumeration" (Some "http://www.w3.org/2001/XMLSchema") [mkAttr "value" None "Admin" (189%N, 1%N)] [((Some "xs"), "http://www.w3.org/2001/XMLSchema")] (189%N, 0%N) []); KText "
    "]); KText "
  "]); KText "
  "; KElem (XE "element" (Some "http://www.w3.org/2001/XMLSchema") [mkAttr "name" None "user" (264%N, 1%N)] [((Some "xs"), "http://www.w3.org/2001/XMLSchema")] (264%N, 0%N) [KText "
    "; KElem (XE "complexType" (Some "http://www.w3.org/2001/XMLSchema") [] [((Some "xs"), "http://www.w3.org/2001/XMLSchema")] (293%N, 0%N) [KText "
      "; KElem (XE "sequence" (Some "http://www.w3.org/2001/XMLSchema") [] [((Some "xs"), "http://www.w3.org/2001/XMLSchema")] (316%N, 0%N) [KText "
        "; KElem (XE "element" (Some "http://www.w3.org/2001/XMLSchema") [mkAttr "name" None "role" (338%N, 1%N)] [((Some "xs"), "http://www.w3.org/2001/XMLSchema")] (338%N, 0%N) [KText "
          "; KElem (XE "complexType" (Some "http://www.w3.org/2001/XMLSchema") [] [((Some "xs"), "http://www.w3.org/2001/XMLSchema")] (373%N, 0%N) [KText "
            "; KElem (XE "simpleContent" (Some "http://www.w3.org/2001/XMLSchema") [] [((Some "xs"), "http://www.w3.org/2001/XMLSchema")] (402%N, 0%N) [KText "
              "; KElem (XE "extension" (Some "http://www.w3.org/2001/XMLSchema") [mkAttr "base" None "Role" (435%N, 1%N)] [((Some "xs"), "http://www.w3.org/2001/XMLSchema")] (435%N, 0%N) [KText "
                "; KElem (XE "attribute" (Some "http://www.w3.org/2001/XMLSchema") [mkAttr "name" None "inherited" (478%N, 1%N); mkAttr "type" None "xs:boolean" (478%N, 2%N); mkAttr "use" None "required" (478%N, 3%N)] [((Some "xs"), "http://www.w3.org/2001/XMLSchema")] (478%N, 0%N) []); KText "
              "]); KText "
            "]); KText "
          "]); KText "
        "]); KText "
      "]); KText "
    "]); KText "
  "]); KText "
"]);
  ("tests/xsd/simple_type_empty.xsd",
   XE "schema" (Some "http://www.w3.org/2001/XMLSchema") [] [((Some "xs"), "http://www.w3.org/2001/XMLSchema")] (22%N, 0%N) [KText "
  "; KElem (XE "element" (Some "http://www.w3.org/2001/XMLSchema") [mkAttr "name" None "text" (80%N, 1%N); mkAttr "type" None "xs:string" (80%N, 2%N)] [((Some "xs"), "http://www.w3.org/2001/XMLSchema")] (80%N, 0%N) []); KText "
"]);
  ("tests/xsd/simple_type_restriction.xsd",
   XE "schema" (Some "http://www.w3.org/2001/XMLSchema") [] [((Some "xs"), "http://www.w3.org/2001/XMLSchema")] (22%N, 0%N) [KText "
  "; KElem (XE "simpleType" (Some "http://www.w3.org/2001/XMLSchema") [mkAttr "name" None "SideEnum" (80%N, 1%N)] [((Some "xs"), "http://www.w3.org/2001/XMLSchema")] (80%N, 0%N) [KText "
    "; KElem (XE "annotation" (Some "http://www.w3.org/2001/XMLSchema") [] [((Some "xs"), "http://www.w3.org/2001/XMLSchema")] (116%N, 0%N) [KText "
      "; KElem (XE "documentation" (Some "http://www.w3.org/2001/XMLSchema") [] [((Some "xs"), "http://www.w3.org/2001/XMLSchema")] (138%N, 0%N) [KText "The side."]); KText "
    "]); KText "
    "; KElem (XE "restriction" (Some "http://www.w3.org/2001/XMLSchema") [mkAttr "base" None "xs:string" (210%N, 1%N)] [((Some "xs"), "http://www.w3.org/2001/XMLSchema")] (210%N, 0%N) [KText "
      "; KElem (XE "enumeration" (Some "http://www.w3.org/2001/XMLSchema") [mkAttr "value" None "RIGHT" (250%N, 1%N)] [((Some "xs"), "http://www.w3.org/2001/XMLSchema")] (250%N, 0%N) []); KText "
      "; KElem (XE "enumeration" (Some "http://www.w3.org/2001/XMLSchema") [mkAttr "value" None "LEFT" (288%N, 1%N)] [((Some "xs"), "http://www.w3.org/2001/XMLSchema")] (288%N, 0%N) []); KText "
    "]); KText "
  "]); KText "
  "; KElem (XE "element" (Some "http://www.w3.org/2001/XMLSchema") [mkAttr "name" None "Side" (362%N, 1%N); mkAttr "type" None "SideEnum" (362%N, 2%N)] [((Some "xs"), "http://www.w3.org/2001/XMLSchema")] (362%N, 0%N) [KText "
  "]); KText "
"]);
  ("tests/xsd/virtual_type_collision.xsd",
   XE "schema" (Some "http://www.w3.org/2001/XMLSchema") [] [((Some "xs"), "http://www.w3.org/2001/XMLSchema")] (22%N, 0%N) [KText "
  "; KElem (XE "complexType" (Some "http://www.w3.org/2001/XMLSchema") [mkAttr "name" None "path" (80%N, 1%N)] [((Some "xs"), "http://www.w3.org/2001/XMLSchema")] (80%N, 0%N) [KText "
		"; KElem (XE "sequence" (Some "http://www.w3.org/2001/XMLSchema") [mkAttr "maxOccurs" None "unbounded" (111%N, 1%N)] [((Some "xs"), "http://www.w3.org/2001/XMLSchema")] (111%N, 0%N) [KText "
			"; KElem (XE "element" (Some "http://www.w3.org/2001/XMLSchema") [mkAttr "name" None "point" (150%N, 1%N)] [((Some "xs"), "http://www.w3.org/2001/XMLSchema")] (150%N, 0%N) [KText "
				"; KElem (XE "complexType" (Some "http://www.w3.org/2001/XMLSchema") [] [((Some "xs"), "http://www.w3.org/2001/XMLSchema")] (180%N, 0%N) [KText "
					"; KElem (XE "sequence" (Some "http://www.w3.org/2001/XMLSchema") [] [((Some "xs"), "http://www.w3.org/2001/XMLSchema")] (202%N, 0%N) [KText "
						"; KElem (XE "element" (Some "http://www.w3.org/2001/XMLSchema") [mkAttr "name" None "x" (222%N, 1%N); mkAttr "type" None "xs:float" (222%N, 2%N)] [((Some "xs"), "http://www.w3.org/2001/XMLSchema")] (222%N, 0%N) []); KText "
						"; KElem (XE "element" (Some "http://www.w3.org/2001/XMLSchema") [mkAttr "name" None "y" (267%N, 1%N); mkAttr "type" None "xs:float" (267%N, 2%N)] [((Some "xs"), "http://www.w3.org/2001/XMLSchema")] (267%N, 0%N) []); KText "
					"]); KText "
				"]); KText "
			"]); KText "
		"]); KText "
	"]); KText "
  "; KElem (XE "element" (Some "http://www.w3.org/2001/XMLSchema") [mkAttr "name" None "trace" (403%N, 1%N); mkAttr "type" None "path" (403%N, 2%N)] [((Some "xs"), "http://www.w3.org/2001/XMLSchema")] (403%N, 0%N) []); KText "
"])
].

Example conf_all : conf files "tests/xsd/all.xsd" "All"
  (VStruct [("first", VStr "first"); ("second", VStr "second"); ("third", VStr "third")])
  (XE "all" None [] [] (0%N, 0%N) [KText "
  "; KElem (XE "second" None [] [] (0%N, 0%N) [KText "second"]); KText "
  "; KElem (XE "third" None [] [] (0%N, 0%N) [KText "third"]); KText "
  "; KElem (XE "first" None [] [] (0%N, 0%N) [KText "first"]); KText "
"]) false = true.
Proof. vm_compute. reflexivity. Qed.

Example conf_attribute_default : conf files "tests/xsd/attribute_default.xsd" "Text"
  (VStruct [("text", VStr "foobar"); ("lang", VNone)])
  (XE "text" None [] [] (0%N, 0%N) [KText "foobar"]) true = true.
Proof. vm_compute. reflexivity. Qed.

Example conf_attribute_simple_type : conf files "tests/xsd/attribute_simple_type.xsd" "Text"
  (VStruct [("text", VStr "Deutsch"); ("lang", VStr "DE")])
  (XE "text" None [mkAttr "lang" None "DE" (0%N, 0%N)] [] (0%N, 0%N) [KText "Deutsch"]) true = true.
Proof. vm_compute. reflexivity. Qed.

Example conf_attribute_use : conf files "tests/xsd/attribute_use.xsd" "Setting"
  (VStruct [("key", VStr "foo"); ("value", VSome (VStr "bar"))])
  (XE "setting" None [mkAttr "key" None "foo" (0%N, 0%N); mkAttr "value" None "bar" (0%N, 0%N)] [] (0%N, 0%N) []) true = true.
Proof. vm_compute. reflexivity. Qed.

Example conf_choice_element_vec : conf files "tests/xsd/choice_element_vec.xsd" "Shape"
  (VStruct [("s", VChoice "Points" (VVec [VStr "1,2"; VStr "2,3"]))])
  (XE "shape" None [] [] (0%N, 0%N) [KText "
  "; KElem (XE "points" None [] [] (0%N, 0%N) [KText "1,2"]); KText "
  "; KElem (XE "points" None [] [] (0%N, 0%N) [KText "2,3"]); KText "
"]) true = true.
Proof. vm_compute. reflexivity. Qed.

Example conf_choice_literal : conf files "tests/xsd/choice_literal.xsd" "Article"
  (VStruct [("user_bot", VChoice "Bot" (VStr "foobot"))])
  (XE "article" None [] [] (0%N, 0%N) [KText "
  "; KElem (XE "bot" None [] [] (0%N, 0%N) [KText "foobot"]); KText "
"]) true = true.
Proof. vm_compute. reflexivity. Qed.

Example conf_choice_optional : conf files "tests/xsd/choice_optional.xsd" "Article"
  (VStruct [("body", VStr "Lorem Ipsum"); ("user_bot", VSome (VChoice "Bot" (VStruct [("handle", VStr "foobot")])))])
  (XE "article" None [] [] (0%N, 0%N) [KText "
  "; KElem (XE "body" None [] [] (0%N, 0%N) [KText "Lorem Ipsum"]); KText "
  "; KElem (XE "bot" None [] [] (0%N, 0%N) [KText "
    "; KElem (XE "handle" None [] [] (0%N, 0%N) [KText "foobot"]); KText "
  "]); KText "
"]) true = true.
Proof. vm_compute. reflexivity. Qed.

Example conf_choice_selection_optional : conf files "tests/xsd/choice_selection_optional.xsd" "Geometry"
  (VTuple (VStruct [("diameter", VF32 (f32_code "12.4")); ("thickness", VChoice "Thickness" (VStruct [("thickness", VNone); ("thickness_reduction", VSome (VStruct [("geometry_type_thickness_reduction_data", VBool true); ("reference", VStr "shape")]))]))]))
  (XE "geometry" None [] [] (0%N, 0%N) [KText "
  "; KElem (XE "diameter" None [] [] (0%N, 0%N) [KText "12.4"]); KText "
  "; KElem (XE "thicknessReduction" None [mkAttr "reference" None "shape" (0%N, 0%N)] [] (0%N, 0%N) [KText "true"]); KText "
"]) true = true.
Proof. vm_compute. reflexivity. Qed.

Example conf_choice_sequence : conf files "tests/xsd/choice_sequence.xsd" "User"
  (VStruct [("id", VInt (42)%Z); ("name", VChoice "Name" (VStruct [("first_name", VStr "Foo"); ("last_name", VStr "Foo")]))])
  (XE "user" None [] [] (0%N, 0%N) [KText "
  "; KElem (XE "id" None [] [] (0%N, 0%N) [KText "42"]); KText "
  "; KElem (XE "firstName" None [] [] (0%N, 0%N) [KText "Foo"]); KText "
  "; KElem (XE "lastName" None [] [] (0%N, 0%N) [KText "Foo"]); KText "
"]) true = true.
Proof. vm_compute. reflexivity. Qed.

Example conf_choice_vec : conf files "tests/xsd/choice_vec.xsd" "User"
  (VStruct [("id", VInt (42)%Z); ("alias_email", VSome (VVec [VChoice "Alias" (VStr "Foo"); VChoice "Email" (VStr "foo@example.org"); VChoice "Email" (VStr "42@example.org")]))])
  (XE "user" None [] [] (0%N, 0%N) [KText "
  "; KElem (XE "id" None [] [] (0%N, 0%N) [KText "42"]); KText "
  "; KElem (XE "alias" None [] [] (0%N, 0%N) [KText "Foo"]); KText "
  "; KElem (XE "email" None [] [] (0%N, 0%N) [KText "foo@example.org"]); KText "
  "; KElem (XE "email" None [] [] (0%N, 0%N) [KText "42@example.org"]); KText "
"]) true = true.
Proof. vm_compute. reflexivity. Qed.

Example conf_complex_content : conf files "tests/xsd/complex_content.xsd" "Account"
  (VStruct [("user", VStruct [("id", VInt (42)%Z); ("name", VStr "Foobar")]); ("role", VEnum "Admin")])
  (XE "Account" None [mkAttr "role" None "ADMIN" (0%N, 0%N); mkAttr "id" None "42" (0%N, 0%N)] [] (0%N, 0%N) [KText "
  "; KElem (XE "name" None [] [] (0%N, 0%N) [KText "Foobar"]); KText "
"]) true = true.
Proof. vm_compute. reflexivity. Qed.

Example conf_complex_content_sequence : conf files "tests/xsd/complex_content_sequence.xsd" "Account"
  (VStruct [("base", VStruct [("id", VInt (42)%Z); ("name", VStr "Foobar")]); ("user", VStruct [("role", VEnum "Admin"); ("enabled", VBool true)])])
  (XE "Account" None [] [] (0%N, 0%N) [KText "
  "; KElem (XE "id" None [] [] (0%N, 0%N) [KText "42"]); KText "
  "; KElem (XE "name" None [] [] (0%N, 0%N) [KText "Foobar"]); KText "
  "; KElem (XE "role" None [] [] (0%N, 0%N) [KText "ADMIN"]); KText "
  "; KElem (XE "enabled" None [] [] (0%N, 0%N) [KText "true"]); KText "
"]) true = true.
Proof. vm_compute. reflexivity. Qed.

Example conf_complex_content_sequence_optional : conf files "tests/xsd/complex_content_sequence_optional.xsd" "Account"
  (VStruct [("base", VStruct [("id", VInt (42)%Z); ("name", VStr "Foobar")]); ("user", VSome (VStruct [("role", VEnum "Admin"); ("enabled", VBool true)]))])
  (XE "Account" None [] [] (0%N, 0%N) [KText "
  "; KElem (XE "id" None [] [] (0%N, 0%N) [KText "42"]); KText "
  "; KElem (XE "name" None [] [] (0%N, 0%N) [KText "Foobar"]); KText "
  "; KElem (XE "role" None [] [] (0%N, 0%N) [KText "ADMIN"]); KText "
  "; KElem (XE "enabled" None [] [] (0%N, 0%N) [KText "true"]); KText "
"]) true = true.
Proof. vm_compute. reflexivity. Qed.

Example conf_complex_type_attribute : conf files "tests/xsd/complex_type_attribute.xsd" "Article"
  (VStruct [("excerpt", VStr "Lorem Ipsum"); ("author", VSome (VStr "Foobar"))])
  (XE "article" None [mkAttr "author" None "Foobar" (0%N, 0%N)] [] (0%N, 0%N) [KText "
  "; KElem (XE "excerpt" None [] [] (0%N, 0%N) [KText "Lorem Ipsum"]); KText "
"]) true = true.
Proof. vm_compute. reflexivity. Qed.

Example conf_complex_type_choice : conf files "tests/xsd/complex_type_choice.xsd" "Article"
  (VStruct [("created_by", VStruct [("author_data", VChoice "User" (VStruct [("name", VStr "Foobar")])); ("is_verified", VBool true)]); ("posted_by", VStruct [("article_posted_by_data_data", VChoice "Bot" (VStruct [("handle", VStr "Foobot")])); ("is_verified", VBool false)])])
  (XE "article" None [] [] (0%N, 0%N) [KText "
  "; KElem (XE "createdBy" None [mkAttr "isVerified" None "true" (0%N, 0%N)] [] (0%N, 0%N) [KText "
    "; KElem (XE "user" None [mkAttr "name" None "Foobar" (0%N, 0%N)] [] (0%N, 0%N) []); KText "
  "]); KText "
  "; KElem (XE "postedBy" None [mkAttr "isVerified" None "false" (0%N, 0%N)] [] (0%N, 0%N) [KText "
    "; KElem (XE "bot" None [mkAttr "handle" None "Foobot" (0%N, 0%N)] [] (0%N, 0%N) []); KText "
  "]); KText "
"]) true = true.
Proof. vm_compute. reflexivity. Qed.

Example conf_complex_type_fixed : conf files "tests/xsd/complex_type_fixed.xsd" "Meta"
  (VStruct [("version", VUnit); ("name", VSome (VUnit))])
  (XE "meta" None [mkAttr "name" None "foobar" (0%N, 0%N)] [] (0%N, 0%N) [KText "
  "; KElem (XE "version" None [] [] (0%N, 0%N) [KText "2"]); KText "
"]) true = true.
Proof. vm_compute. reflexivity. Qed.

Example conf_element_complex_type_sequence : conf files "tests/xsd/element_complex_type_sequence.xsd" "Article"
  (VStruct [("subject", VStr "Lorem Ipsum"); ("body", VStr "Lorem ipsum dolor sit amet."); ("author", VStr "Foobar")])
  (XE "article" None [] [] (0%N, 0%N) [KText "
  "; KElem (XE "subject" None [] [] (0%N, 0%N) [KText "Lorem Ipsum"]); KText "
  "; KElem (XE "body" None [] [] (0%N, 0%N) [KText "Lorem ipsum dolor sit amet."]); KText "
  "; KElem (XE "author" None [] [] (0%N, 0%N) [KText "Foobar"]); KText "
"]) true = true.
Proof. vm_compute. reflexivity. Qed.

Example conf_element_default : conf files "tests/xsd/element_default.xsd" "Settings"
  (VStruct [("debug", VNone)])
  (XE "settings" None [] [] (0%N, 0%N) []) true = true.
Proof. vm_compute. reflexivity. Qed.

Example conf_element_fixed : conf files "tests/xsd/element_fixed.xsd" "Name"
  (VTuple (VUnit))
  (XE "name" None [] [] (0%N, 0%N) [KText "foobar"]) true = true.
Proof. vm_compute. reflexivity. Qed.

Example conf_element_nested : conf files "tests/xsd/element_nested.xsd" "Article"
  (VStruct [("excerpt", VStr "Lorem Ipsum"); ("author", VStruct [("name", VStr "Foobar")])])
  (XE "article" None [] [] (0%N, 0%N) [KText "
  "; KElem (XE "excerpt" None [] [] (0%N, 0%N) [KText "Lorem Ipsum"]); KText "
  "; KElem (XE "author" None [] [] (0%N, 0%N) [KText "
    "; KElem (XE "name" None [] [] (0%N, 0%N) [KText "Foobar"]); KText "
  "]); KText "
"]) true = true.
Proof. vm_compute. reflexivity. Qed.

Example conf_element_nested_attribute : conf files "tests/xsd/element_nested_attribute.xsd" "Article"
  (VStruct [("excerpt", VStr "Lorem Ipsum"); ("author", VStruct [("id", VSome (VInt (42)%Z)); ("name", VStr "Foobar")])])
  (XE "article" None [] [] (0%N, 0%N) [KText "
  "; KElem (XE "excerpt" None [] [] (0%N, 0%N) [KText "Lorem Ipsum"]); KText "
  "; KElem (XE "author" None [mkAttr "id" None "42" (0%N, 0%N)] [] (0%N, 0%N) [KText "
    "; KElem (XE "name" None [] [] (0%N, 0%N) [KText "Foobar"]); KText "
  "]); KText "
"]) true = true.
Proof. vm_compute. reflexivity. Qed.

Example conf_element_optional : conf files "tests/xsd/element_optional.xsd" "Settings"
  (VStruct [("debug", VSome (VBool true))])
  (XE "settings" None [] [] (0%N, 0%N) [KText "
  "; KElem (XE "debug" None [] [] (0%N, 0%N) [KText "true"]); KText "
"]) true = true.
Proof. vm_compute. reflexivity. Qed.

Example conf_element_optional_vec : conf files "tests/xsd/element_optional_vec.xsd" "List"
  (VStruct [("id", VSome (VVec [VInt (1)%Z; VInt (2)%Z; VInt (3)%Z]))])
  (XE "list" None [] [] (0%N, 0%N) [KText "
  "; KElem (XE "id" None [] [] (0%N, 0%N) [KText "1"]); KText "
  "; KElem (XE "id" None [] [] (0%N, 0%N) [KText "2"]); KText "
  "; KElem (XE "id" None [] [] (0%N, 0%N) [KText "3"]); KText "
"]) true = true.
Proof. vm_compute. reflexivity. Qed.

Example conf_element_ref : conf files "tests/xsd/element_ref.xsd" "Article"
  (VTuple (VStruct [("content", VSome (VStruct [("excerpt", VStr "Lorem Ipsum")])); ("author", VStr "Foobar")]))
  (XE "article" (Some "urn:main") [] [] (0%N, 0%N) [KText "
  "; KElem (XE "content" (Some "urn:base") [] [] (0%N, 0%N) [KText "
    "; KElem (XE "excerpt" (Some "urn:base") [] [] (0%N, 0%N) [KText "Lorem Ipsum"]); KText "
  "]); KText "
  "; KElem (XE "author" (Some "urn:main") [] [] (0%N, 0%N) [KText "Foobar"]); KText "
"]) true = true.
Proof. vm_compute. reflexivity. Qed.

Example conf_element_ref_element : conf files "tests/xsd/element_ref_element.xsd" "Service"
  (VStruct [("version_number", VStruct [("major", VInt (1)%Z); ("minor", VInt (10)%Z); ("bug", VInt (3)%Z)])])
  (XE "service" (Some "urn:main") [] [] (0%N, 0%N) [KText "
  "; KElem (XE "versionNumber" (Some "urn:main") [] [] (0%N, 0%N) [KText "
    "; KElem (XE "major" (Some "urn:main") [] [] (0%N, 0%N) [KText "1"]); KText "
    "; KElem (XE "minor" (Some "urn:main") [] [] (0%N, 0%N) [KText "10"]); KText "
    "; KElem (XE "bug" (Some "urn:main") [] [] (0%N, 0%N) [KText "3"]); KText "
  "]); KText "
"]) true = true.
Proof. vm_compute. reflexivity. Qed.

Example conf_element_ref_type : conf files "tests/xsd/element_ref_type.xsd" "Address"
  (VStruct [("zip", VStr "12345")])
  (XE "address" None [] [] (0%N, 0%N) [KText "
  "; KElem (XE "zip" None [] [] (0%N, 0%N) [KText "12345"]); KText "
"]) true = true.
Proof. vm_compute. reflexivity. Qed.

Example conf_element_simple_type : conf files "tests/xsd/element_simple_type.xsd" "Count"
  (VTuple (VInt (42)%Z))
  (XE "count" None [] [] (0%N, 0%N) [KText "42"]) true = true.
Proof. vm_compute. reflexivity. Qed.

Example conf_element_type_complex : conf files "tests/xsd/element_type_complex.xsd" "Article"
  (VStruct [("excerpt", VStr "Lorem Ipsum"); ("author", VStruct [("name", VStr "Foobar")])])
  (XE "article" None [] [] (0%N, 0%N) [KText "
  "; KElem (XE "excerpt" None [] [] (0%N, 0%N) [KText "Lorem Ipsum"]); KText "
  "; KElem (XE "author" None [] [] (0%N, 0%N) [KText "
    "; KElem (XE "name" None [] [] (0%N, 0%N) [KText "Foobar"]); KText "
  "]); KText "
"]) true = true.
Proof. vm_compute. reflexivity. Qed.

Example conf_element_type_literal : conf files "tests/xsd/element_type_literal.xsd" "Name"
  (VTuple (VStr "Foobar"))
  (XE "Name" None [] [] (0%N, 0%N) [KText "Foobar"]) true = true.
Proof. vm_compute. reflexivity. Qed.

Example conf_element_vec : conf files "tests/xsd/element_vec.xsd" "List"
  (VStruct [("id", VVec [VInt (1)%Z; VInt (2)%Z; VInt (3)%Z])])
  (XE "list" None [] [] (0%N, 0%N) [KText "
  "; KElem (XE "id" None [] [] (0%N, 0%N) [KText "1"]); KText "
  "; KElem (XE "id" None [] [] (0%N, 0%N) [KText "2"]); KText "
  "; KElem (XE "id" None [] [] (0%N, 0%N) [KText "3"]); KText "
"]) true = true.
Proof. vm_compute. reflexivity. Qed.

Example conf_enum_attribute : conf files "tests/xsd/enum_attribute.xsd" "Article"
  (VStruct [("state", VSome (VEnum "Published"))])
  (XE "article" None [mkAttr "state" None "PUBLISHED" (0%N, 0%N)] [] (0%N, 0%N) []) true = true.
Proof. vm_compute. reflexivity. Qed.

Example conf_enum_literal : conf files "tests/xsd/enum_literal.xsd" "Order"
  (VStruct [("state", VEnum "Ready")])
  (XE "order" None [] [] (0%N, 0%N) [KText "
  "; KElem (XE "state" None [] [] (0%N, 0%N) [KText "READY"]); KText "
"]) true = true.
Proof. vm_compute. reflexivity. Qed.

Example conf_enum_literal_root : conf files "tests/xsd/enum_literal_root.xsd" "State"
  (VTuple (VEnum "Ready"))
  (XE "state" None [] [] (0%N, 0%N) [KText "READY"]) true = true.
Proof. vm_compute. reflexivity. Qed.

Example conf_form_qualified : conf files "tests/xsd/form_qualified.xsd" "Article"
  (VStruct [("excerpt", VStr "Lorem Ipsum"); ("author", VStruct [("name", VStr "Foobar")])])
  (XE "article" None [] [] (0%N, 0%N) [KText "
  "; KElem (XE "excerpt" None [] [] (0%N, 0%N) [KText "Lorem Ipsum"]); KText "
  "; KElem (XE "author" None [] [] (0%N, 0%N) [KText "
    "; KElem (XE "name" None [] [] (0%N, 0%N) [KText "Foobar"]); KText "
  "]); KText "
"]) true = true.
Proof. vm_compute. reflexivity. Qed.

Example conf_form_qualified_with_target_namespace : conf files "tests/xsd/form_qualified_with_target_namespace.xsd" "Article"
  (VStruct [("excerpt", VStr "Lorem Ipsum"); ("author", VStruct [("name", VStr "Foobar")])])
  (XE "article" (Some "urn:foobar") [] [] (0%N, 0%N) [KText "
  "; KElem (XE "excerpt" (Some "urn:foobar") [] [] (0%N, 0%N) [KText "Lorem Ipsum"]); KText "
  "; KElem (XE "author" (Some "urn:foobar") [] [] (0%N, 0%N) [KText "
    "; KElem (XE "name" (Some "urn:foobar") [] [] (0%N, 0%N) [KText "Foobar"]); KText "
  "]); KText "
"]) true = true.
Proof. vm_compute. reflexivity. Qed.

Example conf_form_unqualified : conf files "tests/xsd/form_unqualified.xsd" "Article"
  (VStruct [("excerpt", VStr "Lorem Ipsum"); ("author", VStruct [("name", VStr "Foobar")])])
  (XE "article" None [] [] (0%N, 0%N) [KText "
  "; KElem (XE "excerpt" None [] [] (0%N, 0%N) [KText "Lorem Ipsum"]); KText "
  "; KElem (XE "author" None [] [] (0%N, 0%N) [KText "
    "; KElem (XE "name" None [] [] (0%N, 0%N) [KText "Foobar"]); KText "
  "]); KText "
"]) true = true.
Proof. vm_compute. reflexivity. Qed.

Example conf_form_unqualified_with_target_namespace : conf files "tests/xsd/form_unqualified_with_target_namespace.xsd" "Article"
  (VStruct [("excerpt", VStr "Lorem Ipsum"); ("author", VStruct [("name", VStr "Foobar")])])
  (XE "article" (Some "urn:foobar") [] [] (0%N, 0%N) [KText "
  "; KElem (XE "excerpt" None [] [] (0%N, 0%N) [KText "Lorem Ipsum"]); KText "
  "; KElem (XE "author" None [] [] (0%N, 0%N) [KText "
    "; KElem (XE "name" None [] [] (0%N, 0%N) [KText "Foobar"]); KText "
  "]); KText "
"]) true = true.
Proof. vm_compute. reflexivity. Qed.

Example conf_import : conf files "tests/xsd/import.xsd" "Article"
  (VStruct [("content", VStruct [("excerpt", VStr "Lorem Ipsum"); ("author", VStruct [("name", VStr "Foobar")])])])
  (XE "article" (Some "urn:main") [] [] (0%N, 0%N) [KText "
  "; KElem (XE "content" (Some "urn:main") [] [] (0%N, 0%N) [KText "
    "; KElem (XE "excerpt" (Some "urn:base") [] [] (0%N, 0%N) [KText "Lorem Ipsum"]); KText "
    "; KElem (XE "author" (Some "urn:base") [] [] (0%N, 0%N) [KText "
      "; KElem (XE "name" (Some "urn:base") [] [] (0%N, 0%N) [KText "Foobar"]); KText "
    "]); KText "
  "]); KText "
"]) true = true.
Proof. vm_compute. reflexivity. Qed.

Example conf_include : conf files "tests/xsd/include.xsd" "Article"
  (VStruct [("content", VStruct [("excerpt", VStr "Lorem Ipsum"); ("author", VStruct [("name", VStr "Foobar")])])])
  (XE "article" None [] [] (0%N, 0%N) [KText "
  "; KElem (XE "content" None [] [] (0%N, 0%N) [KText "
    "; KElem (XE "excerpt" None [] [] (0%N, 0%N) [KText "Lorem Ipsum"]); KText "
    "; KElem (XE "author" None [] [] (0%N, 0%N) [KText "
      "; KElem (XE "name" None [] [] (0%N, 0%N) [KText "Foobar"]); KText "
    "]); KText "
  "]); KText "
"]) true = true.
Proof. vm_compute. reflexivity. Qed.

Example conf_sequence_choice : conf files "tests/xsd/sequence_choice.xsd" "Article"
  (VStruct [("body", VStr "Lorem Ipsum"); ("user_bot", VChoice "Bot" (VStruct [("handle", VStr "foobot")]))])
  (XE "article" None [] [] (0%N, 0%N) [KText "
  "; KElem (XE "body" None [] [] (0%N, 0%N) [KText "Lorem Ipsum"]); KText "
  "; KElem (XE "bot" None [] [] (0%N, 0%N) [KText "
    "; KElem (XE "handle" None [] [] (0%N, 0%N) [KText "foobot"]); KText "
  "]); KText "
"]) true = true.
Proof. vm_compute. reflexivity. Qed.

Example conf_sequence_optional : conf files "tests/xsd/sequence_optional.xsd" "Settings"
  (VStruct [("scope", VStr "all"); ("key_value", VSome (VStruct [("key", VStr "alpha"); ("value", VInt (1)%Z)]))])
  (XE "settings" None [] [] (0%N, 0%N) [KText "
  "; KElem (XE "scope" None [] [] (0%N, 0%N) [KText "all"]); KText "
  "; KElem (XE "key" None [] [] (0%N, 0%N) [KText "alpha"]); KText "
  "; KElem (XE "value" None [] [] (0%N, 0%N) [KText "1"]); KText "
"]) true = true.
Proof. vm_compute. reflexivity. Qed.

Example conf_sequence_optional_with_optionals : conf files "tests/xsd/sequence_optional_with_optionals.xsd" "Record"
  (VStruct [("patient", VSome (VStruct [("base", VStruct [("id", VInt (42)%Z)]); ("account", VSome (VStruct [("full_name", VNone); ("name", VSome (VStruct [("first_name", VNone); ("last_name", VSome (VStr "Foobar"))]))]))]))])
  (XE "record" None [] [] (0%N, 0%N) [KText "
  "; KElem (XE "patient" None [] [] (0%N, 0%N) [KText "
    "; KElem (XE "id" None [] [] (0%N, 0%N) [KText "42"]); KText "
    "; KElem (XE "lastName" None [] [] (0%N, 0%N) [KText "Foobar"]); KText "
  "]); KText "
"]) true = true.
Proof. vm_compute. reflexivity. Qed.

Example conf_sequence_sequence : conf files "tests/xsd/sequence_sequence.xsd" "Settings"
  (VStruct [("scope", VStr "all"); ("key_value", VStruct [("key", VStr "alpha"); ("value", VInt (1)%Z)])])
  (XE "settings" None [] [] (0%N, 0%N) [KText "
  "; KElem (XE "scope" None [] [] (0%N, 0%N) [KText "all"]); KText "
  "; KElem (XE "key" None [] [] (0%N, 0%N) [KText "alpha"]); KText "
  "; KElem (XE "value" None [] [] (0%N, 0%N) [KText "1"]); KText "
"]) true = true.
Proof. vm_compute. reflexivity. Qed.

Example conf_sequence_vec : conf files "tests/xsd/sequence_vec.xsd" "Settings"
  (VStruct [("key_value", VVec [VStruct [("key", VStr "alpha"); ("value", VInt (1)%Z)]; VStruct [("key", VStr "bravo"); ("value", VInt (2)%Z)]; VStruct [("key", VStr "charlie"); ("value", VInt (3)%Z)]])])
  (XE "settings" None [] [] (0%N, 0%N) [KText "
  "; KElem (XE "key" None [] [] (0%N, 0%N) [KText "alpha"]); KText "
  "; KElem (XE "value" None [] [] (0%N, 0%N) [KText "1"]); KText "
  "; KElem (XE "key" None [] [] (0%N, 0%N) [KText "bravo"]); KText "
  "; KElem (XE "value" None [] [] (0%N, 0%N) [KText "2"]); KText "
  "; KElem (XE "key" None [] [] (0%N, 0%N) [KText "charlie"]); KText "
  "; KElem (XE "value" None [] [] (0%N, 0%N) [KText "3"]); KText "
"]) true = true.
Proof. vm_compute. reflexivity. Qed.

Example conf_simple_content : conf files "tests/xsd/simple_content.xsd" "Text"
  (VStruct [("text", VStr "Something in English"); ("lang", VSome (VStr "en"))])
  (XE "text" None [mkAttr "lang" None "en" (0%N, 0%N)] [] (0%N, 0%N) [KText "Something in English"]) true = true.
Proof. vm_compute. reflexivity. Qed.

Example conf_simple_content_custom_base : conf files "tests/xsd/simple_content_custom_base.xsd" "User"
  (VStruct [("role", VStruct [("role", VEnum "User"); ("inherited", VBool true)])])
  (XE "user" None [] [] (0%N, 0%N) [KText "
  "; KElem (XE "role" None [mkAttr "inherited" None "true" (0%N, 0%N)] [] (0%N, 0%N) [KText "User"]); KText "
"]) true = true.
Proof. vm_compute. reflexivity. Qed.

Example conf_simple_type_empty : conf files "tests/xsd/simple_type_empty.xsd" "Text"
  (VTuple (VStr ""))
  (XE "text" None [] [] (0%N, 0%N) []) true = true.
Proof. vm_compute. reflexivity. Qed.

Example conf_simple_type_restriction : conf files "tests/xsd/simple_type_restriction.xsd" "Side"
  (VTuple (VEnum "Left"))
  (XE "Side" None [] [] (0%N, 0%N) [KText "LEFT"]) true = true.
Proof. vm_compute. reflexivity. Qed.

Example conf_virtual_type_collision : conf files "tests/xsd/virtual_type_collision.xsd" "Trace"
  (VTuple (VStruct [("point", VVec [VStruct [("point", VStruct [("x", VF32 (f32_code "1")); ("y", VF32 (f32_code "2"))])]; VStruct [("point", VStruct [("x", VF32 (f32_code "3")); ("y", VF32 (f32_code "4"))])]])]))
  (XE "trace" None [] [] (0%N, 0%N) [KText "
  "; KElem (XE "point" None [] [] (0%N, 0%N) [KText "
    "; KElem (XE "x" None [] [] (0%N, 0%N) [KText "1"]); KText "
    "; KElem (XE "y" None [] [] (0%N, 0%N) [KText "2"]); KText "
  "]); KText "
  "; KElem (XE "point" None [] [] (0%N, 0%N) [KText "
    "; KElem (XE "x" None [] [] (0%N, 0%N) [KText "3"]); KText "
    "; KElem (XE "y" None [] [] (0%N, 0%N) [KText "4"]); KText "
  "]); KText "
"]) true = true.
Proof. vm_compute. reflexivity. Qed.

(* 49 tests; without a document to compare: existing_mod_content *)
