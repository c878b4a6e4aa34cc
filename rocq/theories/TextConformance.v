(** * TextConformance: the repository's integration tests replayed on texts

    Generated by tools/conformance.py (second argument: texts) from xsd/tests/*.rs and
    xsd/tests/xsd/*. Tests, not proofs: each example reads the text of the schema and of
    the document, and writes the text of the document. *)
From Verif Require Import Base Libs Xml Ast XsdNode Parse Decode Writer Gen Run XmlChars XmlRead XmlWrite Harness.

Definition texts : list (string * string) := [
  ("tests/xsd/all.xsd",
   "<?xml version=""1.0""?>
<xs:schema xmlns:xs=""http://www.w3.org/2001/XMLSchema"">
  <xs:element name=""all"">
    <xs:complexType>
      <xs:all>
        <xs:annotation>
          <xs:documentation>all</xs:documentation>
        </xs:annotation>
        <xs:element name=""first"" type=""xs:string"" />
        <xs:element name=""second"" type=""xs:string"" />
        <xs:element name=""third"" type=""xs:string"" />
      </xs:all>
    </xs:complexType>
  </xs:element>
</xs:schema>");
  ("tests/xsd/attribute_default.xsd",
   "<?xml version=""1.0""?>
<xs:schema xmlns:xs=""http://www.w3.org/2001/XMLSchema"">
  <xs:element name=""text"">
    <xs:complexType>
      <xs:simpleContent>
        <xs:extension base=""xs:string"">
          <xs:attribute name=""lang"" type=""xs:string"" default=""en"" />
        </xs:extension>
      </xs:simpleContent>
    </xs:complexType>
  </xs:element>
</xs:schema>");
  ("tests/xsd/attribute_simple_type.xsd",
   "<?xml version=""1.0""?>
<xs:schema xmlns:xs=""http://www.w3.org/2001/XMLSchema"">
  <xs:element name=""text"">
    <xs:complexType>
      <xs:simpleContent>
        <xs:extension base=""xs:string"">
          <xs:attribute name=""lang"" use=""required"">
            <xs:simpleType>
              <xs:restriction base=""xs:string"">
                <xs:length value=""2""/>
              </xs:restriction>
            </xs:simpleType>
          </xs:attribute>
        </xs:extension>
      </xs:simpleContent>
    </xs:complexType>
  </xs:element>
</xs:schema>");
  ("tests/xsd/attribute_use.xsd",
   "<?xml version=""1.0""?>
<xs:schema xmlns:xs=""http://www.w3.org/2001/XMLSchema"">
  <xs:element name=""setting"">
    <xs:complexType>
      <xs:attribute name=""key"" type=""xs:string"" use=""required"" />
      <xs:attribute name=""value"" type=""xs:string"" use=""optional"" />
      <xs:attribute name=""debug"" type=""xs:boolean"" use=""prohibited"" />
    </xs:complexType>
  </xs:element>
</xs:schema>");
  ("tests/xsd/choice_element_vec.xsd",
   "<?xml version=""1.0""?>
<xs:schema xmlns:xs=""http://www.w3.org/2001/XMLSchema"">
  <xs:element name=""shape"">
    <xs:complexType>
      <xs:sequence>
        <xs:choice>
          <xs:element name=""points"" minOccurs=""1"" maxOccurs=""unbounded"" type=""xs:string"" />
          <xs:element name=""lines"" minOccurs=""1"" maxOccurs=""unbounded"" type=""xs:string"" />
        </xs:choice>
      </xs:sequence>
    </xs:complexType>
  </xs:element>
</xs:schema>");
  ("tests/xsd/choice_literal.xsd",
   "<?xml version=""1.0""?>
<xs:schema xmlns:xs=""http://www.w3.org/2001/XMLSchema"">
  <xs:element name=""article"">
    <xs:complexType>
      <xs:sequence>
        <xs:choice>
          <xs:element name=""user"" type=""xs:string"" />
          <xs:element name=""bot"" type=""xs:string"" />
        </xs:choice>
      </xs:sequence>
    </xs:complexType>
  </xs:element>
</xs:schema>");
  ("tests/xsd/choice_optional.xsd",
   "<?xml version=""1.0""?>
<xs:schema xmlns:xs=""http://www.w3.org/2001/XMLSchema"">
  <xs:complexType name=""User"">
    <xs:sequence>
      <xs:element name=""name"" type=""xs:string"" />
    </xs:sequence>
  </xs:complexType>
  <xs:complexType name=""Bot"">
    <xs:sequence>
      <xs:element name=""handle"" type=""xs:string"" />
    </xs:sequence>
  </xs:complexType>
  <xs:element name=""article"">
    <xs:complexType>
      <xs:sequence>
        <xs:element name=""body"" type=""xs:string"" />
        <xs:choice minOccurs=""0"" maxOccurs=""1"">
          <xs:element name=""user"" type=""User"" />
          <xs:element name=""bot"" type=""Bot"" />
        </xs:choice>
      </xs:sequence>
    </xs:complexType>
  </xs:element>
</xs:schema>");
  ("tests/xsd/choice_selection_optional.xsd",
   "<?xml version=""1.0""?>
<xs:schema xmlns:xs=""http://www.w3.org/2001/XMLSchema"">
  <xs:complexType name=""GeometryType"">
		<xs:sequence>
			<xs:element name=""diameter"" type=""xs:float"" />
			<xs:choice>
				<xs:sequence>
					<xs:element name=""thickness"" minOccurs=""0"" maxOccurs=""unbounded"">
						<xs:complexType>
							<xs:simpleContent>
								<xs:extension base=""xs:float"">
									<xs:attribute name=""reference"" type=""xs:string"" use=""required"" />
								</xs:extension>
							</xs:simpleContent>
						</xs:complexType>
					</xs:element>
					<xs:element name=""thicknessReduction"" default=""false"" minOccurs=""0"">
						<xs:complexType>
							<xs:simpleContent>
								<xs:extension base=""xs:boolean"">
									<xs:attribute name=""reference"" type=""xs:string"" use=""required"" />
								</xs:extension>
							</xs:simpleContent>
						</xs:complexType>
					</xs:element>
				</xs:sequence>
				<xs:element name=""thicknessReductionThin"" type=""xs:boolean"" default=""false"" minOccurs=""0"" />
			</xs:choice>
		</xs:sequence>
	</xs:complexType>
  <xs:element name=""geometry"" type=""GeometryType"" />
</xs:schema>");
  ("tests/xsd/choice_sequence.xsd",
   "<?xml version=""1.0""?>
<xs:schema xmlns:xs=""http://www.w3.org/2001/XMLSchema"">
  <xs:element name=""user"">
    <xs:complexType>
      <xs:sequence>
        <xs:element name=""id"" type=""xs:long"" />
        <xs:choice>
          <xs:annotation>
            <xs:documentation>the name</xs:documentation>
          </xs:annotation>
          <xs:element name=""fullName"" type=""xs:string"" />
          <xs:sequence>
            <xs:element name=""firstName"" type=""xs:string"" />
            <xs:element name=""lastName"" type=""xs:string"" />
          </xs:sequence>
        </xs:choice>
      </xs:sequence>
    </xs:complexType>
  </xs:element>
</xs:schema>");
  ("tests/xsd/choice_vec.xsd",
   "<?xml version=""1.0""?>
<xs:schema xmlns:xs=""http://www.w3.org/2001/XMLSchema"">
  <xs:element name=""user"">
    <xs:complexType>
      <xs:sequence>
        <xs:element name=""id"" type=""xs:long"" />
        <xs:choice minOccurs=""0"" maxOccurs=""unbounded"">
          <xs:element name=""alias"" type=""xs:string"" />
          <xs:element name=""email"" type=""xs:string"" />
        </xs:choice>
      </xs:sequence>
    </xs:complexType>
  </xs:element>
</xs:schema>");
  ("tests/xsd/complex_content.xsd",
   "<?xml version=""1.0""?>
<xs:schema xmlns:xs=""http://www.w3.org/2001/XMLSchema"">
	<xs:complexType name=""User"">
		<xs:sequence>
			<xs:element name=""name"" type=""xs:string"" />
    </xs:sequence>
    <xs:attribute  name=""id"" type=""xs:long"" use=""required"" />
  </xs:complexType>
	<xs:simpleType name=""Roles"">
		<xs:restriction base=""xs:string"">
			<xs:enumeration value=""USER""/>
			<xs:enumeration value=""ADMIN""/>
		</xs:restriction>
	</xs:simpleType>
  <xs:element name=""Account"">
    <xs:complexType mixed=""false"">
      <xs:annotation>
        <xs:documentation>A account.</xs:documentation>
      </xs:annotation>
      <xs:complexContent>
        <xs:extension base=""User"">
          <xs:attribute name=""role"" type=""Roles"" use=""required"" />
        </xs:extension>
      </xs:complexContent>
    </xs:complexType>
  </xs:element>
</xs:schema>
");
  ("tests/xsd/complex_content_sequence.xsd",
   "<?xml version=""1.0""?>
<xs:schema xmlns:xs=""http://www.w3.org/2001/XMLSchema"">
	<xs:complexType name=""User"">
		<xs:sequence>
			<xs:element name=""id"" type=""xs:long"" />
			<xs:element name=""name"" type=""xs:string"" />
    </xs:sequence>
  </xs:complexType>
	<xs:simpleType name=""Roles"">
		<xs:restriction base=""xs:string"">
			<xs:enumeration value=""USER""/>
			<xs:enumeration value=""ADMIN""/>
		</xs:restriction>
	</xs:simpleType>
  <xs:element name=""Account"">
    <xs:complexType mixed=""false"">
      <xs:complexContent>
        <xs:extension base=""User"">
          <xs:sequence>
            <xs:element name=""role"" type=""Roles"" />
            <xs:element name=""enabled"" type=""xs:boolean"" />
          </xs:sequence>
        </xs:extension>
      </xs:complexContent>
    </xs:complexType>
  </xs:element>
</xs:schema>
");
  ("tests/xsd/complex_content_sequence_optional.xsd",
   "<?xml version=""1.0""?>
<xs:schema xmlns:xs=""http://www.w3.org/2001/XMLSchema"">
	<xs:complexType name=""User"">
		<xs:sequence>
			<xs:element name=""id"" type=""xs:long"" />
			<xs:element name=""name"" type=""xs:string"" />
    </xs:sequence>
  </xs:complexType>
	<xs:simpleType name=""Roles"">
		<xs:restriction base=""xs:string"">
			<xs:enumeration value=""USER""/>
			<xs:enumeration value=""ADMIN""/>
		</xs:restriction>
	</xs:simpleType>
  <xs:element name=""Account"">
    <xs:complexType mixed=""false"">
      <xs:complexContent>
        <xs:extension base=""User"">
          <xs:sequence minOccurs=""0"">
            <xs:element name=""role"" type=""Roles"" />
            <xs:element name=""enabled"" type=""xs:boolean"" />
          </xs:sequence>
        </xs:extension>
      </xs:complexContent>
    </xs:complexType>
  </xs:element>
</xs:schema>
");
  ("tests/xsd/complex_type_attribute.xsd",
   "<?xml version=""1.0""?>
<xs:schema xmlns:xs=""http://www.w3.org/2001/XMLSchema"">
  <xs:element name=""article"">
    <xs:complexType>
      <xs:annotation>
        <xs:documentation>An article.</xs:documentation>
      </xs:annotation>
      <xs:sequence>
        <xs:element name=""excerpt"" type=""xs:string"" />
      </xs:sequence>
      <xs:attribute name=""author"" type=""xs:string"">
        <xs:annotation>
          <xs:documentation>The article author.</xs:documentation>
        </xs:annotation>
      </xs:attribute>
    </xs:complexType>
  </xs:element>
</xs:schema>");
  ("tests/xsd/complex_type_choice.xsd",
   "<?xml version=""1.0""?>
<xs:schema xmlns:xs=""http://www.w3.org/2001/XMLSchema"">
  <xs:complexType name=""User"">
    <xs:annotation>
      <xs:documentation>An user.</xs:documentation>
    </xs:annotation>
    <xs:attribute name=""name"" type=""xs:string"" use=""required"" />
  </xs:complexType>
  <xs:complexType name=""Bot"">
    <xs:attribute name=""handle"" type=""xs:string"" use=""required"" />
  </xs:complexType>
  <xs:complexType name=""Author"">
    <xs:annotation>
      <xs:documentation>An author.</xs:documentation>
    </xs:annotation>
    <xs:choice>
      <xs:element name=""user"" type=""User"" />
      <xs:element name=""bot"" type=""Bot"" />
    </xs:choice>
    <xs:attribute name=""isVerified"" type=""xs:boolean"" use=""required""/>
  </xs:complexType>
  <xs:element name=""article"">
    <xs:complexType>
      <xs:annotation>
        <xs:documentation>An article.</xs:documentation>
      </xs:annotation>
      <xs:sequence>
        <xs:element name=""createdBy"" type=""Author"" />
        <xs:element name=""postedBy"">
          <xs:complexType>
            <xs:choice>
              <xs:element name=""user"" type=""User"" />
              <xs:element name=""bot"" type=""Bot"" />
            </xs:choice>
            <xs:attribute name=""isVerified"" type=""xs:boolean"" use=""required""/>
          </xs:complexType>
        </xs:element>
      </xs:sequence>
    </xs:complexType>
  </xs:element>
</xs:schema>");
  ("tests/xsd/complex_type_fixed.xsd",
   "<?xml version=""1.0""?>
<xs:schema xmlns:xs=""http://www.w3.org/2001/XMLSchema"">
  <xs:element name=""meta"">
    <xs:complexType>
      <xs:annotation>
        <xs:documentation>Service information.</xs:documentation>
      </xs:annotation>
      <xs:sequence>
        <xs:element name=""version"" type=""xs:int"" fixed=""2"" minOccurs=""1"">
          <xs:annotation>
            <xs:documentation>The major version number.</xs:documentation>
          </xs:annotation>
        </xs:element>
      </xs:sequence>
      <xs:attribute name=""name"" type=""xs:string"" fixed=""foobar"">
        <xs:annotation>
          <xs:documentation>The service name.</xs:documentation>
        </xs:annotation>
      </xs:attribute>
    </xs:complexType>
  </xs:element>
</xs:schema>");
  ("tests/xsd/element_complex_type_sequence.xsd",
   "<?xml version=""1.0""?>
<xs:schema xmlns:xs=""http://www.w3.org/2001/XMLSchema"">
  <xs:element name=""article"">
    <xs:annotation>
      <xs:documentation>A single article.</xs:documentation>
    </xs:annotation>
    <xs:complexType>
      <xs:sequence>
        <xs:element name=""subject"" type=""xs:string"" />
        <xs:element name=""body"" type=""xs:string"" />
        <xs:element name=""author"" type=""xs:string"" />
      </xs:sequence>
    </xs:complexType>
  </xs:element>
</xs:schema>");
  ("tests/xsd/element_default.xsd",
   "<?xml version=""1.0""?>
<xs:schema xmlns:xs=""http://www.w3.org/2001/XMLSchema"">
  <xs:element name=""settings"">
    <xs:complexType>
      <xs:sequence>
        <xs:element name=""debug"" type=""xs:boolean"" minOccurs=""0"" default=""false"" />
      </xs:sequence>
    </xs:complexType>
  </xs:element>
</xs:schema>");
  ("tests/xsd/element_fixed.xsd",
   "<?xml version=""1.0""?>
<xs:schema xmlns:xs=""http://www.w3.org/2001/XMLSchema"">
  <xs:element name=""name"" type=""xs:string"" fixed=""foobar"">
    <xs:annotation>
      <xs:documentation>The service name.</xs:documentation>
    </xs:annotation>
  </xs:element>
  <!-- <xs:complexType name=""version"">
    <xs:annotation>
      <xs:documentation>The service version.</xs:documentation>
    </xs:annotation>
    <xs:sequence>
      <xs:element name=""major"" type=""xs:int"" fixed=""2"" minOccurs=""1"">
        <xs:annotation>
          <xs:documentation>Majore version number.</xs:documentation>
        </xs:annotation>
      </xs:element>
    </xs:sequence>
  </xs:complexType> -->
</xs:schema>");
  ("tests/xsd/element_nested.xsd",
   "<?xml version=""1.0""?>
<xs:schema xmlns:xs=""http://www.w3.org/2001/XMLSchema"">
  <xs:element name=""article"">
    <xs:complexType>
      <xs:sequence>
        <xs:element name=""excerpt"" type=""xs:string"" />
        <xs:element name=""author"">
          <xs:complexType>
            <xs:sequence>
              <xs:element name=""name"" type=""xs:string"" />
            </xs:sequence>
          </xs:complexType>
        </xs:element>
      </xs:sequence>
    </xs:complexType>
  </xs:element>
</xs:schema>");
  ("tests/xsd/element_nested_attribute.xsd",
   "<?xml version=""1.0""?>
<xs:schema xmlns:xs=""http://www.w3.org/2001/XMLSchema"">
  <xs:element name=""article"">
    <xs:complexType>
      <xs:sequence>
        <xs:element name=""excerpt"" type=""xs:string"" />
        <xs:element name=""author"">
          <xs:complexType>
            <xs:sequence>
              <xs:element name=""name"" type=""xs:string"" />
            </xs:sequence>
            <xs:attribute name=""id"" type=""xs:long"" />
          </xs:complexType>
        </xs:element>
      </xs:sequence>
    </xs:complexType>
  </xs:element>
</xs:schema>");
  ("tests/xsd/element_optional.xsd",
   "<?xml version=""1.0""?>
<xs:schema xmlns:xs=""http://www.w3.org/2001/XMLSchema"">
  <xs:element name=""settings"">
    <xs:complexType>
      <xs:sequence>
        <xs:element name=""debug"" type=""xs:boolean"" minOccurs=""0"" />
      </xs:sequence>
    </xs:complexType>
  </xs:element>
</xs:schema>");
  ("tests/xsd/element_optional_vec.xsd",
   "<?xml version=""1.0""?>
<xs:schema xmlns:xs=""http://www.w3.org/2001/XMLSchema"">
  <xs:element name=""list"">
    <xs:complexType>
      <xs:sequence>
        <xs:element name=""id"" type=""xs:long"" minOccurs=""0"" maxOccurs=""unbounded"" />
      </xs:sequence>
    </xs:complexType>
  </xs:element>
</xs:schema>");
  ("tests/xsd/element_ref.xsd",
   "<?xml version=""1.0"" encoding=""UTF-8""?>
<xs:schema xmlns:xs=""http://www.w3.org/2001/XMLSchema"" elementFormDefault=""qualified"" targetNamespace=""urn:main"" xmlns:main=""urn:main"" xmlns:base=""urn:base"">
	<xs:import namespace=""urn:base"" schemaLocation=""./element_ref_other.xsd""/>
  <xs:complexType name=""ArticleType"">
    <xs:sequence>
      <xs:element ref=""base:content"" minOccurs=""0"" maxOccurs=""1"" />
      <xs:element ref=""main:author"" />
    </xs:sequence>
  </xs:complexType>
  <xs:element name=""article"" type=""main:ArticleType"" />
  <xs:element name=""author"" type=""xs:string"" />
</xs:schema>");
  ("tests/xsd/element_ref_element.xsd",
   "<?xml version=""1.0"" encoding=""UTF-8""?>
<xs:schema xmlns:xs=""http://www.w3.org/2001/XMLSchema"" elementFormDefault=""qualified"" targetNamespace=""urn:main"" xmlns:main=""urn:main"">
  <xs:element name=""service"">
    <xs:complexType>
      <xs:sequence>
        <xs:element ref=""main:versionNumber"" />
      </xs:sequence>
    </xs:complexType>
  </xs:element>
  <xs:element name=""versionNumber"">
		<xs:complexType>
			<xs:sequence>
				<xs:element name=""major"" type=""xs:int"" />
				<xs:element name=""minor"" type=""xs:int"" />
				<xs:element name=""bug"" type=""xs:int"" />
			</xs:sequence>
		</xs:complexType>
	</xs:element>
</xs:schema>");
  ("tests/xsd/element_ref_other.xsd",
   "<?xml version=""1.0""?>
<xs:schema xmlns:xs=""http://www.w3.org/2001/XMLSchema"" elementFormDefault=""qualified"" targetNamespace=""urn:base"" xmlns:base=""urn:base"">
  <xs:element name=""content"" type=""base:ArticleContent"" />
  <xs:complexType name=""ArticleContent"">
    <xs:sequence>
      <xs:element name=""excerpt"" type=""xs:string"" />
    </xs:sequence>
  </xs:complexType>
</xs:schema>");
  ("tests/xsd/element_ref_type.xsd",
   "<?xml version=""1.0""?>
<xs:schema xmlns:xs=""http://www.w3.org/2001/XMLSchema"" xmlns:main=""urn:main"">
	<xs:simpleType name=""ZipType"">
		<xs:restriction base=""xs:string"">
      <xs:minLength value=""5""/>
      <xs:maxLength value=""5""/>
      <xs:pattern value=""[0-9]{5}""/>
		</xs:restriction>
	</xs:simpleType>
	<xs:element name=""zip"" type=""ZipType""/>
  <xs:element name=""address"">
    <xs:complexType>
      <xs:sequence>
        <xs:element ref=""zip"" />
      </xs:sequence>
    </xs:complexType>
  </xs:element>
</xs:schema>");
  ("tests/xsd/element_simple_type.xsd",
   "<?xml version=""1.0""?>
<xs:schema xmlns:xs=""http://www.w3.org/2001/XMLSchema"">
  <xs:element name=""count"">
    <xs:simpleType>
      <xs:restriction base=""xs:integer"" />
    </xs:simpleType>
  </xs:element>
</xs:schema>");
  ("tests/xsd/element_type_complex.xsd",
   "<?xml version=""1.0""?>
<xs:schema xmlns:xs=""http://www.w3.org/2001/XMLSchema"">
  <xs:element name=""article"">
    <xs:complexType>
      <xs:sequence>
        <xs:element name=""excerpt"" type=""xs:string"" />
        <xs:element name=""author"" type=""author"" />
      </xs:sequence>
    </xs:complexType>
  </xs:element>
  <xs:complexType name=""author"">
    <xs:sequence>
      <xs:element name=""name"" type=""xs:string"" />
    </xs:sequence>
  </xs:complexType>
</xs:schema>");
  ("tests/xsd/element_type_literal.xsd",
   "<?xml version=""1.0""?>
<xs:schema xmlns:xs=""http://www.w3.org/2001/XMLSchema"">
  <xs:element name=""Name"" type=""xs:string"" />
</xs:schema>");
  ("tests/xsd/element_vec.xsd",
   "<?xml version=""1.0""?>
<xs:schema xmlns:xs=""http://www.w3.org/2001/XMLSchema"">
  <xs:element name=""list"">
    <xs:complexType>
      <xs:sequence>
        <xs:element name=""id"" type=""xs:long"" maxOccurs=""unbounded"" />
      </xs:sequence>
    </xs:complexType>
  </xs:element>
</xs:schema>");
  ("tests/xsd/enum_attribute.xsd",
   "<?xml version=""1.0""?>
<xs:schema xmlns:xs=""http://www.w3.org/2001/XMLSchema"">
  <xs:simpleType name=""ArticleState"">
    <xs:restriction base=""xs:string"">
      <xs:enumeration value=""DRAFT""/>
      <xs:enumeration value=""PUBLISHED""/>
    </xs:restriction>
  </xs:simpleType>
  <xs:element name=""article"">
    <xs:complexType>
      <xs:attribute name=""state"" type=""ArticleState"" />
    </xs:complexType>
  </xs:element>
</xs:schema>");
  ("tests/xsd/enum_literal.xsd",
   "<?xml version=""1.0""?>
<xs:schema xmlns:xs=""http://www.w3.org/2001/XMLSchema"">
  <xs:simpleType name=""OrderState"">
    <xs:restriction base=""xs:string"">
      <xs:enumeration value=""PENDING""/>
      <xs:enumeration value=""READY""/>
    </xs:restriction>
  </xs:simpleType>
  <xs:element name=""order"">
    <xs:complexType>
      <xs:sequence>
        <xs:element name=""state"" type=""OrderState"" />
      </xs:sequence>
    </xs:complexType>
  </xs:element>
</xs:schema>");
  ("tests/xsd/enum_literal_root.xsd",
   "<?xml version=""1.0""?>
<xs:schema xmlns:xs=""http://www.w3.org/2001/XMLSchema"">
  <xs:simpleType name=""StateType"">
    <xs:restriction base=""xs:string"">
      <xs:enumeration value=""PENDING""/>
      <xs:enumeration value=""READY""/>
    </xs:restriction>
  </xs:simpleType>
  <xs:element name=""state"" type=""StateType"" />
</xs:schema>");
  ("tests/xsd/form_qualified.xsd",
   "<?xml version=""1.0""?>
<xs:schema xmlns:xs=""http://www.w3.org/2001/XMLSchema"" elementFormDefault=""qualified"">
  <xs:element name=""article"">
    <xs:complexType>
      <xs:sequence>
        <xs:element name=""excerpt"" type=""xs:string"" />
        <xs:element name=""author"">
          <xs:complexType>
            <xs:sequence>
              <xs:element name=""name"" type=""xs:string"" />
            </xs:sequence>
          </xs:complexType>
        </xs:element>
      </xs:sequence>
    </xs:complexType>
  </xs:element>
</xs:schema>");
  ("tests/xsd/form_qualified_with_target_namespace.xsd",
   "<?xml version=""1.0""?>
<xs:schema xmlns:xs=""http://www.w3.org/2001/XMLSchema"" elementFormDefault=""qualified"" targetNamespace=""urn:foobar"">
  <xs:element name=""article"">
    <xs:complexType>
      <xs:sequence>
        <xs:element name=""excerpt"" type=""xs:string"" />
        <xs:element name=""author"">
          <xs:complexType>
            <xs:sequence>
              <xs:element name=""name"" type=""xs:string"" />
            </xs:sequence>
          </xs:complexType>
        </xs:element>
      </xs:sequence>
    </xs:complexType>
  </xs:element>
</xs:schema>");
  ("tests/xsd/form_unqualified.xsd",
   "<?xml version=""1.0""?>
<xs:schema xmlns:xs=""http://www.w3.org/2001/XMLSchema"" elementFormDefault=""unqualified"">
  <xs:element name=""article"">
    <xs:complexType>
      <xs:sequence>
        <xs:element name=""excerpt"" type=""xs:string"" />
        <xs:element name=""author"">
          <xs:complexType>
            <xs:sequence>
              <xs:element name=""name"" type=""xs:string"" />
            </xs:sequence>
          </xs:complexType>
        </xs:element>
      </xs:sequence>
    </xs:complexType>
  </xs:element>
</xs:schema>");
  ("tests/xsd/form_unqualified_with_target_namespace.xsd",
   "<?xml version=""1.0""?>
<xs:schema xmlns:xs=""http://www.w3.org/2001/XMLSchema"" elementFormDefault=""unqualified"" targetNamespace=""urn:foobar"">
  <xs:element name=""article"">
    <xs:complexType>
      <xs:sequence>
        <xs:element name=""excerpt"" type=""xs:string"" />
        <xs:element name=""author"">
          <xs:complexType>
            <xs:sequence>
              <xs:element name=""name"" type=""xs:string"" />
            </xs:sequence>
          </xs:complexType>
        </xs:element>
      </xs:sequence>
    </xs:complexType>
  </xs:element>
</xs:schema>");
  ("tests/xsd/import.xsd",
   "<?xml version=""1.0"" encoding=""UTF-8""?>
<xs:schema xmlns:xs=""http://www.w3.org/2001/XMLSchema"" elementFormDefault=""qualified"" targetNamespace=""urn:main"" xmlns:base=""urn:base"">
	<xs:import namespace=""urn:base"" schemaLocation=""./import_other.xsd""/>
  <xs:element name=""article"">
    <xs:complexType>
      <xs:sequence>
        <xs:element name=""content"" type=""base:ArticleContent"" />
      </xs:sequence>
    </xs:complexType>
  </xs:element>
</xs:schema>");
  ("tests/xsd/import_other.xsd",
   "<?xml version=""1.0""?>
<xs:schema xmlns:xs=""http://www.w3.org/2001/XMLSchema"" elementFormDefault=""qualified"" targetNamespace=""urn:base"">
  <xs:complexType name=""ArticleContent"">
    <xs:sequence>
      <xs:element name=""excerpt"" type=""xs:string"" />
      <xs:element name=""author"">
        <xs:complexType>
          <xs:sequence>
            <xs:element name=""name"" type=""xs:string"" />
          </xs:sequence>
        </xs:complexType>
      </xs:element>
    </xs:sequence>
  </xs:complexType>
</xs:schema>");
  ("tests/xsd/include.xsd",
   "<?xml version=""1.0"" encoding=""UTF-8""?>
<xs:schema xmlns:xs=""http://www.w3.org/2001/XMLSchema"" elementFormDefault=""qualified"">
	<xs:include schemaLocation=""./include_other.xsd""/>
  <xs:element name=""article"">
    <xs:complexType>
      <xs:sequence>
        <xs:element name=""content"" type=""ArticleContent"" />
      </xs:sequence>
    </xs:complexType>
  </xs:element>
</xs:schema>");
  ("tests/xsd/include_other.xsd",
   "<?xml version=""1.0""?>
<xs:schema xmlns:xs=""http://www.w3.org/2001/XMLSchema"" elementFormDefault=""qualified"">
  <xs:complexType name=""ArticleContent"">
    <xs:sequence>
      <xs:element name=""excerpt"" type=""xs:string"" />
      <xs:element name=""author"">
        <xs:complexType>
          <xs:sequence>
            <xs:element name=""name"" type=""xs:string"" />
          </xs:sequence>
        </xs:complexType>
      </xs:element>
    </xs:sequence>
  </xs:complexType>
</xs:schema>");
  ("tests/xsd/sequence_choice.xsd",
   "<?xml version=""1.0""?>
<xs:schema xmlns:xs=""http://www.w3.org/2001/XMLSchema"">
  <xs:complexType name=""User"">
    <xs:sequence>
      <xs:element name=""name"" type=""xs:string"" />
    </xs:sequence>
  </xs:complexType>
  <xs:complexType name=""Bot"">
    <xs:sequence>
      <xs:element name=""handle"" type=""xs:string"" />
    </xs:sequence>
  </xs:complexType>
  <xs:element name=""article"">
    <xs:complexType>
      <xs:sequence>
        <xs:element name=""body"" type=""xs:string"" />
        <xs:choice>
          <xs:element name=""user"" type=""User"" />
          <xs:element name=""bot"" type=""Bot"" />
        </xs:choice>
      </xs:sequence>
    </xs:complexType>
  </xs:element>
</xs:schema>");
  ("tests/xsd/sequence_optional.xsd",
   "<?xml version=""1.0""?>
<xs:schema xmlns:xs=""http://www.w3.org/2001/XMLSchema"">
  <xs:element name=""settings"">
    <xs:complexType>
      <xs:sequence>
        <xs:element name=""scope"" type=""xs:string"" />
        <xs:sequence minOccurs=""0"">
          <xs:element name=""key"" type=""xs:string"" />
          <xs:element name=""value"" type=""xs:int"" />
        </xs:sequence>
      </xs:sequence>
    </xs:complexType>
  </xs:element>
</xs:schema>");
  ("tests/xsd/sequence_optional_with_optionals.xsd",
   "<?xml version=""1.0""?>
<xs:schema xmlns:xs=""http://www.w3.org/2001/XMLSchema"">
  <xs:complexType name=""Account"">
    <xs:sequence>
      <xs:element name=""id"" type=""xs:long"" />
    </xs:sequence>
  </xs:complexType>
  <xs:complexType name=""Patient"">
    <xs:complexContent>
			<xs:extension base=""Account"">
				<xs:sequence minOccurs=""0"">
          <xs:element name=""fullName"" type=""xs:string"" minOccurs=""0"" />
          <xs:sequence minOccurs=""0"">
            <xs:element name=""firstName"" type=""xs:string"" minOccurs=""0"" />
            <xs:element name=""lastName"" type=""xs:string"" minOccurs=""0"" />
          </xs:sequence>
        </xs:sequence>
      </xs:extension>
    </xs:complexContent>
  </xs:complexType>
  <xs:element name=""record"">
    <xs:complexType>
      <xs:sequence>
        <xs:element name=""patient"" type=""Patient""  minOccurs=""0"" />
      </xs:sequence>
    </xs:complexType>
  </xs:element>
</xs:schema>");
  ("tests/xsd/sequence_sequence.xsd",
   "<?xml version=""1.0""?>
<xs:schema xmlns:xs=""http://www.w3.org/2001/XMLSchema"">
  <xs:element name=""settings"">
    <xs:complexType>
      <xs:sequence>
        <xs:annotation>
          <xs:documentation>includes</xs:documentation>
        </xs:annotation>
        <xs:element name=""scope"" type=""xs:string"" />
        <xs:sequence>
          <xs:element name=""key"" type=""xs:string"" />
          <xs:element name=""value"" type=""xs:int"" />
        </xs:sequence>
      </xs:sequence>
    </xs:complexType>
  </xs:element>
</xs:schema>");
  ("tests/xsd/sequence_vec.xsd",
   "<?xml version=""1.0""?>
<xs:schema xmlns:xs=""http://www.w3.org/2001/XMLSchema"">
  <xs:element name=""settings"">
    <xs:complexType>
      <xs:sequence maxOccurs=""unbounded"">
        <xs:element name=""key"" type=""xs:string"" />
        <xs:element name=""value"" type=""xs:int"" />
      </xs:sequence>
    </xs:complexType>
  </xs:element>
</xs:schema>");
  ("tests/xsd/simple_content.xsd",
   "<?xml version=""1.0""?>
<xs:schema xmlns:xs=""http://www.w3.org/2001/XMLSchema"">
  <xs:element name=""text"">
    <xs:complexType>
      <xs:annotation>
        <xs:documentation>A text snippet.</xs:documentation>
      </xs:annotation>
      <xs:simpleContent>
        <xs:extension base=""xs:string"">
          <xs:attribute name=""lang"" type=""xs:string"" />
        </xs:extension>
      </xs:simpleContent>
    </xs:complexType>
  </xs:element>
</xs:schema>");
  ("tests/xsd/simple_content_custom_base.xsd",
   "<?xml version=""1.0""?>
<xs:schema xmlns:xs=""http://www.w3.org/2001/XMLSchema"">
  <xs:simpleType name=""Role"">
    <xs:restriction base=""xs:string"">
      <xs:enumeration value=""User""/>
      <xs:enumeration value=""Admin""/>
    </xs:restriction>
  </xs:simpleType>
  <xs:element name=""user"">
    <xs:complexType>
      <xs:sequence>
        <xs:element name=""role"">
          <xs:complexType>
            <xs:simpleContent>
              <xs:extension base=""Role"">
                <xs:attribute name=""inherited"" type=""xs:boolean"" use=""required"" />
              </xs:extension>
            </xs:simpleContent>
          </xs:complexType>
        </xs:element>
      </xs:sequence>
    </xs:complexType>
  </xs:element>
</xs:schema>");
  ("tests/xsd/simple_type_empty.xsd",
   "<?xml version=""1.0""?>
<xs:schema xmlns:xs=""http://www.w3.org/2001/XMLSchema"">
  <xs:element name=""text"" type=""xs:string"" />
</xs:schema>");
  ("tests/xsd/simple_type_restriction.xsd",
   "<?xml version=""1.0""?>
<xs:schema xmlns:xs=""http://www.w3.org/2001/XMLSchema"">
  <xs:simpleType name=""SideEnum"">
    <xs:annotation>
      <xs:documentation>The side.</xs:documentation>
    </xs:annotation>
    <xs:restriction base=""xs:string"">
      <xs:enumeration value=""RIGHT""/>
      <xs:enumeration value=""LEFT""/>
    </xs:restriction>
  </xs:simpleType>
  <xs:element name=""Side"" type=""SideEnum"">
  </xs:element>
</xs:schema>");
  ("tests/xsd/virtual_type_collision.xsd",
   "<?xml version=""1.0""?>
<xs:schema xmlns:xs=""http://www.w3.org/2001/XMLSchema"">
  <xs:complexType name=""path"">
		<xs:sequence maxOccurs=""unbounded"">
			<xs:element name=""point"">
				<xs:complexType>
					<xs:sequence>
						<xs:element name=""x"" type=""xs:float""/>
						<xs:element name=""y"" type=""xs:float""/>
					</xs:sequence>
				</xs:complexType>
			</xs:element>
		</xs:sequence>
	</xs:complexType>
  <xs:element name=""trace"" type=""path"" />
</xs:schema>")
].
Definition files : list (string * option xelem) := Eval vm_compute in map (fun f => (fst f, parse_xml (snd f))) texts.

Definition text_fs (files : list (string * option xelem)) : fs :=
  mkFs (fun p => aget String.eqb p files) (fun base p => base +++ strip_dot p) dir_of.
(** The text decodes to the value and, if [exact], the value is written as the text. *)
Definition text_conf (files : list (string * option xelem)) (path ty : string) (v : value) (text : string) (exact : bool) : bool :=
  match (s <- parse_file 50 (text_fs files) path ;; generate_all 50 s), parse_xml text with
  | Ok p, Some d =>
      andb (match from_xml p 50 ty d with Ok w => value_eqb 50 w v | _ => false end)
        (match to_xml p 50 ty v with
         | Ok evs => if exact then opt_eqb String.eqb (write_xml (xml_rs) evs) (Some text) else true
         | _ => false
         end)
  | _, _ => false
  end.

Example text_all : text_conf files "tests/xsd/all.xsd" "All"
  (VStruct [("first", VStr "first"); ("second", VStr "second"); ("third", VStr "third")])
  "<?xml version=""1.0"" encoding=""UTF-8""?>
<all>
  <second>second</second>
  <third>third</third>
  <first>first</first>
</all>" false = true.
Proof. vm_compute. reflexivity. Qed.

Example text_attribute_default : text_conf files "tests/xsd/attribute_default.xsd" "Text"
  (VStruct [("text", VStr "foobar"); ("lang", VNone)])
  "<?xml version=""1.0"" encoding=""UTF-8""?>
<text>foobar</text>" true = true.
Proof. vm_compute. reflexivity. Qed.

Example text_attribute_simple_type : text_conf files "tests/xsd/attribute_simple_type.xsd" "Text"
  (VStruct [("text", VStr "Deutsch"); ("lang", VStr "DE")])
  "<?xml version=""1.0"" encoding=""UTF-8""?>
<text lang=""DE"">Deutsch</text>" true = true.
Proof. vm_compute. reflexivity. Qed.

Example text_attribute_use : text_conf files "tests/xsd/attribute_use.xsd" "Setting"
  (VStruct [("key", VStr "foo"); ("value", VSome (VStr "bar"))])
  "<?xml version=""1.0"" encoding=""UTF-8""?>
<setting key=""foo"" value=""bar"" />" true = true.
Proof. vm_compute. reflexivity. Qed.

Example text_choice_element_vec : text_conf files "tests/xsd/choice_element_vec.xsd" "Shape"
  (VStruct [("s", VChoice "Points" (VVec [VStr "1,2"; VStr "2,3"]))])
  "<?xml version=""1.0"" encoding=""UTF-8""?>
<shape>
  <points>1,2</points>
  <points>2,3</points>
</shape>" true = true.
Proof. vm_compute. reflexivity. Qed.

Example text_choice_literal : text_conf files "tests/xsd/choice_literal.xsd" "Article"
  (VStruct [("user_bot", VChoice "Bot" (VStr "foobot"))])
  "<?xml version=""1.0"" encoding=""UTF-8""?>
<article>
  <bot>foobot</bot>
</article>" true = true.
Proof. vm_compute. reflexivity. Qed.

Example text_choice_optional : text_conf files "tests/xsd/choice_optional.xsd" "Article"
  (VStruct [("body", VStr "Lorem Ipsum"); ("user_bot", VSome (VChoice "Bot" (VStruct [("handle", VStr "foobot")])))])
  "<?xml version=""1.0"" encoding=""UTF-8""?>
<article>
  <body>Lorem Ipsum</body>
  <bot>
    <handle>foobot</handle>
  </bot>
</article>" true = true.
Proof. vm_compute. reflexivity. Qed.

Example text_choice_selection_optional : text_conf files "tests/xsd/choice_selection_optional.xsd" "Geometry"
  (VTuple (VStruct [("diameter", VF32 (f32_code "12.4")); ("thickness", VChoice "Thickness" (VStruct [("thickness", VNone); ("thickness_reduction", VSome (VStruct [("geometry_type_thickness_reduction_data", VBool true); ("reference", VStr "shape")]))]))]))
  "<?xml version=""1.0"" encoding=""UTF-8""?>
<geometry>
  <diameter>12.4</diameter>
  <thicknessReduction reference=""shape"">true</thicknessReduction>
</geometry>" true = true.
Proof. vm_compute. reflexivity. Qed.

Example text_choice_sequence : text_conf files "tests/xsd/choice_sequence.xsd" "User"
  (VStruct [("id", VInt (42)%Z); ("name", VChoice "Name" (VStruct [("first_name", VStr "Foo"); ("last_name", VStr "Foo")]))])
  "<?xml version=""1.0"" encoding=""UTF-8""?>
<user>
  <id>42</id>
  <firstName>Foo</firstName>
  <lastName>Foo</lastName>
</user>" true = true.
Proof. vm_compute. reflexivity. Qed.

Example text_choice_vec : text_conf files "tests/xsd/choice_vec.xsd" "User"
  (VStruct [("id", VInt (42)%Z); ("alias_email", VSome (VVec [VChoice "Alias" (VStr "Foo"); VChoice "Email" (VStr "foo@example.org"); VChoice "Email" (VStr "42@example.org")]))])
  "<?xml version=""1.0"" encoding=""UTF-8""?>
<user>
  <id>42</id>
  <alias>Foo</alias>
  <email>foo@example.org</email>
  <email>42@example.org</email>
</user>" true = true.
Proof. vm_compute. reflexivity. Qed.

Example text_complex_content : text_conf files "tests/xsd/complex_content.xsd" "Account"
  (VStruct [("user", VStruct [("id", VInt (42)%Z); ("name", VStr "Foobar")]); ("role", VEnum "Admin")])
  "<?xml version=""1.0"" encoding=""UTF-8""?>
<Account role=""ADMIN"" id=""42"">
  <name>Foobar</name>
</Account>" true = true.
Proof. vm_compute. reflexivity. Qed.

Example text_complex_content_sequence : text_conf files "tests/xsd/complex_content_sequence.xsd" "Account"
  (VStruct [("base", VStruct [("id", VInt (42)%Z); ("name", VStr "Foobar")]); ("user", VStruct [("role", VEnum "Admin"); ("enabled", VBool true)])])
  "<?xml version=""1.0"" encoding=""UTF-8""?>
<Account>
  <id>42</id>
  <name>Foobar</name>
  <role>ADMIN</role>
  <enabled>true</enabled>
</Account>" true = true.
Proof. vm_compute. reflexivity. Qed.

Example text_complex_content_sequence_optional : text_conf files "tests/xsd/complex_content_sequence_optional.xsd" "Account"
  (VStruct [("base", VStruct [("id", VInt (42)%Z); ("name", VStr "Foobar")]); ("user", VSome (VStruct [("role", VEnum "Admin"); ("enabled", VBool true)]))])
  "<?xml version=""1.0"" encoding=""UTF-8""?>
<Account>
  <id>42</id>
  <name>Foobar</name>
  <role>ADMIN</role>
  <enabled>true</enabled>
</Account>" true = true.
Proof. vm_compute. reflexivity. Qed.

Example text_complex_type_attribute : text_conf files "tests/xsd/complex_type_attribute.xsd" "Article"
  (VStruct [("excerpt", VStr "Lorem Ipsum"); ("author", VSome (VStr "Foobar"))])
  "<?xml version=""1.0"" encoding=""UTF-8""?>
<article author=""Foobar"">
  <excerpt>Lorem Ipsum</excerpt>
</article>" true = true.
Proof. vm_compute. reflexivity. Qed.

Example text_complex_type_choice : text_conf files "tests/xsd/complex_type_choice.xsd" "Article"
  (VStruct [("created_by", VStruct [("author_data", VChoice "User" (VStruct [("name", VStr "Foobar")])); ("is_verified", VBool true)]); ("posted_by", VStruct [("article_posted_by_data_data", VChoice "Bot" (VStruct [("handle", VStr "Foobot")])); ("is_verified", VBool false)])])
  "<?xml version=""1.0"" encoding=""UTF-8""?>
<article>
  <createdBy isVerified=""true"">
    <user name=""Foobar"" />
  </createdBy>
  <postedBy isVerified=""false"">
    <bot handle=""Foobot"" />
  </postedBy>
</article>" true = true.
Proof. vm_compute. reflexivity. Qed.

Example text_complex_type_fixed : text_conf files "tests/xsd/complex_type_fixed.xsd" "Meta"
  (VStruct [("version", VUnit); ("name", VSome (VUnit))])
  "<?xml version=""1.0"" encoding=""UTF-8""?>
<meta name=""foobar"">
  <version>2</version>
</meta>" true = true.
Proof. vm_compute. reflexivity. Qed.

Example text_element_complex_type_sequence : text_conf files "tests/xsd/element_complex_type_sequence.xsd" "Article"
  (VStruct [("subject", VStr "Lorem Ipsum"); ("body", VStr "Lorem ipsum dolor sit amet."); ("author", VStr "Foobar")])
  "<?xml version=""1.0"" encoding=""UTF-8""?>
<article>
  <subject>Lorem Ipsum</subject>
  <body>Lorem ipsum dolor sit amet.</body>
  <author>Foobar</author>
</article>" true = true.
Proof. vm_compute. reflexivity. Qed.

Example text_element_default : text_conf files "tests/xsd/element_default.xsd" "Settings"
  (VStruct [("debug", VNone)])
  "<?xml version=""1.0"" encoding=""UTF-8""?>
<settings />" true = true.
Proof. vm_compute. reflexivity. Qed.

Example text_element_fixed : text_conf files "tests/xsd/element_fixed.xsd" "Name"
  (VTuple (VUnit))
  "<?xml version=""1.0"" encoding=""UTF-8""?>
<name>foobar</name>" true = true.
Proof. vm_compute. reflexivity. Qed.

Example text_element_nested : text_conf files "tests/xsd/element_nested.xsd" "Article"
  (VStruct [("excerpt", VStr "Lorem Ipsum"); ("author", VStruct [("name", VStr "Foobar")])])
  "<?xml version=""1.0"" encoding=""UTF-8""?>
<article>
  <excerpt>Lorem Ipsum</excerpt>
  <author>
    <name>Foobar</name>
  </author>
</article>" true = true.
Proof. vm_compute. reflexivity. Qed.

Example text_element_nested_attribute : text_conf files "tests/xsd/element_nested_attribute.xsd" "Article"
  (VStruct [("excerpt", VStr "Lorem Ipsum"); ("author", VStruct [("id", VSome (VInt (42)%Z)); ("name", VStr "Foobar")])])
  "<?xml version=""1.0"" encoding=""UTF-8""?>
<article>
  <excerpt>Lorem Ipsum</excerpt>
  <author id=""42"">
    <name>Foobar</name>
  </author>
</article>" true = true.
Proof. vm_compute. reflexivity. Qed.

Example text_element_optional : text_conf files "tests/xsd/element_optional.xsd" "Settings"
  (VStruct [("debug", VSome (VBool true))])
  "<?xml version=""1.0"" encoding=""UTF-8""?>
<settings>
  <debug>true</debug>
</settings>" true = true.
Proof. vm_compute. reflexivity. Qed.

Example text_element_optional_vec : text_conf files "tests/xsd/element_optional_vec.xsd" "List"
  (VStruct [("id", VSome (VVec [VInt (1)%Z; VInt (2)%Z; VInt (3)%Z]))])
  "<?xml version=""1.0"" encoding=""UTF-8""?>
<list>
  <id>1</id>
  <id>2</id>
  <id>3</id>
</list>" true = true.
Proof. vm_compute. reflexivity. Qed.

Example text_element_ref : text_conf files "tests/xsd/element_ref.xsd" "Article"
  (VTuple (VStruct [("content", VSome (VStruct [("excerpt", VStr "Lorem Ipsum")])); ("author", VStr "Foobar")]))
  "<?xml version=""1.0"" encoding=""UTF-8""?>
<article xmlns=""urn:main"" xmlns:ns2=""urn:base"">
  <ns2:content>
    <ns2:excerpt>Lorem Ipsum</ns2:excerpt>
  </ns2:content>
  <author>Foobar</author>
</article>" true = true.
Proof. vm_compute. reflexivity. Qed.

Example text_element_ref_element : text_conf files "tests/xsd/element_ref_element.xsd" "Service"
  (VStruct [("version_number", VStruct [("major", VInt (1)%Z); ("minor", VInt (10)%Z); ("bug", VInt (3)%Z)])])
  "<?xml version=""1.0"" encoding=""UTF-8""?>
<service xmlns=""urn:main"">
  <versionNumber>
    <major>1</major>
    <minor>10</minor>
    <bug>3</bug>
  </versionNumber>
</service>" true = true.
Proof. vm_compute. reflexivity. Qed.

Example text_element_ref_type : text_conf files "tests/xsd/element_ref_type.xsd" "Address"
  (VStruct [("zip", VStr "12345")])
  "<?xml version=""1.0"" encoding=""UTF-8""?>
<address>
  <zip>12345</zip>
</address>" true = true.
Proof. vm_compute. reflexivity. Qed.

Example text_element_simple_type : text_conf files "tests/xsd/element_simple_type.xsd" "Count"
  (VTuple (VInt (42)%Z))
  "<?xml version=""1.0"" encoding=""UTF-8""?>
<count>42</count>" true = true.
Proof. vm_compute. reflexivity. Qed.

Example text_element_type_complex : text_conf files "tests/xsd/element_type_complex.xsd" "Article"
  (VStruct [("excerpt", VStr "Lorem Ipsum"); ("author", VStruct [("name", VStr "Foobar")])])
  "<?xml version=""1.0"" encoding=""UTF-8""?>
<article>
  <excerpt>Lorem Ipsum</excerpt>
  <author>
    <name>Foobar</name>
  </author>
</article>" true = true.
Proof. vm_compute. reflexivity. Qed.

Example text_element_type_literal : text_conf files "tests/xsd/element_type_literal.xsd" "Name"
  (VTuple (VStr "Foobar"))
  "<?xml version=""1.0"" encoding=""UTF-8""?>
<Name>Foobar</Name>" true = true.
Proof. vm_compute. reflexivity. Qed.

Example text_element_vec : text_conf files "tests/xsd/element_vec.xsd" "List"
  (VStruct [("id", VVec [VInt (1)%Z; VInt (2)%Z; VInt (3)%Z])])
  "<?xml version=""1.0"" encoding=""UTF-8""?>
<list>
  <id>1</id>
  <id>2</id>
  <id>3</id>
</list>" true = true.
Proof. vm_compute. reflexivity. Qed.

Example text_enum_attribute : text_conf files "tests/xsd/enum_attribute.xsd" "Article"
  (VStruct [("state", VSome (VEnum "Published"))])
  "<?xml version=""1.0"" encoding=""UTF-8""?>
<article state=""PUBLISHED"" />" true = true.
Proof. vm_compute. reflexivity. Qed.

Example text_enum_literal : text_conf files "tests/xsd/enum_literal.xsd" "Order"
  (VStruct [("state", VEnum "Ready")])
  "<?xml version=""1.0"" encoding=""UTF-8""?>
<order>
  <state>READY</state>
</order>" true = true.
Proof. vm_compute. reflexivity. Qed.

Example text_enum_literal_root : text_conf files "tests/xsd/enum_literal_root.xsd" "State"
  (VTuple (VEnum "Ready"))
  "<?xml version=""1.0"" encoding=""UTF-8""?>
<state>READY</state>" true = true.
Proof. vm_compute. reflexivity. Qed.

Example text_form_qualified : text_conf files "tests/xsd/form_qualified.xsd" "Article"
  (VStruct [("excerpt", VStr "Lorem Ipsum"); ("author", VStruct [("name", VStr "Foobar")])])
  "<?xml version=""1.0"" encoding=""UTF-8""?>
<article>
  <excerpt>Lorem Ipsum</excerpt>
  <author>
    <name>Foobar</name>
  </author>
</article>" true = true.
Proof. vm_compute. reflexivity. Qed.

Example text_form_qualified_with_target_namespace : text_conf files "tests/xsd/form_qualified_with_target_namespace.xsd" "Article"
  (VStruct [("excerpt", VStr "Lorem Ipsum"); ("author", VStruct [("name", VStr "Foobar")])])
  "<?xml version=""1.0"" encoding=""UTF-8""?>
<article xmlns=""urn:foobar"">
  <excerpt>Lorem Ipsum</excerpt>
  <author>
    <name>Foobar</name>
  </author>
</article>" true = true.
Proof. vm_compute. reflexivity. Qed.

Example text_form_unqualified : text_conf files "tests/xsd/form_unqualified.xsd" "Article"
  (VStruct [("excerpt", VStr "Lorem Ipsum"); ("author", VStruct [("name", VStr "Foobar")])])
  "<?xml version=""1.0"" encoding=""UTF-8""?>
<article>
  <excerpt>Lorem Ipsum</excerpt>
  <author>
    <name>Foobar</name>
  </author>
</article>" true = true.
Proof. vm_compute. reflexivity. Qed.

Example text_form_unqualified_with_target_namespace : text_conf files "tests/xsd/form_unqualified_with_target_namespace.xsd" "Article"
  (VStruct [("excerpt", VStr "Lorem Ipsum"); ("author", VStruct [("name", VStr "Foobar")])])
  "<?xml version=""1.0"" encoding=""UTF-8""?>
<ns1:article xmlns:ns1=""urn:foobar"">
  <excerpt>Lorem Ipsum</excerpt>
  <author>
    <name>Foobar</name>
  </author>
</ns1:article>" true = true.
Proof. vm_compute. reflexivity. Qed.

Example text_import : text_conf files "tests/xsd/import.xsd" "Article"
  (VStruct [("content", VStruct [("excerpt", VStr "Lorem Ipsum"); ("author", VStruct [("name", VStr "Foobar")])])])
  "<?xml version=""1.0"" encoding=""UTF-8""?>
<article xmlns=""urn:main"" xmlns:ns2=""urn:base"">
  <content>
    <ns2:excerpt>Lorem Ipsum</ns2:excerpt>
    <ns2:author>
      <ns2:name>Foobar</ns2:name>
    </ns2:author>
  </content>
</article>" true = true.
Proof. vm_compute. reflexivity. Qed.

Example text_include : text_conf files "tests/xsd/include.xsd" "Article"
  (VStruct [("content", VStruct [("excerpt", VStr "Lorem Ipsum"); ("author", VStruct [("name", VStr "Foobar")])])])
  "<?xml version=""1.0"" encoding=""UTF-8""?>
<article>
  <content>
    <excerpt>Lorem Ipsum</excerpt>
    <author>
      <name>Foobar</name>
    </author>
  </content>
</article>" true = true.
Proof. vm_compute. reflexivity. Qed.

Example text_sequence_choice : text_conf files "tests/xsd/sequence_choice.xsd" "Article"
  (VStruct [("body", VStr "Lorem Ipsum"); ("user_bot", VChoice "Bot" (VStruct [("handle", VStr "foobot")]))])
  "<?xml version=""1.0"" encoding=""UTF-8""?>
<article>
  <body>Lorem Ipsum</body>
  <bot>
    <handle>foobot</handle>
  </bot>
</article>" true = true.
Proof. vm_compute. reflexivity. Qed.

Example text_sequence_optional : text_conf files "tests/xsd/sequence_optional.xsd" "Settings"
  (VStruct [("scope", VStr "all"); ("key_value", VSome (VStruct [("key", VStr "alpha"); ("value", VInt (1)%Z)]))])
  "<?xml version=""1.0"" encoding=""UTF-8""?>
<settings>
  <scope>all</scope>
  <key>alpha</key>
  <value>1</value>
</settings>" true = true.
Proof. vm_compute. reflexivity. Qed.

Example text_sequence_optional_with_optionals : text_conf files "tests/xsd/sequence_optional_with_optionals.xsd" "Record"
  (VStruct [("patient", VSome (VStruct [("base", VStruct [("id", VInt (42)%Z)]); ("account", VSome (VStruct [("full_name", VNone); ("name", VSome (VStruct [("first_name", VNone); ("last_name", VSome (VStr "Foobar"))]))]))]))])
  "<?xml version=""1.0"" encoding=""UTF-8""?>
<record>
  <patient>
    <id>42</id>
    <lastName>Foobar</lastName>
  </patient>
</record>" true = true.
Proof. vm_compute. reflexivity. Qed.

Example text_sequence_sequence : text_conf files "tests/xsd/sequence_sequence.xsd" "Settings"
  (VStruct [("scope", VStr "all"); ("key_value", VStruct [("key", VStr "alpha"); ("value", VInt (1)%Z)])])
  "<?xml version=""1.0"" encoding=""UTF-8""?>
<settings>
  <scope>all</scope>
  <key>alpha</key>
  <value>1</value>
</settings>" true = true.
Proof. vm_compute. reflexivity. Qed.

Example text_sequence_vec : text_conf files "tests/xsd/sequence_vec.xsd" "Settings"
  (VStruct [("key_value", VVec [VStruct [("key", VStr "alpha"); ("value", VInt (1)%Z)]; VStruct [("key", VStr "bravo"); ("value", VInt (2)%Z)]; VStruct [("key", VStr "charlie"); ("value", VInt (3)%Z)]])])
  "<?xml version=""1.0"" encoding=""UTF-8""?>
<settings>
  <key>alpha</key>
  <value>1</value>
  <key>bravo</key>
  <value>2</value>
  <key>charlie</key>
  <value>3</value>
</settings>" true = true.
Proof. vm_compute. reflexivity. Qed.

Example text_simple_content : text_conf files "tests/xsd/simple_content.xsd" "Text"
  (VStruct [("text", VStr "Something in English"); ("lang", VSome (VStr "en"))])
  "<?xml version=""1.0"" encoding=""UTF-8""?>
<text lang=""en"">Something in English</text>" true = true.
Proof. vm_compute. reflexivity. Qed.

Example text_simple_content_custom_base : text_conf files "tests/xsd/simple_content_custom_base.xsd" "User"
  (VStruct [("role", VStruct [("role", VEnum "User"); ("inherited", VBool true)])])
  "<?xml version=""1.0"" encoding=""UTF-8""?>
<user>
  <role inherited=""true"">User</role>
</user>" true = true.
Proof. vm_compute. reflexivity. Qed.

Example text_simple_type_empty : text_conf files "tests/xsd/simple_type_empty.xsd" "Text"
  (VTuple (VStr ""))
  "<?xml version=""1.0"" encoding=""UTF-8""?>
<text />" true = true.
Proof. vm_compute. reflexivity. Qed.

Example text_simple_type_restriction : text_conf files "tests/xsd/simple_type_restriction.xsd" "Side"
  (VTuple (VEnum "Left"))
  "<?xml version=""1.0"" encoding=""UTF-8""?>
<Side>LEFT</Side>" true = true.
Proof. vm_compute. reflexivity. Qed.

Example text_virtual_type_collision : text_conf files "tests/xsd/virtual_type_collision.xsd" "Trace"
  (VTuple (VStruct [("point", VVec [VStruct [("point", VStruct [("x", VF32 (f32_code "1")); ("y", VF32 (f32_code "2"))])]; VStruct [("point", VStruct [("x", VF32 (f32_code "3")); ("y", VF32 (f32_code "4"))])]])]))
  "<?xml version=""1.0"" encoding=""UTF-8""?>
<trace>
  <point>
    <x>1</x>
    <y>2</y>
  </point>
  <point>
    <x>3</x>
    <y>4</y>
  </point>
</trace>" true = true.
Proof. vm_compute. reflexivity. Qed.

(* 49 tests *)
