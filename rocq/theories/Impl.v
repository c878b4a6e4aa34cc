(** * Impl: the tokens of the generated [impl] blocks

    The [quote!] templates of the functions, as they stand in the source, for each
    constructor of the IR of Gen.v, which records the choice of the template and what is
    interpolated. Together with Emit.v: the tokens of the generated module. *)
From Verif Require Import Base Libs Xml Ast Gen Run Emit Quote.

(** xsd/context.rs:166-175 [quote_xml_namespace]. *)
Definition ns_tokens (ns : option string) : list tok :=
  match ns with Some u => quote "Some(#ns)" [("ns", lit u)] | None => quote "None" [] end.

(** ** Reading *)
(** ast/literal_type.rs:71-82 [from_str_impl]. *)
Definition lit_tokens (l : literal) : list tok :=
  quote "std::str::FromStr::from_str(val).map_err(|err| {
           ::xsd::decode::FromXmlError::ParseType {
             type_: #type_.to_string(),
             value: val.to_string(),
             err: Box::new(err),
           }
         })?" [("type_", lit (xsd_name l))].
(** ast/leaf_content.rs:47-76 [from_xml_impl], ast/name.rs:39-44. *)
Definition rx_tokens (x : rx) : list tok :=
  match x with
  | RxText l => quote "{
      let val = node.text()?;
      #inner
    }" [("inner", One (lit_tokens l))]
  | RxFixed s => quote "{
      let val = node.text()?;
      if val != #fixed {
        return Err(::xsd::decode::FromXmlError::FixedMismatch {
          expected: #fixed,
          received: val.to_string(),
        }.into());
      }
    }" [("fixed", lit s)]
  | RxCall id => quote "#name_ident::from_xml_node(&node)?" [("name_ident", idn id)]
  end.
(** ast/leaf.rs:142-245 [from_xml_impl], the value of the field; element_content.rs:62-70. *)
Definition vec_tokens (opt : bool) (value : list tok) : list tok :=     (* leaf.rs:169-178, 209-218 *)
  if opt then
    quote "let val = #value;
           if val.is_empty() {
             None
           } else {
             Some(val)
           }" [("value", One value)]
  else value.
Definition fr_tokens (f : fr) : list tok :=
  match f with
  | FrHere x => rx_tokens x
  | FrWhileLook id x opt => vec_tokens opt (quote "{
        let mut vec = Vec::new();
        while #first_name::lookahead(node) {
          vec.push(#value);
        }
        vec
      }" [("first_name", idn id); ("value", One (rx_tokens x))])
  | FrIfLook id x => quote "if #first_name::lookahead(node) {
        Some(#value)
      } else {
        None
      }" [("first_name", idn id); ("value", One (rx_tokens x))]
  | FrWhileNext n ns x opt => vec_tokens opt (quote "{
        let mut vec = Vec::new();
        while let Some(node) = node.next_child(#name_xml, #namespace_xml) {
          vec.push(#value);
        }
        vec
      }" [("name_xml", lit n); ("namespace_xml", One (ns_tokens ns)); ("value", One (rx_tokens x))])
  | FrIfNext n ns x => quote "if let Some(node) = node.next_child(#name_xml, #namespace_xml) {
        Some(#value)
      } else {
        None
      }" [("name_xml", lit n); ("namespace_xml", One (ns_tokens ns)); ("value", One (rx_tokens x))]
  | FrTryChild n ns x => quote "let node = node.try_child(#name_xml, #namespace_xml)?;
      #value" [("name_xml", lit n); ("namespace_xml", One (ns_tokens ns)); ("value", One (rx_tokens x))]
  | FrTryNext n ns x => quote "let node = node.try_next_child(#name_xml, #namespace_xml)?;
      #value" [("name_xml", lit n); ("namespace_xml", One (ns_tokens ns)); ("value", One (rx_tokens x))]
  end.
(** ast/leaf.rs:242-244 with the comma of element_content.rs:77; element_content.rs:66-70. *)
Definition field_from_tokens (f : string * fr) : list tok :=
  quote "#name_ident: { #value }," [("name_ident", idn (fst f)); ("value", One (fr_tokens (snd f)))].
(** ast/leaf_content.rs:78-84, name.rs:46-50 [from_str_impl]. *)
Definition ax_tokens (a : ax) : list tok :=
  match a with
  | AxLit l => lit_tokens l
  | AxFromStr _ => quote "::std::str::FromStr::from_str(val)?" []
  | AxUnit => quote "()" []
  end.
(** ast/attribute.rs:62-85 [from_xml_impl]. *)
Definition ra_tokens (a : ra) : list tok :=
  if ra_opt a then
    quote "#name_ident: {
             if let Some(val) = node.attribute(#name_xml) {
               Some(#inner)
             } else {
               None
             }
           }," [("name_ident", idn (ra_field a)); ("name_xml", lit (ra_xml a)); ("inner", One (ax_tokens (ra_conv a)))]
  else
    quote "#name_ident: {
             let val = node.try_attribute(#name_xml)?;
             #inner
           }," [("name_ident", idn (ra_field a)); ("name_xml", lit (ra_xml a)); ("inner", One (ax_tokens (ra_conv a)))].
(** ast/root.rs:285-322: a variant of a choice. *)
Definition arm_tokens (a : arm) : list tok :=
  match a with
  | ArmLook w id x => quote "if #first_name::lookahead(node) {
        Self::#variant_name(#inner)
      }" [("first_name", idn id); ("variant_name", idn w); ("inner", One (rx_tokens x))]
  | ArmVec w n ns x => quote "if node.peek_child(#name_xml, #namespace_xml) {
        let mut vec = Vec::new();
        while let Some(node) = node.next_child(#name_xml, #namespace_xml) {
          vec.push(#inner);
        }
        Self::#variant_name(vec)
      }" [("name_xml", lit n); ("namespace_xml", One (ns_tokens ns)); ("variant_name", idn w); ("inner", One (rx_tokens x))]
  | ArmOne w n ns x => quote "if let Some(node) = node.next_child(#name_xml, #namespace_xml) {
        Self::#variant_name(#inner)
      }" [("name_xml", lit n); ("namespace_xml", One (ns_tokens ns)); ("variant_name", idn w); ("inner", One (rx_tokens x))]
  end.
(** ast/root.rs:259-333, element_definition.rs:66-79 [from_xml_impl]. *)
Definition read_tokens (t : titem) : list tok :=
  match ti_read t with
  | BrTuple x => quote "#name(#inner)" [("name", idn (ti_id t)); ("inner", One (rx_tokens x))]
  | BrEnum => quote "{
        let val = node.text()?;
        ::std::str::FromStr::from_str(val)?
      }" []
  | BrStruct fs ats =>
      quote "#name { #ts }" [("name", idn (ti_id t)); ("ts", One (flat_map field_from_tokens fs ++ flat_map ra_tokens ats))]
  | BrChoice arms =>
      quote "#(#variants else )* {
               return Err(::xsd::decode::FromXmlError::MissingVariant {
                 name: #variant_name.to_string(),
               }.into())
             }" [("variants", Each (map arm_tokens arms)); ("variant_name", lit (ti_id t))]
  end.
(** xsd/schema.rs:292-310. *)
Definition from_xml_tokens (t : titem) : list tok :=
  quote "impl #name_ident {
           pub fn from_xml(input: impl AsRef<str>) -> Result<Self, ::xsd::decode::FromXmlError> {
             let doc = ::xsd::decode::decode(input.as_ref())?;
             let node = doc.try_child(#name_xml, #namespace_xml)?;
             Self::from_xml_node(&node)
           }

           fn from_xml_node(node: &::xsd::decode::Node) -> Result<Self, ::xsd::decode::FromXmlError> {
             Ok(#from_xml)
           }
         }" [("name_ident", idn (ti_id t)); ("name_xml", lit (ti_read_name t));
             ("namespace_xml", One (ns_tokens (ti_read_ns t))); ("from_xml", One (read_tokens t))].

(** ast/root.rs:336-419 [lookahead_impl]. *)
Definition lk1_tokens (k : lk1) : list tok :=
  match k with
  | LkCall id => quote "#name::lookahead(node)" [("name", idn id)]
  | LkPeek n ns => quote "node.peek_child(#name_xml, #namespace_xml)" [("name_xml", lit n); ("namespace_xml", One (ns_tokens ns))]
  end.
Definition look_tokens (k : lk) : list tok :=
  match k with
  | LkTrue => quote "true" []
  | LkOr l => quote "false #(|| #checks)*" [("checks", Each (map lk1_tokens l))]
  end.
(** xsd/schema.rs:312-320. *)
Definition lookahead_tokens (t : titem) : list tok :=
  quote "impl #name_ident {
           fn lookahead(node: &::xsd::decode::Node) -> bool {
             #lookahead
           }
         }" [("name_ident", idn (ti_id t)); ("lookahead", One (look_tokens (ti_look t)))].

(** ** Writing *)
(** ast/leaf.rs:111-122; root.rs:179-183; element_definition.rs:54-62. *)
Definition start_tokens : list tok := quote "ctx.write_start_element(writer)?;" [].
Definition end_tokens : list tok := quote "ctx.write_end_element(writer)?;" [].
Definition tagged_tokens (wrap : bool) (l : list tok) : list tok := if wrap then start_tokens ++ l ++ end_tokens else l.
(** ast/leaf_content.rs:26-45 [to_xml_impl], literal_type.rs:67-69, name.rs:33-37. *)
Definition wx_tokens (x : wx) : list tok :=
  match x with
  | WxText => quote "let val = #inner;
      if !val.is_empty() {
        writer.write(XmlEvent::characters(&val))?;
      }" [("inner", One (quote "val.to_string()" []))]
  | WxFixed s => quote "writer.write(XmlEvent::characters(#fixed))?;" [("fixed", lit s)]
  | WxCall _ => quote "val.to_xml_writer(ctx, writer)?;" []
  end.
(** ast/leaf.rs:72-140 [to_xml_impl]. *)
Definition wf_tokens (w : wf) : list tok :=
  let ctx := match wf_new w with
             | Some n => quote "let mut ctx = ::xsd::Context::new(#name_xml);" [("name_xml", lit n)]
             | None => quote "let mut ctx = ::xsd::Context::wrap(&mut ctx);" []
             end in
  let tn := ctx ++ tagged_tokens (wf_wrap w) (wx_tokens (wf_x w)) in
  let tn := if wf_vec w then quote "for val in val { #tn }" [("tn", One tn)] else tn in
  let tn := if wf_opt w then quote "if let Some(val) = val { #tn }" [("tn", One tn)] else tn in
  quote "let val = &self.#name_ident;
         {
           #tn
         }" [("name_ident", idn (wf_field w)); ("tn", One tn)].
(** ast/attribute.rs:36-60 [to_xml_impl]. *)
Definition wa_tokens (a : wa) : list tok :=
  let inner := match wa_fixed a with Some s => [St s] | None => quote "val.to_string()" [] end in
  if wa_opt a then
    quote "let val = self.#name_ident.as_ref().map(|val| {
             #inner
           });
           if let Some(val) = val {
             ctx.set_attr(#name_xml, val)
           }" [("name_ident", idn (wa_field a)); ("name_xml", lit (wa_xml a)); ("inner", One inner)]
  else
    quote "let val = &self.#name_ident;
           let val = #inner;
           ctx.set_attr(#name_xml, val);" [("name_ident", idn (wa_field a)); ("name_xml", lit (wa_xml a)); ("inner", One inner)].
(** ast/element_content.rs:39-58 [to_xml_impl]. *)
Definition wb_tokens (b : wbody) : list tok :=
  match b with
  | WbNone => []
  | WbLeaf f x => quote "let val = &self.#name_ident;
      #inner;" [("name_ident", idn f); ("inner", One (wx_tokens x))]
  | WbLeaves l => flat_map wf_tokens l
  end.
(** ast/root.rs:206-239. *)
Definition warm_tokens (a : warm) : list tok :=
  let inner :=
    if wm_wrap a then
      quote "let mut ctx = ::xsd::Context::new(#name_xml);
             ctx.write_start_element(writer)?;
             #inner
             ctx.write_end_element(writer)?;" [("name_xml", lit (wm_xml a)); ("inner", One (wx_tokens (wm_x a)))]
    else
      quote "let mut ctx = ::xsd::Context::new(#name_xml);
             #inner" [("name_xml", lit (wm_xml a)); ("inner", One (wx_tokens (wm_x a)))] in
  let inner := if wm_vec a then quote "for val in val { #inner }" [("inner", One inner)] else inner in
  quote "Self::#variant_name(val) => {
           #inner
         }" [("variant_name", idn (wm_variant a)); ("inner", One inner)].
(** ast/root.rs:166-256, element_definition.rs:36-64 [to_xml_impl]. *)
Definition write_tokens (t : titem) : list tok :=
  match ti_write t with
  | TwTuple wrap x => tagged_tokens wrap (quote "let val = &self.0; #inner" [("inner", One (wx_tokens x))])
  | TwEnum => quote "ctx.write_start_element(writer)?;
      let val = self.to_string();
      if !val.is_empty() {
        writer.write(XmlEvent::characters(&val))?;
      }
      ctx.write_end_element(writer)?;" []
  | TwStruct ats wrap b => flat_map wa_tokens ats ++ tagged_tokens wrap (wb_tokens b)
  | TwChoice wrap arms => tagged_tokens wrap (quote "match self { #(#variants,)* }" [("variants", Each (map warm_tokens arms))])
  end.
(** xsd/schema.rs:236-252 (a prefix is never empty; Gen.v writes the default namespace so). *)
Definition ns_decl_tokens (d : string * string) : list tok :=
  if is_empty (fst d) then quote ".set_default_ns(#namespace)" [("namespace", lit (snd d))]
  else quote ".set_ns(#prefix, #namespace)" [("prefix", lit (fst d)); ("namespace", lit (snd d))].
(** xsd/schema.rs:254-290. *)
Definition to_xml_tokens (t : titem) : list tok :=
  quote "impl #name_ident {
           pub fn to_xml(&self) -> Result<Vec<u8>, ::xsd::xml::writer::Error> {
             use ::xsd::xml::writer::events::XmlEvent;

             let mut body = Vec::new();
             let mut writer = ::xsd::xml::writer::EmitterConfig::new()
               .perform_indent(true)
               .create_writer(&mut body);

             writer.write(XmlEvent::StartDocument {
               version: ::xsd::xml::common::XmlVersion::Version10,
               encoding: Some(""UTF-8""),
               standalone: None,
             })?;
             let mut ctx = ::xsd::Context::new(#name_xml);
             self.to_xml_writer(ctx, &mut writer)?;

             Ok(body)
           }

           fn to_xml_writer<'a, 'b, W: ::std::io::Write>(
             &'a self,
             mut ctx: ::xsd::Context<'a, 'b>,
             writer: &mut ::xsd::xml::writer::EventWriter<W>,
           ) -> Result<(), ::xsd::xml::writer::Error> {
             use ::xsd::xml::writer::events::XmlEvent;

             #(ctx #element_ns;)*
             #to_xml

             Ok(())
           }
         }" [("name_ident", idn (ti_id t)); ("name_xml", lit (ti_xml_name t));
             ("element_ns", Each (map ns_decl_tokens (ti_nss t))); ("to_xml", One (write_tokens t))].

(** ** What follows the declaration of a tuple struct or of an enumeration *)
(** ast/root.rs:52-140 [to_declaration]. *)
Definition conversion_tokens (t : titem) : list tok :=
  match ti_decl t with
  | DTuple _ true =>
      quote "impl ::std::str::FromStr for #root_name {
               type Err = ::xsd::decode::FromXmlError;

               fn from_str(s: &str) -> Result<Self, Self::Err> {
                 Ok(#root_name(::std::str::FromStr::from_str(s).map_err(|err| {
                   ::xsd::decode::FromXmlError::ParseType {
                     type_: #type_.to_string(),
                     value: s.to_string(),
                     err: Box::new(err),
                   }
                 })?))
               }
             }

             impl ::std::fmt::Display for #root_name {
               fn fmt(&self, f: &mut ::std::fmt::Formatter) -> ::std::fmt::Result {
                 self.0.fmt(f)
               }
             }" [("root_name", idn (ti_id t)); ("type_", lit (ti_id t))]
  | DEnum vs =>
      quote "impl ::std::str::FromStr for #root_name {
               type Err = ::xsd::decode::FromXmlError;

               fn from_str(s: &str) -> Result<Self, Self::Err> {
                 Ok(match s {
                   #(#from_str_variants,)*
                   _ => return Err(::xsd::decode::FromXmlError::InvalidVariant {
                     name: s.to_string(),
                   })
                 })
               }
             }

             impl #root_name {
               pub fn as_str(&self) -> &str {
                 match self {
                   #(#as_str_variants,)*
                 }
               }
             }

             impl ::std::fmt::Display for #root_name {
               fn fmt(&self, f: &mut ::std::fmt::Formatter) -> ::std::fmt::Result {
                 f.write_str(self.as_str())
               }
             }" [("root_name", idn (ti_id t));
                 ("from_str_variants", Each (map (fun d => quote "#name_xml => #root_name::#variant"
                    [("name_xml", lit (snd d)); ("root_name", idn (ti_id t)); ("variant", idn (fst d))]) vs));
                 ("as_str_variants", Each (map (fun d => quote "#root_name::#variant => #name_xml"
                    [("name_xml", lit (snd d)); ("root_name", idn (ti_id t)); ("variant", idn (fst d))]) vs))]
  | _ => []
  end.

(** xsd/schema.rs:203-322 [generate_element], after the declaration. *)
Definition impl_tokens (t : titem) : list tok :=
  conversion_tokens t ++ to_xml_tokens t ++ from_xml_tokens t ++ lookahead_tokens t.
(** xsd/schema.rs:203-322 [generate_element]: everything for one type. *)
Definition element_tokens (r : root) (t : titem) : list tok := item_tokens r t ++ impl_tokens t.
(** xsd/schema.rs:152-160 [generate_all], after the types have been looked up. *)
Definition module_tokens (l : list (root * titem)) : list tok := flat_map (fun d => element_tokens (fst d) (snd d)) l.
