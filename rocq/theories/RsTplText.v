(** The template files of the Rust generators, byte for byte: /repo/generator/rust/templates/*.templ; those under
    /repo/v2/generator/rust/templates are the same.  Written by a script from the files: the only change is that a quote is
    doubled, as Coq's strings need. *)
From Coq Require Import String.
From Coq Require Import List.
Import ListNotations.
Local Open Scope string_scope.
Local Open Scope list_scope.

(** generator/rust/templates/base.templ *)
Definition rs_t_base : string := "{{template ""headers"" .}}

{{template ""imports"" .}}

{{template ""enums"" .}}

{{template ""messages"" .}}
".

(** generator/rust/templates/decode.templ *)
Definition rs_t_decode : string := "{{define ""decode""}}

impl Decode for {{ CamelCase .FullName }} {
    fn decode (b: &mut Cursor<&mut Vec<u8>>) -> Result<Option<{{ CamelCase .FullName }}>, Box<dyn std::error::Error>> {
        if b.decode_none() {
            return Ok(None);
        }

        if let Ok(error) = b.decode_error() {
            return Err(error);
        }


        {{ $decoding := GetDecodingFields .Fields -}}
        {{ range $field := $decoding.SliceFields -}}
        {{ $val := FindValue $field }}
        fn {{ SnakeCaseName .Name }}_decode(b: &mut Cursor<&mut Vec<u8>>) -> Result<Option<{{ $val }}>, Box<dyn std::error::Error>> {
            {{ $kind := GetKind $field.Kind -}}
            {{ $decoder := GetLUTDecoder $field.Kind -}}

            let {{ SnakeCaseName $field.Name }}_size = b.decode_array({{ $kind }})?;
            let mut temp = Vec::with_capacity({{ SnakeCaseName $field.Name }}_size);
            for _ in 0..{{ SnakeCaseName $field.Name }}_size {
                {{ if eq $field.Kind 11 -}} {{/* protoreflect.MessageKind */ -}}
                temp.push({{ CamelCase $field.Message.FullName }}::decode(b)?.ok_or(DecodingError::InvalidArray)?);
                {{ else -}}
                temp.push(b{{ $decoder }}()?);
                {{ end -}}
            }
            Ok(Some(temp))
        }
        {{ end -}}
        {{ range $field := $decoding.MessageFields -}}
            {{ if $field.IsMap -}}
                {{ template ""decodeMap"" $field -}}
            {{ end -}}
        {{ end -}}
        Ok(Some({{ CamelCase .FullName }}{
            {{ range $field := $decoding.Other -}}
                {{ $decoder := GetLUTDecoder $field.Kind -}}
                {{ if eq $field.Kind 14 -}}  {{/* protoreflect.EnumKind */ -}}
                {{ SnakeCaseName $field.Name }}: {{ FindValue $field }}::try_from(b.decode_u32()?).ok().ok_or(DecodingError::InvalidEnum)?,
                {{ else -}}
                    {{ SnakeCaseName $field.Name }}: b{{ $decoder }}()?,
                {{end -}}
            {{end -}}
            {{ range $field := $decoding.SliceFields -}}
                {{ SnakeCaseName $field.Name }}: {{ SnakeCaseName $field.Name }}_decode(b)?.ok_or(DecodingError::InvalidArray)?,
            {{ end -}}
            {{ range $field := $decoding.MessageFields -}}
                {{ if $field.Message.IsMapEntry -}}
                    {{ SnakeCaseName $field.Name }}: {{ SnakeCaseName $field.Name }}_decode(b)?.ok_or(DecodingError::InvalidMap)?,
                {{ else -}}
                    {{ SnakeCaseName $field.Name }}: {{ CamelCase $field.Message.FullName }}::decode(b)?.ok_or(DecodingError::InvalidStruct)?,
                {{ end -}}
            {{ end -}}
        }))
    }
}
{{end}}
".

(** generator/rust/templates/decodeMap.templ *)
Definition rs_t_decodeMap : string := "{{define ""decodeMap""}}
{{ $mapKeyValue := FindValue .MapKey }}
{{ $mapValueValue := FindValue .MapValue }}
fn {{ SnakeCaseName .Name }}_decode(b: &mut Cursor<&mut Vec<u8>>) -> Result<Option<HashMap<{{ $mapKeyValue }}, {{ $mapValueValue }}>>, Box<dyn std::error::Error>> {
    if b.decode_none() {
        return Ok(None);
    }

    {{ $keyDecoder := GetLUTDecoder .MapKey.Kind -}}
    {{ $valDecoder := GetLUTDecoder .MapValue.Kind -}}

    {{ $keyKind := GetKind .MapKey.Kind -}}
    {{ $valKind := GetKind .MapValue.Kind -}}
    let size = b.decode_map({{ $keyKind }}, {{ $valKind }})
    .ok().ok_or(DecodingError::InvalidU32)?;
    let mut map = HashMap::new();
    for _ in 0..size {
        {{ if and (eq $keyDecoder """") (eq .MapKey.Kind 11) -}} {{/* protoreflect.MessageKind */ -}}
        let k = {{ CamelCase .MapKey.Message.FullName }}::decode(b)?.ok_or(DecodingError::InvalidMap)?';
        {{else -}}
            {{ if eq .MapKey.Kind 14 -}}  {{/* protoreflect.EnumKind */ -}}
            let k = {{ $mapKeyValue }}::try_from(b{{$keyDecoder}}()?).ok().ok_or(DecodingError::InvalidMap)?;
            {{else -}}
                let k = b{{$keyDecoder}}()?;
            {{end -}}
        {{end -}}
        {{ if and (eq $valDecoder """") (eq .MapValue.Kind 11) -}} {{/* protoreflect.MessageKind */ -}}
        let v = {{ CamelCase .MapValue.Message.FullName }}::decode(b)?.ok_or(DecodingError::InvalidMap)?;
        {{else -}}
            {{ if eq .MapValue.Kind 14 -}} {{/* protoreflect.EnumKind */ -}}
            let v = {{ $mapValueValue }}::try_from(b{{$valDecoder}}()?).ok().ok_or(DecodingError::InvalidMap)?;
            {{else -}}
                let v = b{{$valDecoder}}()?;
            {{end -}}
        {{end -}}
        map.insert(k, v);
    }
    Ok(Some(map))
}
{{end}}".

(** generator/rust/templates/encode.templ *)
Definition rs_t_encode : string := "{{define ""encode""}}
impl Encode for {{ CamelCase .FullName }} {
    fn encode<'a> (&'a self, b: &'a mut Cursor<Vec<u8>>) -> Result<&mut Cursor<Vec<u8>>, Box<dyn std::error::Error>> {
        {{ $encoding := GetEncodingFields .Fields -}}
        {{ if $encoding.Values -}}
            b{{ range $val := $encoding.Values -}}{{ $val -}}?{{end -}};
        {{ end -}}
        {{ if $encoding.SliceFields -}}
            {{template ""encodeSlices"" $encoding -}}
        {{end -}}
        {{ if $encoding.MessageFields -}}
            {{template ""encodeMessages"" $encoding -}}
        {{end -}}
        Ok(b)
    }
}
{{end}}

{{define ""encodeSlices""}}
    {{ range $field := .SliceFields -}}
        {{ $encoder := GetLUTEncoder $field.Kind -}}

        {{ if and (eq $encoder """") (eq $field.Kind 11) -}} {{/* protoreflect.MessageKind */ -}}
        b.encode_array(self.{{ SnakeCaseName $field.Name}}.len(), Kind::Any)?;
        for item in &self.{{ SnakeCaseName $field.Name}} {
            item.encode(b)?;
        }
        {{else -}}
        b.encode_array(self.{{ SnakeCaseName $field.Name}}.len(), {{ GetKindLUT $field.Kind }})?;
        for item in &self.{{ SnakeCaseName $field.Name}} {
            {{ if eq $field.Kind 9 -}} {{/* protoreflect.StringKind */ -}}
            b{{$encoder}}(&item)?;
            {{ else -}}
            b{{$encoder}}(item)?;
            {{ end -}}
        }
        {{end -}}
    {{end -}}
{{end}}


{{define ""encodeMessages""}}
    {{ range $field := .MessageFields -}}
        {{ if $field.IsMap -}}
            {{ $keyKind := GetKind $field.MapKey.Kind -}}
            {{ $valKind := GetKind $field.MapValue.Kind -}}
            b.encode_map(self.{{ SnakeCaseName $field.Name }}.len(), {{ $keyKind }}, {{ $valKind }})?;
            for (k, v) in &self.{{ SnakeCaseName $field.Name }} {
            {{ $keyEncoder := GetLUTEncoder $field.MapKey.Kind -}}
            {{ if and (eq $keyEncoder """") (eq $field.MapKey.Kind 11) -}} {{/* protoreflect.MessageKind */ -}}
            k.encode(b)?;
            {{else -}}
                {{ if eq $field.MapKey.Kind 14 -}}  {{/* protoreflect.EnumKind */ -}}
                b.encode_u32(k as u32)?;
                {{ else if eq $field.MapKey.Kind 9 -}}  {{/* protoreflect.StringsKind */ -}}
                b{{$keyEncoder}}(&k)?;
                {{else -}}
                    b{{$keyEncoder}}(k)?;
                {{end -}}
            {{end -}}
            {{ $valEncoder := GetLUTEncoder $field.MapValue.Kind -}}
            {{ if and (eq $valEncoder """") (eq $field.MapValue.Kind 11) -}} {{/* protoreflect.MessageKind */ -}}
            v.encode(b)?;
            {{else -}}
                {{ if eq $field.MapValue.Kind 14 -}}  {{/* protoreflect.EnumKind */ -}}
                b.encode_u32(*v as u32)?;
                {{else -}}
                    b{{$valEncoder}}(*v)?;
                {{end -}}
            {{end -}}
            }
        {{else -}}
            self.{{ SnakeCaseName $field.Name }}.encode(b)?;
        {{end -}}
    {{end -}}
{{end}}".

(** generator/rust/templates/enums.templ *)
Definition rs_t_enums : string := "{{define ""enums""}}
{{range $i, $e := (MakeIterable .enums.Len) -}}
{{ $enum := ($.enums.Get $i) -}}
{{template ""enum"" $enum}}
{{end -}}
{{end}}

{{define ""enum""}}
{{ $enumName := (CamelCase $.FullName) -}}
#[derive(Debug, Eq, PartialEq, TryFromPrimitive, Copy, Clone)]
#[repr(u32)]
pub enum {{ $enumName }} {
    {{range $i, $v := (MakeIterable $.Values.Len) -}}
        {{ $val := ($.Values.Get $i) -}}
        {{$val.Name}} = {{ $i }},
    {{end -}}
}
{{end}}

".

(** generator/rust/templates/headers.templ *)
Definition rs_t_headers : string := "{{define ""headers""}}
// Code generated by polyglot {{ .pluginVersion }}, DO NOT EDIT.
// source: {{ .sourcePath }}
{{end}}".

(** generator/rust/templates/imports.templ *)
Definition rs_t_imports : string := "{{define ""imports""}}
use std::io::Cursor;
use polyglot_rs::{DecodingError, Encoder, Decoder, Kind};
{{ if .dependencies.Enums -}}
use num_enum::TryFromPrimitive;
use std::convert::TryFrom;
{{ end -}}
{{ if .dependencies.Maps -}}
use std::collections::HashMap;
{{ end -}}
{{end}}".

(** generator/rust/templates/messages.templ *)
Definition rs_t_messages : string := "{{define ""messages""}}
pub trait Encode {
    fn encode<'a> (&'a self, b: &'a mut Cursor<Vec<u8>>) -> Result<&mut Cursor<Vec<u8>>, Box<dyn std::error::Error>>;
}

pub trait Decode {
    fn decode (b: &mut Cursor<&mut Vec<u8>>) -> Result<Option<Self>, Box<dyn std::error::Error>> where Self: Sized;
}
{{range $i, $e := (MakeIterable .messages.Len) -}}
    {{ $message := $.messages.Get $i }}
    {{range $i, $e := (MakeIterable $message.Enums.Len) -}}
        {{ $enum := ($message.Enums.Get $i) }}
        {{template ""enum"" $enum}}
    {{end}}
    {{template ""structs"" $message}}
{{end}}
{{end}}".

(** generator/rust/templates/structs.templ *)
Definition rs_t_structs : string := "{{define ""structs""}}
    {{ range $i, $v := (MakeIterable $.Messages.Len) }}
        {{ $message := $.Messages.Get $i }}
        {{ if not $message.IsMapEntry }}
            {{template ""structs"" $message}}
        {{end}}
    {{end}}
    pub struct {{ CamelCase .FullName }} {
        {{ range $i, $v := (MakeIterable $.Fields.Len) -}}
            {{ $field := $.Fields.Get $i -}}
            {{ $value := FindValue $field -}}

            {{  $privacy := GeneratedFieldPrivacy -}}
            {{ if eq $privacy ""private"" -}}
            {{ SnakeCaseName $field.Name }}: {{ $value }},
            {{ else if eq $privacy ""public"" -}}
            pub {{ SnakeCaseName $field.Name }}: {{ $value }},
            {{ else -}}
            pub(crate) {{ SnakeCaseName $field.Name }}: {{ $value }},
            {{ end -}}
        {{end -}}
    }

    {{template ""encode"" .}}
    {{template ""decode"" .}}
{{end}}
".

(** ParseFS: the files in the order of their names.  templates.go is parsed too (the pattern is "*"): it has no action. *)
Definition rs_templates : list (string * string) :=
  [("base.templ", rs_t_base); ("decode.templ", rs_t_decode); ("decodeMap.templ", rs_t_decodeMap); ("encode.templ", rs_t_encode); ("enums.templ", rs_t_enums); ("headers.templ", rs_t_headers); ("imports.templ", rs_t_imports); ("messages.templ", rs_t_messages); ("structs.templ", rs_t_structs)].
