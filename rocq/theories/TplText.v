(** The template files of the Go generators, byte for byte: /repo/generator/golang/templates/*.templ ([v1_...]) and
    /repo/v2/generator/golang/templates/*.templ (only those that differ; [v2_...]).  Written by a script from the files:
    the only change is that a quote is doubled, as Coq's strings need. *)
From Coq Require Import String.
From Coq Require Import List.
Import ListNotations.
Local Open Scope string_scope.
Local Open Scope list_scope.

(** generator/golang/templates/base.templ *)
Definition v1_base : string := "{{ if .header -}}
{{template ""headers"" .}}

{{template ""imports"" .}}
{{ end -}}

{{template ""errors"" .}}

{{template ""enums"" .}}

{{template ""messages"" .}}
".

(** generator/golang/templates/decode.templ *)
Definition v1_decode : string := "{{define ""decode""}}
func (x *{{ CamelCase .FullName }}) Decode (b []byte) error {
    if x == nil {
        return NilDecode
    }
    d := polyglot.GetDecoder(b)
    defer d.Return()
    return x.decode(d)
}
{{end}}

{{define ""internalDecode""}}
func (x *{{CamelCase .FullName}}) decode(d *polyglot.Decoder) error {
    if d.Nil() {
        return nil
    }

{{ $decoding := GetDecodingFields .Fields -}}
{{ $customDecode := CustomDecode -}}
{{ if or $customDecode $decoding.Other $decoding.SliceFields $decoding.MessageFields -}}
var err error
{{ end -}}
{{ $customDecode }}
{{ range $field := $decoding.Other -}}
    {{ $decoder := GetLUTDecoder $field.Kind -}}
    {{ if eq $field.Kind 12 -}} {{/* protoreflect.BytesKind */ -}}
    x.{{ CamelCaseName $field.Name }}, err = d{{ $decoder }}(nil)
    {{ else if eq $field.Kind 14 -}}  {{/* protoreflect.EnumKind */ -}}
    var {{ CamelCaseName $field.Name }}Temp uint32
    {{ CamelCaseName $field.Name }}Temp, err = d{{ $decoder }}()
    x.{{ CamelCaseName $field.Name }} = {{ FindValue $field }}({{ CamelCaseName $field.Name }}Temp)
    {{ else -}}
        x.{{ CamelCaseName $field.Name }}, err = d{{ $decoder }}()
    {{end -}}
    if err != nil {
    return err
    }
{{end -}}

{{ if $decoding.SliceFields -}}
    var sliceSize uint32
{{end -}}
{{ range $field := $decoding.SliceFields -}}
    {{ $kind := GetKind $field.Kind -}}
    sliceSize, err = d.Slice({{ $kind }})
    if err != nil {
    return err
    }
    if uint32(len(x.{{ CamelCaseName $field.Name }})) != sliceSize {
    x.{{ CamelCaseName $field.Name }} = make({{ FindValue $field }}, sliceSize)
    }
    for i := uint32(0); i < sliceSize; i++ {
    {{ $decoder := GetLUTDecoder $field.Kind -}}
    {{ if eq $field.Kind 11 -}} {{/* protoreflect.MessageKind */ -}}
    if x.{{ CamelCaseName $field.Name }}[i] == nil {
    x.{{ CamelCaseName $field.Name }}[i] = New{{ CamelCase $field.Message.FullName }}()
    }
    err = x.{{ CamelCaseName $field.Name }}[i].decode(d)
    {{ else -}}
        x.{{ CamelCaseName $field.Name }}[i], err = d{{ $decoder }}()
    {{end -}}
    if err != nil {
    return err
    }
    }
{{end -}}
{{ range $field := $decoding.MessageFields -}}
    {{ if $field.IsMap -}}
        if !d.Nil() {
        {{ $keyKind := GetKind $field.MapKey.Kind -}}
        {{ $valKind := GetKind $field.MapValue.Kind -}}

        {{ CamelCaseName $field.Name }}Size, err := d.Map({{ $keyKind }}, {{ $valKind }})
        if err != nil {
        return err
        }
        x.{{ CamelCaseName $field.Name }} = New{{ CamelCase $field.FullName }}Map({{ CamelCaseName $field.Name }}Size)
        err = x.{{ CamelCaseName $field.Name }}.decode(d, {{ CamelCaseName $field.Name }}Size)
        if err != nil {
        return err
        }
        }
    {{ else -}}
        if x.{{ CamelCaseName $field.Name }} == nil {
        x.{{ CamelCaseName $field.Name }} = New{{ CamelCase $field.Message.FullName }}()
        }
        err = x.{{ CamelCaseName $field.Name }}.decode(d)
        if err != nil {
        return err
        }
    {{end -}}
{{end -}}
    return nil
}
{{end}}".

(** v2/generator/golang/templates/decode.templ *)
Definition v2_decode : string := "{{define ""decode""}}
func (x *{{ CamelCase .FullName }}) Decode (b []byte) error {
    if x == nil {
        return ErrDecodeNil
    }
    return x.decode(polyglot.Decoder(b))
}
{{end}}

{{define ""internalDecode""}}
func (x *{{CamelCase .FullName}}) decode(d *polyglot.BufferDecoder) error {
    if d.Nil() {
        return nil
    }

{{ $decoding := GetDecodingFields .Fields -}}
{{ $customDecode := CustomDecode -}}
{{ if or $customDecode $decoding.Other $decoding.SliceFields $decoding.MessageFields -}}
var err error
{{ end -}}
{{ $customDecode }}
{{ range $field := $decoding.Other -}}
    {{ $decoder := GetLUTDecoder $field.Kind -}}
    {{ if eq $field.Kind 12 -}} {{/* protoreflect.BytesKind */ -}}
    x.{{ CamelCaseName $field.Name }}, err = d{{ $decoder }}(x.{{ CamelCaseName $field.Name }})
    {{ else if eq $field.Kind 14 -}}  {{/* protoreflect.EnumKind */ -}}
    var {{ CamelCaseName $field.Name }}Temp uint32
    {{ CamelCaseName $field.Name }}Temp, err = d{{ $decoder }}()
    x.{{ CamelCaseName $field.Name }} = {{ FindValue $field }}({{ CamelCaseName $field.Name }}Temp)
    {{ else -}}
        x.{{ CamelCaseName $field.Name }}, err = d{{ $decoder }}()
    {{end -}}
    if err != nil {
    return err
    }
{{end -}}

{{ if $decoding.SliceFields -}}
    var sliceSize uint32
{{end -}}
{{ range $field := $decoding.SliceFields -}}
    {{ $kind := GetKind $field.Kind -}}
    sliceSize, err = d.Slice({{ $kind }})
    if err != nil {
    return err
    }
    if uint32(len(x.{{ CamelCaseName $field.Name }})) != sliceSize {
    x.{{ CamelCaseName $field.Name }} = make({{ FindValue $field }}, sliceSize)
    }
    for i := uint32(0); i < sliceSize; i++ {
    {{ $decoder := GetLUTDecoder $field.Kind -}}
    {{ if eq $field.Kind 11 -}} {{/* protoreflect.MessageKind */ -}}
    if x.{{ CamelCaseName $field.Name }}[i] == nil {
    x.{{ CamelCaseName $field.Name }}[i] = New{{ CamelCase $field.Message.FullName }}()
    }
    err = x.{{ CamelCaseName $field.Name }}[i].decode(d)
    {{ else -}}
        x.{{ CamelCaseName $field.Name }}[i], err = d{{ $decoder }}()
    {{end -}}
    if err != nil {
    return err
    }
    }
{{end -}}
{{ range $field := $decoding.MessageFields -}}
    {{ if $field.IsMap -}}
        if !d.Nil() {
        {{ $keyKind := GetKind $field.MapKey.Kind -}}
        {{ $valKind := GetKind $field.MapValue.Kind -}}

        {{ CamelCaseName $field.Name }}Size, err := d.Map({{ $keyKind }}, {{ $valKind }})
        if err != nil {
        return err
        }
        x.{{ CamelCaseName $field.Name }} = New{{ CamelCase $field.FullName }}Map({{ CamelCaseName $field.Name }}Size)
        err = x.{{ CamelCaseName $field.Name }}.decode(d, {{ CamelCaseName $field.Name }}Size)
        if err != nil {
        return err
        }
        }
    {{ else -}}
        if !d.Nil() {
        x.{{ CamelCaseName $field.Name }} = New{{ CamelCase $field.Message.FullName }}()
        err = x.{{ CamelCaseName $field.Name }}.decode(d)
        if err != nil {
        return err
        }
        }
    {{end -}}
{{end -}}
    return nil
}
{{end}}
".

(** generator/golang/templates/decodeMap.templ *)
Definition v1_decodeMap : string := "{{define ""decodeMap""}}
func (x {{CamelCase .FullName}}Map) decode(d *polyglot.Decoder, size uint32) error {
    if size == 0 {
        return nil
    }
    var k {{ FindValue .MapKey }}
    {{ if eq .MapKey.Kind 14 -}} {{/* protoreflect.EnumKind */ -}}
        var {{ CamelCase .MapKey.Name }}Temp uint32
    {{end -}}
    var v {{ FindValue .MapValue }}
    {{ if eq .MapValue.Kind 14 -}} {{/* protoreflect.EnumKind */ -}}
    var {{ CamelCaseName .MapValue.Name }}Temp uint32
    {{end -}}
    var err error
    for i := uint32(0); i < size; i++ {
        {{ $keyDecoder := GetLUTDecoder .MapKey.Kind -}}
        {{ if and (eq $keyDecoder """") (eq .MapKey.Kind 11) -}} {{/* protoreflect.MessageKind */ -}}
        k = New{{ CamelCase .MapKey.Message.FullName }}()
        err = k.decode(d)
        {{else -}}
            {{ if eq .MapKey.Kind 14 -}}  {{/* protoreflect.EnumKind */ -}}
            {{ CamelCase .MapKey.Name }}Temp, err = d{{$keyDecoder}}()
                k = {{ FindValue .MapKey }}({{ CamelCase .MapKey.Name }}Temp)
            {{else -}}
                k, err = d{{$keyDecoder}}()
            {{end -}}
        {{end -}}
        if err != nil {
            return err
        }
        {{ $valDecoder := GetLUTDecoder .MapValue.Kind -}}
        {{ if and (eq $valDecoder """") (eq .MapValue.Kind 11) -}} {{/* protoreflect.MessageKind */ -}}
        v = New{{ CamelCase .MapValue.Message.FullName }}()
        err = v.decode(d)
        {{else -}}
            {{ if eq .MapValue.Kind 14 -}} {{/* protoreflect.EnumKind */ -}}
                {{CamelCaseName .MapValue.Name}}Temp, err = d{{$valDecoder}}()
                v = {{ FindValue .MapValue }}({{ CamelCaseName .MapValue.Name }}Temp)
            {{else -}}
                v, err = d{{$valDecoder}}()
            {{end -}}
        {{end -}}

        if err != nil {
            return err
        }
        x[k] = v
    }
    return nil
}
{{end}}".

(** v2/generator/golang/templates/decodeMap.templ *)
Definition v2_decodeMap : string := "{{define ""decodeMap""}}
func (x {{CamelCase .FullName}}Map) decode(d *polyglot.BufferDecoder, size uint32) error {
    if size == 0 {
        return nil
    }
    var k {{ FindValue .MapKey }}
    {{ if eq .MapKey.Kind 14 -}} {{/* protoreflect.EnumKind */ -}}
        var {{ CamelCase .MapKey.Name }}Temp uint32
    {{end -}}
    var v {{ FindValue .MapValue }}
    {{ if eq .MapValue.Kind 14 -}} {{/* protoreflect.EnumKind */ -}}
    var {{ CamelCaseName .MapValue.Name }}Temp uint32
    {{end -}}
    var err error
    for i := uint32(0); i < size; i++ {
        {{ $keyDecoder := GetLUTDecoder .MapKey.Kind -}}
        {{ if and (eq $keyDecoder """") (eq .MapKey.Kind 11) -}} {{/* protoreflect.MessageKind */ -}}
        k = New{{ CamelCase .MapKey.Message.FullName }}()
        err = k.decode(d)
        {{else -}}
            {{ if eq .MapKey.Kind 14 -}}  {{/* protoreflect.EnumKind */ -}}
            {{ CamelCase .MapKey.Name }}Temp, err = d{{$keyDecoder}}()
                k = {{ FindValue .MapKey }}({{ CamelCase .MapKey.Name }}Temp)
            {{else -}}
                k, err = d{{$keyDecoder}}()
            {{end -}}
        {{end -}}
        if err != nil {
            return err
        }
        {{ $valDecoder := GetLUTDecoder .MapValue.Kind -}}
        {{ if and (eq $valDecoder """") (eq .MapValue.Kind 11) -}} {{/* protoreflect.MessageKind */ -}}
        v = New{{ CamelCase .MapValue.Message.FullName }}()
        err = v.decode(d)
        {{else -}}
            {{ if eq .MapValue.Kind 14 -}} {{/* protoreflect.EnumKind */ -}}
                {{CamelCaseName .MapValue.Name}}Temp, err = d{{$valDecoder}}()
                v = {{ FindValue .MapValue }}({{ CamelCaseName .MapValue.Name }}Temp)
            {{else -}}
                v, err = d{{$valDecoder}}()
            {{end -}}
        {{end -}}

        if err != nil {
            return err
        }
        x[k] = v
    }
    return nil
}
{{end}}".

(** generator/golang/templates/encode.templ *)
Definition v1_encode : string := "{{define ""encode""}}
func (x *{{ CamelCase .FullName }}) Encode (b *polyglot.Buffer) {
    if x == nil {
        polyglot.Encoder(b).Nil()
    } else {
        {{ CustomEncode }}
        {{ $encoding := GetEncodingFields .Fields -}}
        {{ if $encoding.Values -}}
            polyglot.Encoder(b){{ range $val := $encoding.Values -}}{{ $val -}}{{end -}}
        {{ end -}}
        {{ if $encoding.SliceFields -}}
            {{template ""encodeSlices"" $encoding -}}
        {{end -}}
        {{ if $encoding.MessageFields -}}
        {{template ""encodeMessages"" $encoding -}}
        {{end -}}
    }
}
{{end}}

{{define ""encodeSlices""}}
    {{ range $field := .SliceFields -}}
        {{ $encoder := GetLUTEncoder $field.Kind -}}
        {{ if and (eq $encoder """") (eq $field.Kind 11) -}} {{/* protoreflect.MessageKind */ -}}
        polyglot.Encoder(b).Slice(uint32(len(x.{{ CamelCaseName $field.Name }})), polyglot.AnyKind)
        for _, v := range x.{{CamelCaseName $field.Name}} {
            v.Encode(b)
        }
        {{else -}}
        polyglot.Encoder(b).Slice(uint32(len(x.{{ CamelCaseName $field.Name }})), {{ GetKindLUT $field.Kind }})
        for _, v := range x.{{ CamelCaseName $field.Name }} {
            polyglot.Encoder(b){{$encoder}}(v)
        }
        {{end -}}
    {{end -}}
{{end}}

{{define ""encodeMessages""}}
    {{ range $field := .MessageFields -}}
        x.{{ CamelCaseName $field.Name }}.Encode(b)
    {{end -}}
{{end}}".

(** generator/golang/templates/encodeMap.templ *)
Definition v1_encodeMap : string := "{{define ""encodeMap""}}
    func (x {{ CamelCase .FullName }}Map) Encode (b *polyglot.Buffer) {
        {{ $keyKind := GetKind .MapKey.Kind -}}
        {{ $valKind := GetKind .MapValue.Kind -}}
        
        if x == nil {
            polyglot.Encoder(b).Map(0, {{$keyKind}}, {{$valKind}})
        } else { 
            polyglot.Encoder(b).Map(uint32(len(x)), {{$keyKind}}, {{$valKind}})
            for k, v := range x {
                {{ $keyEncoder := GetLUTEncoder .MapKey.Kind -}}
                {{ if and (eq $keyEncoder """") (eq .MapKey.Kind 11) -}} {{/* protoreflect.MessageKind */ -}}
                    k.Encode(b)
                {{else -}}
                    {{ if eq .MapKey.Kind 14 -}}  {{/* protoreflect.EnumKind */ -}}
                        polyglot.Encoder(b) {{$keyEncoder}} (uint32(k))
                    {{else -}}
                        polyglot.Encoder(b) {{$keyEncoder}} (k)
                    {{end -}}
                {{end -}}
                {{ $valEncoder := GetLUTEncoder .MapValue.Kind -}}
                {{ if and (eq $valEncoder """") (eq .MapValue.Kind 11) -}} {{/* protoreflect.MessageKind */ -}}
                    v.Encode(b)
                {{else -}}
                    {{ if eq .MapValue.Kind 14 -}} {{/* protoreflect.EnumKind */ -}}
                        polyglot.Encoder(b) {{$valEncoder}} (uint32(v))
                    {{else -}}
                        polyglot.Encoder(b) {{$valEncoder}} (v)
                    {{end -}}
                {{end -}}
            }
        }
    }
{{end}}
".

(** generator/golang/templates/enums.templ *)
Definition v1_enums : string := "{{define ""enums""}}
{{range $i, $e := (MakeIterable .enums.Len) -}}
{{ $enum := ($.enums.Get $i) }}
{{template ""enum"" $enum}}
{{end -}}
{{end}}

{{define ""enum""}}
{{ $enumName := (CamelCase $.FullName) }}
type {{ $enumName }} uint32

const (
{{range $i, $v := (MakeIterable $.Values.Len) -}}
    {{ $val := ($.Values.Get $i) -}}
    {{CamelCase $val.FullName}} = {{ $enumName }}({{ $i }})
{{end -}}
)
{{end}}

".

(** generator/golang/templates/errors.templ *)
Definition v1_errors : string := "{{define ""errors""}}
var (
    NilDecode = errors.New(""cannot decode into a nil root struct"")
)
{{end}}".

(** v2/generator/golang/templates/errors.templ *)
Definition v2_errors : string := "{{define ""errors""}}
var (
    ErrDecodeNil = errors.New(""cannot decode into a nil root struct"")
)
{{end}}
".

(** generator/golang/templates/headers.templ *)
Definition v1_headers : string := "{{define ""headers""}}
// Code generated by polyglot {{ .pluginVersion }}, DO NOT EDIT.
// source: {{ .sourcePath }}

package {{ .package }}
{{end}}".

(** generator/golang/templates/imports.templ *)
Definition v1_imports : string := "{{define ""imports""}}
import (
{{range $im := .requiredImports -}}
    ""{{$im}}""
{{end -}}
)
{{end}}".

(** generator/golang/templates/messages.templ *)
Definition v1_messages : string := "{{define ""messages""}}
{{range $i, $e := (MakeIterable .messages.Len) -}}
    {{ $message := $.messages.Get $i }}
    {{range $i, $e := (MakeIterable $message.Enums.Len) -}}
        {{ $enum := ($message.Enums.Get $i) }}
        {{template ""enum"" $enum}}
    {{end}}
    {{template ""structs"" $message}}
{{end}}
{{end}}".

(** generator/golang/templates/structs.templ *)
Definition v1_structs : string := "{{define ""structs""}}
    {{ range $i, $v := (MakeIterable $.Messages.Len) }}
        {{ $message := $.Messages.Get $i }}
        {{ if not $message.IsMapEntry }}
            {{template ""structs"" $message}}
        {{end}}
    {{end}}
    {{ range $i, $v := (MakeIterable $.Fields.Len) -}}
        {{ $field := $.Fields.Get $i }}
        {{ if $field.IsMap }}
            {{ $mapKeyValue := FindValue $field.MapKey }}
            {{ $mapValueValue := FindValue $field.MapValue }}
            type {{ CamelCase $field.FullName }}Map map[{{ $mapKeyValue }}]{{ $mapValueValue }}
            func New{{ CamelCase $field.FullName }}Map (size uint32) map[{{ $mapKeyValue }}]{{$mapValueValue}} {
                return make(map[{{ $mapKeyValue }}]{{ $mapValueValue }}, size)
            }

            {{template ""encodeMap"" $field}}
            {{template ""decodeMap"" $field}}
        {{end}}
    {{end -}}
    type {{ CamelCase .FullName }} struct {
        {{ CustomFields }}

        {{ range $i, $v := (MakeIterable $.Fields.Len) -}}
            {{ $field := $.Fields.Get $i -}}
            {{ $value := FindValue $field -}}
            {{ CamelCaseName $field.Name }} {{ $value }}
        {{end -}}
    }

    {{template ""getFunc"" .}}
    {{template ""error"" .}}
    {{template ""encode"" .}}
    {{template ""decode"" .}}
    {{template ""internalDecode"" .}}
{{end}}

{{define ""getFunc""}}
func New{{ CamelCase .FullName }}() *{{ CamelCase .FullName }} {
    return &{{ CamelCase .FullName }}{
        {{ range $i, $v := (MakeIterable .Fields.Len) -}}
            {{ $field := $.Fields.Get $i -}}
            {{ if and (eq $field.Kind 11) (ne $field.Cardinality 3) -}} {{/* protoreflect.MessageKind protoreflect.Repeated */ -}}
                {{ CamelCaseName $field.Name }}: New{{ CamelCase $field.Message.FullName }}(),
            {{end -}}
        {{end -}}
    }
}
{{end}}

{{define ""error""}}
func (x *{{CamelCase .FullName}}) Error(b *polyglot.Buffer, err error) {
    polyglot.Encoder(b).Error(err)
}
{{end}}".

(** v2/generator/golang/templates/structs.templ *)
Definition v2_structs : string := "{{define ""structs""}}
    {{ range $i, $v := (MakeIterable $.Messages.Len) }}
        {{ $message := $.Messages.Get $i }}
        {{ if not $message.IsMapEntry }}
            {{template ""structs"" $message}}
        {{end}}
    {{end}}
    {{ range $i, $v := (MakeIterable $.Fields.Len) -}}
        {{ $field := $.Fields.Get $i }}
        {{ if $field.IsMap }}
            {{ $mapKeyValue := FindValue $field.MapKey }}
            {{ $mapValueValue := FindValue $field.MapValue }}
            type {{ CamelCase $field.FullName }}Map map[{{ $mapKeyValue }}]{{ $mapValueValue }}
            func New{{ CamelCase $field.FullName }}Map (size uint32) map[{{ $mapKeyValue }}]{{$mapValueValue}} {
                return make(map[{{ $mapKeyValue }}]{{ $mapValueValue }}, size)
            }

            {{template ""encodeMap"" $field}}
            {{template ""decodeMap"" $field}}
        {{end}}
    {{end -}}
    type {{ CamelCase .FullName }} struct {
        {{ CustomFields }}

        {{ range $i, $v := (MakeIterable $.Fields.Len) -}}
            {{ $field := $.Fields.Get $i -}}
            {{ $value := FindValue $field -}}
            {{ CamelCaseName $field.Name }} {{ $value }}
        {{end -}}
    }

    {{template ""getFunc"" .}}
    {{template ""error"" .}}
    {{template ""encode"" .}}
    {{template ""decode"" .}}
    {{template ""internalDecode"" .}}
{{end}}

{{define ""getFunc""}}
func New{{ CamelCase .FullName }}() *{{ CamelCase .FullName }} {
    return &{{ CamelCase .FullName }}{}
}
{{end}}

{{define ""error""}}
func (x *{{CamelCase .FullName}}) Error(b *polyglot.Buffer, err error) {
    polyglot.Encoder(b).Error(err)
}
{{end}}
".

(** ParseFS(templates.FS, "*"): generator.go 62 *)
Definition go_templates (v2 : bool) : list (string * string) :=
  if v2 then [("base.templ", v1_base); ("decode.templ", v2_decode); ("decodeMap.templ", v2_decodeMap); ("encode.templ", v1_encode); ("encodeMap.templ", v1_encodeMap); ("enums.templ", v1_enums); ("errors.templ", v2_errors); ("headers.templ", v1_headers); ("imports.templ", v1_imports); ("messages.templ", v1_messages); ("structs.templ", v2_structs)]
  else [("base.templ", v1_base); ("decode.templ", v1_decode); ("decodeMap.templ", v1_decodeMap); ("encode.templ", v1_encode); ("encodeMap.templ", v1_encodeMap); ("enums.templ", v1_enums); ("errors.templ", v1_errors); ("headers.templ", v1_headers); ("imports.templ", v1_imports); ("messages.templ", v1_messages); ("structs.templ", v1_structs)].
