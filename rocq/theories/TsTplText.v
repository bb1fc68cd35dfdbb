(** The template files of the TypeScript generators, byte for byte: /repo/generator/typescript/templates/*.templ; those under
    /repo/v2/generator/typescript/templates are the same.  Written by a script from the files: the only change is that a quote is
    doubled, as Coq's strings need. *)
From Coq Require Import String.
From Coq Require Import List.
Import ListNotations.
Local Open Scope string_scope.
Local Open Scope list_scope.

(** generator/typescript/templates/body.templ *)
Definition ts_t_body : string := "{{template ""enums"" .}}

{{template ""messages"" .}}
".

(** generator/typescript/templates/decode.templ *)
Definition ts_t_decode : string := "{{define ""decode""}}
    static decode(buf: Uint8Array): { buf: Uint8Array, value: {{ CamelCase .FullName }}} {
        let decoded = buf
        
        {{ $decoding := GetDecodingFields .Fields -}}
        {{ range $field := $decoding.SliceFields -}}
            {{ $val := FindValue $field }}
            {{ $kind := GetKind $field.Kind -}}
            {{ $decoder := GetLUTDecoder $field.Kind -}}

            let {{ LowercaseCamelCaseName $field.Name }} = {{ TrackDependency ""decodeArray"" }}(decoded)
            decoded = {{ LowercaseCamelCaseName $field.Name }}.buf
            const {{ LowercaseCamelCaseName $field.Name }}Temp: { value: {{ $val }} } = { value: [] }
            for (let i = 0; i < {{ LowercaseCamelCaseName $field.Name }}.size; i++) {
                {{ if eq $field.Kind 14 -}}  {{/* protoreflect.EnumKind */ -}}
                    let elementEnum = {{ TrackDependency ""decodeUint32"" }}(decoded)
                    const element = { value: elementEnum as {{ $val }} }
                    decoded = element.bufEnum
                {{ else if eq $field.Kind 11 -}}  {{/* protoreflect.MessageKind */ -}}
                    let element = {{ TrimSuffix $val ""[]"" }}.decode(decoded)
                    decoded = element.buf
                {{ else -}}
                    let element = {{ $decoder }}(decoded)
                    decoded = element.buf
                {{end -}}
                {{ LowercaseCamelCaseName $field.Name }}Temp.value.push(element.value)
            }
        {{ end -}}

        {{ range $field := $decoding.MessageFields -}}
            {{ $val := FindValue $field }}
            {{ if $field.IsMap -}}
                {{ template ""decodeMap"" $field -}}
            {{ else -}}
                let {{ LowercaseCamelCaseName $field.Name }}Temp = {{ $val }}.decode(decoded)
                decoded = {{ LowercaseCamelCaseName $field.Name }}Temp.buf
            {{ end -}}
        {{ end -}}

        {{ range $field := $decoding.Other -}}
            {{ $val := FindValue $field }}
            {{ $decoder := GetLUTDecoder $field.Kind -}}
            {{ if eq $field.Kind 14 -}}  {{/* protoreflect.EnumKind */ -}}
                let {{ LowercaseCamelCaseName $field.Name }}U32 = {{ TrackDependency ""decodeUint32"" }}(decoded)
                const {{ LowercaseCamelCaseName $field.Name }}Temp = { value: {{ LowercaseCamelCaseName $field.Name }}U32 as {{ $val }} }
                decoded = {{ LowercaseCamelCaseName $field.Name }}U32.buf
            {{ else -}}
                let {{ LowercaseCamelCaseName $field.Name }}Temp = {{ $decoder }}(decoded)
                decoded = {{ LowercaseCamelCaseName $field.Name }}Temp.buf
            {{end -}}
        {{end}}

        return { buf: decoded, value: new {{ CamelCase .FullName }}(
            {{ range $field := $decoding.Other -}}
                {{ LowercaseCamelCaseName $field.Name }}Temp.value,
            {{end -}}
            {{ range $field := $decoding.SliceFields -}}
                {{ LowercaseCamelCaseName $field.Name }}Temp.value,
            {{ end -}}
            {{ range $field := $decoding.MessageFields -}}
                {{ LowercaseCamelCaseName $field.Name }}Temp.value,
            {{ end -}}
        )}
    }
{{end}}
".

(** generator/typescript/templates/decodeMap.templ *)
Definition ts_t_decodeMap : string := "{{define ""decodeMap""}}
{{ $mapKeyValue := FindValue .MapKey }}
{{ $mapValueValue := FindValue .MapValue }}
{{ $keyDecoder := GetLUTDecoder .MapKey.Kind -}}
{{ $valDecoder := GetLUTDecoder .MapValue.Kind -}}

let {{ LowercaseCamelCaseName .Name }} = {{ TrackDependency ""decodeMap"" }}(decoded)
decoded = {{ LowercaseCamelCaseName .Name }}.buf
const {{ LowercaseCamelCaseName .Name }}Temp: { value: Map<{{ $mapKeyValue }},{{ $mapValueValue }}> } = { value: new Map() }
for (let i = 0; i < {{ LowercaseCamelCaseName .Name }}.size; i++) {
    {{ if eq .MapKey.Kind 14 -}}  {{/* protoreflect.EnumKind */ -}}
        let keyEnum = {{ TrackDependency ""decodeUint32"" }}(decoded)
        const key = { value: keyEnum as {{ $mapKeyValue }} }
        decoded = keyEnum.buf
    {{ else if eq .MapKey.Kind 11 -}}  {{/* protoreflect.MessageKind */ -}}
        let key = {{ TrimSuffix $mapKeyValue ""[]"" }}.decode(decoded)
        decoded = key.buf
    {{ else -}}
        let key = {{ $keyDecoder }}(decoded)
        decoded = key.buf
    {{end}}

    {{ if eq .MapValue.Kind 14 -}}  {{/* protoreflect.EnumKind */ -}}
        let valueEnum = {{ TrackDependency ""decodeUint32"" }}(decoded)
        const value = { value: valueEnum as {{ $mapValueValue }} }
        decoded = valueEnum.buf
    {{ else if eq .MapValue.Kind 11 -}}  {{/* protoreflect.MessageKind */ -}}
        let value = {{ TrimSuffix $mapValueValue ""[]"" }}.decode(decoded)
        decoded = value.buf
    {{ else -}}
        let value = {{ $valDecoder }}(decoded)
        decoded = value.buf
    {{end}}

    {{ LowercaseCamelCaseName .Name }}.value.set(key, value)
}
{{end}}".

(** generator/typescript/templates/encode.templ *)
Definition ts_t_encode : string := "{{define ""encode""}}
    encode(buf: Uint8Array): Uint8Array {
        let encoded = buf
        
        {{ $encoding := GetEncodingFields .Fields -}}

        {{ range $val := $encoding.Values}}
        encoded = {{ $val -}}
        {{end }}

        {{ if $encoding.SliceFields -}}
            {{template ""encodeSlices"" $encoding -}}
        {{end -}}
        {{ if $encoding.MessageFields -}}
            {{template ""encodeMessages"" $encoding -}}
        {{end}}
        
        return encoded
    }
{{end}}

{{define ""encodeSlices""}}
    {{ range $field := .SliceFields -}}
        {{ $encoder := GetLUTEncoder $field.Kind -}}

        {{ if and (eq $encoder """") (eq $field.Kind 11) -}} {{/* protoreflect.MessageKind */ -}}
        encoded = {{ TrackDependency ""encodeArray"" }}(encoded, this._{{ LowercaseCamelCaseName $field.Name}}.length, Kind.Any)
        this._{{ LowercaseCamelCaseName $field.Name}}.forEach((field) => {
            encoded = field.encode(encoded)
        })
        {{else -}}
        encoded = {{ TrackDependency ""encodeArray"" }}(this._{{ LowercaseCamelCaseName $field.Name}}.length, {{ GetKindLUT $field.Kind }})
        this._{{ LowercaseCamelCaseName $field.Name}}.forEach((field) => {
            encoded = {{$encoder}}(encoded, field)
        })
        {{end -}}
    {{end -}}
{{end}}


{{define ""encodeMessages""}}
    {{ range $field := .MessageFields -}}
        {{ if $field.IsMap -}}
            {{ $keyKind := GetKind $field.MapKey.Kind -}}
            {{ $valKind := GetKind $field.MapValue.Kind -}}
            encoded = {{ TrackDependency ""encodeMap"" }}(encoded, this._{{ LowercaseCamelCaseName $field.Name }}.size, {{ $keyKind }}, {{ $valKind }})
            this._{{ LowercaseCamelCaseName $field.Name }}.forEach((v, k) => {
            {{ $keyEncoder := GetLUTEncoder $field.MapKey.Kind -}}
            {{ if and (eq $keyEncoder """") (eq $field.MapKey.Kind 11) -}} {{/* protoreflect.MessageKind */ -}}
            encoded = k.encode(encoded)
            {{else -}}
                {{ if eq $field.MapKey.Kind 14 -}}  {{/* protoreflect.EnumKind */ -}}
                    encoded = {{ TrackDependency ""encodeUint32"" }}(encoded, k as number)
                {{else -}}
                    encoded = {{$keyEncoder}}(encoded, k)
                {{end -}}
            {{end -}}
            {{ $valEncoder := GetLUTEncoder $field.MapValue.Kind -}}
            {{ if and (eq $valEncoder """") (eq $field.MapValue.Kind 11) -}} {{/* protoreflect.MessageKind */ -}}
            encoded = v.encode(encoded)
            {{else -}}
                {{ if eq $field.MapValue.Kind 14 -}}  {{/* protoreflect.EnumKind */ -}}
                    encoded = {{ TrackDependency ""encodeUint32"" }}(encoded, v as number)
                {{else -}}
                    encoded = {{$valEncoder}}(encoded, v)
                {{end -}}
            {{end -}}
            })
        {{else -}}
            encoded = this._{{ LowercaseCamelCaseName $field.Name }}.encode(encoded);
        {{end -}}
    {{end -}}
{{end}}".

(** generator/typescript/templates/enums.templ *)
Definition ts_t_enums : string := "{{define ""enums""}}
{{range $i, $e := (MakeIterable .enums.Len) -}}
{{ $enum := ($.enums.Get $i) -}}
{{template ""enum"" $enum}}
{{end -}}
{{end}}

{{define ""enum""}}
{{ $enumName := (CamelCaseFullName $.FullName) -}}
enum {{ $enumName }} {
    {{range $i, $v := (MakeIterable $.Values.Len) -}}
        {{ $val := ($.Values.Get $i) -}}
        {{$val.Name}} = {{ $i }},
    {{end -}}
}
{{end}}

".

(** generator/typescript/templates/head.templ *)
Definition ts_t_head : string := "{{template ""headers"" .}}

{{template ""imports"" .}}".

(** generator/typescript/templates/headers.templ *)
Definition ts_t_headers : string := "{{define ""headers""}}
// Code generated by polyglot {{ .pluginVersion }}, DO NOT EDIT.
// source: {{ .sourcePath }}
{{end}}".

(** generator/typescript/templates/imports.templ *)
Definition ts_t_imports : string := "{{define ""imports""}}
import { {{ range $key, $_ := .dependencies -}}{{ $key }},{{ end -}} } from ""polyglot""
{{end}}".

(** generator/typescript/templates/messages.templ *)
Definition ts_t_messages : string := "{{define ""messages""}}
{{range $i, $e := (MakeIterable .messages.Len) -}}
    {{ $message := $.messages.Get $i }}
    {{range $i, $e := (MakeIterable $message.Enums.Len) -}}
        {{ $enum := ($message.Enums.Get $i) }}
        {{template ""enum"" $enum}}
    {{end}}
    {{template ""structs"" $message}}
{{end}}
{{end}}".

(** generator/typescript/templates/structs.templ *)
Definition ts_t_structs : string := "{{define ""structs""}}
    {{ range $i, $v := (MakeIterable $.Messages.Len) }}
        {{ $message := $.Messages.Get $i }}
        {{ if not $message.IsMapEntry }}
            {{template ""structs"" $message}}
        {{end}}
    {{end}}
    export class {{ CamelCase .FullName }} {
        constructor(
        {{ range $i, $v := (MakeIterable $.Fields.Len) -}}
            {{ $field := $.Fields.Get $i -}}
            {{ $value := FindValue $field -}}
            {{ LowercaseCamelCaseName $field.Name }}: {{ $value }},
        {{end -}}
        ) {
            {{ range $i, $v := (MakeIterable $.Fields.Len) -}}
                {{ $field := $.Fields.Get $i -}}
                this._{{ LowercaseCamelCaseName $field.Name }} = {{ LowercaseCamelCaseName $field.Name }}
            {{end -}}
        }

        {{ range $i, $v := (MakeIterable $.Fields.Len) -}}
            {{ $field := $.Fields.Get $i -}}
            {{ $value := FindValue $field -}}
            private _{{ LowercaseCamelCaseName $field.Name }}: {{ $value }}

            get {{ LowercaseCamelCaseName $field.Name }}(): {{ $value }} {
                return this._{{ LowercaseCamelCaseName $field.Name }}
            }

            set {{ LowercaseCamelCaseName $field.Name }}({{ LowercaseCamelCaseName $field.Name }}: {{ $value }}) {
                this._{{ LowercaseCamelCaseName $field.Name }} = {{ LowercaseCamelCaseName $field.Name }}
            }
            
        {{end -}}

        {{template ""encode"" .}}

        {{template ""decode"" .}}
    } 
{{end}}
".

(** ParseFS: the files in the order of their names.  templates.go is parsed too (the pattern is "*"): it has no action. *)
Definition ts_templates : list (string * string) :=
  [("body.templ", ts_t_body); ("decode.templ", ts_t_decode); ("decodeMap.templ", ts_t_decodeMap); ("encode.templ", ts_t_encode); ("enums.templ", ts_t_enums); ("head.templ", ts_t_head); ("headers.templ", ts_t_headers); ("imports.templ", ts_t_imports); ("messages.templ", ts_t_messages); ("structs.templ", ts_t_structs)].
