(** The lexical rules of Go, Rust and TypeScript (GoLex, RsLex, TsLex), which are part of the specification of C95, C99, C100
    and C101, on texts written by hand: also what generated files do not have. *)
From Coq Require Import String Ascii.
From Verif Require Import Base Spec GenTables NameModel EmitModel GoAst TplModel GoLex RsLex TsLex.
Local Open Scope list_scope.
Local Open Scope string_scope.
Definition i_ (s : string) : token := Id (text s).
Definition o_ (s : string) : token := Op (text s).
Definition n_ (s : string) : token := GoLex.Lit (text s).
Definition q_ (s : string) : token := Quoted (text s).
Definition tab : string := String (ascii_of_nat 9) "".

(** Go: semicolons at the ends of lines, not before ) and }, not after operators, keywords, commas; comments; the longest
    operator; names with digits and underscores; strings with slashes *)
Example go_by_hand : go_tokens (text ("// x := 1
package p_1

func (x*T2) f(a,b uint32)(int){ // no semicolon }
" ++ tab ++ "x.y=a!=b
  if !a{
    return
  }else{ b++
  }
  c :=  g(""a//b"",
    10)
  d = &T{k:7}
  e<-f ; goto_ = a[i] == 3 && b||c
  return a,
  b
}
return
if a[i]
break
continue
var
x
$/=//"))
  = [i_ "package"; i_ "p_1"; semi; i_ "func"; o_ "("; i_ "x"; o_ "*"; i_ "T2"; o_ ")"; i_ "f"; o_ "("; i_ "a"; o_ ","; i_ "b"; i_ "uint32"; o_ ")"; o_ "("; i_ "int"; o_ ")"; o_ "{";
     i_ "x"; o_ "."; i_ "y"; o_ "="; i_ "a"; o_ "!="; i_ "b"; semi; i_ "if"; o_ "!"; i_ "a"; o_ "{"; i_ "return"; o_ "}"; i_ "else"; o_ "{"; i_ "b"; o_ "++"; o_ "}"; semi;
     i_ "c"; o_ ":="; i_ "g"; o_ "("; q_ "a//b"; o_ ","; n_ "10"; o_ ")"; semi; i_ "d"; o_ "="; o_ "&"; i_ "T"; o_ "{"; i_ "k"; o_ ":"; n_ "7"; o_ "}"; semi;
     i_ "e"; o_ "<-"; i_ "f"; semi; i_ "goto_"; o_ "="; i_ "a"; o_ "["; i_ "i"; o_ "]"; o_ "=="; n_ "3"; o_ "&&"; i_ "b"; o_ "||"; i_ "c"; semi;
     i_ "return"; i_ "a"; o_ ","; i_ "b"; o_ "}"; semi; i_ "return"; semi; i_ "if"; i_ "a"; o_ "["; i_ "i"; o_ "]"; semi; i_ "break"; semi; i_ "continue"; semi; i_ "var"; i_ "x"; semi; Bad 36; o_ "/="].
Proof. vm_compute. reflexivity. Qed.

(** Rust: lines do not matter; paths, arrows, references, the question mark, casts, attributes, brackets of types *)
Example rs_by_hand : rs_tokens (text ("#[repr(u32)]//x::y
pub enum E_1{A=0,}
impl T for Vec<Vec<u8>>{fn f(&mut self)->Result<&'a E,()>{
 let x=a::b(*v as u32)?;match x{_=>if a==b&&!c{""x//y""}else{1..2},}}}
a
/b"))
  = [o_ "#"; o_ "["; i_ "repr"; o_ "("; i_ "u32"; o_ ")"; o_ "]"; i_ "pub"; i_ "enum"; i_ "E_1"; o_ "{"; i_ "A"; o_ "="; n_ "0"; o_ ","; o_ "}";
     i_ "impl"; i_ "T"; i_ "for"; i_ "Vec"; o_ "<"; i_ "Vec"; o_ "<"; i_ "u8"; o_ ">"; o_ ">"; o_ "{"; i_ "fn"; i_ "f"; o_ "("; o_ "&"; i_ "mut"; i_ "self"; o_ ")"; o_ "->";
     i_ "Result"; o_ "<"; o_ "&"; o_ "'"; i_ "a"; i_ "E"; o_ ","; o_ "("; o_ ")"; o_ ">"; o_ "{";
     i_ "let"; i_ "x"; o_ "="; i_ "a"; o_ "::"; i_ "b"; o_ "("; o_ "*"; i_ "v"; i_ "as"; i_ "u32"; o_ ")"; o_ "?"; o_ ";"; i_ "match"; i_ "x"; o_ "{"; i_ "_"; o_ "=>";
     i_ "if"; i_ "a"; o_ "=="; i_ "b"; o_ "&&"; o_ "!"; i_ "c"; o_ "{"; q_ "x//y"; o_ "}"; i_ "else"; o_ "{"; n_ "1"; o_ ".."; n_ "2"; o_ "}"; o_ ","; o_ "}"; o_ "}"; o_ "}";
     i_ "a"; o_ "/"; i_ "b"].
Proof. vm_compute. reflexivity. Qed.

(** TypeScript: one line break before the first token of a line, however many empty lines and comments come before *)
Example ts_by_hand : js_tokens (text ("import { a,b } from ""x//y"" // c

  // d
" ++ tab ++ "export class C_1 { f(x: Map<K,V>): T[] { return x
  .y((v) => { this._z = v as number; i++ }) } } // end
a /b"))
  = [i_ "import"; o_ "{"; i_ "a"; o_ ","; i_ "b"; o_ "}"; i_ "from"; q_ "x//y"; nl; i_ "export"; i_ "class"; i_ "C_1"; o_ "{"; i_ "f"; o_ "("; i_ "x"; o_ ":"; i_ "Map"; o_ "<"; i_ "K"; o_ ","; i_ "V"; o_ ">"; o_ ")"; o_ ":";
     i_ "T"; o_ "["; o_ "]"; o_ "{"; i_ "return"; i_ "x"; nl; o_ "."; i_ "y"; o_ "("; o_ "("; i_ "v"; o_ ")"; o_ "=>"; o_ "{"; i_ "this"; o_ "."; i_ "_z"; o_ "="; i_ "v"; i_ "as"; i_ "number"; o_ ";"; i_ "i"; o_ "++"; o_ "}"; o_ ")"; o_ "}"; o_ "}";
     nl; i_ "a"; o_ "/"; i_ "b"].
Proof. vm_compute. reflexivity. Qed.
