# Formal model of rveen/ogdl in Rocq (Coq 8.16.1)

## Trusted base

* Coq's kernel (8.16.1), with `vm_compute` (used only for closed witnesses and finite sweeps).
* Standard library only (Byte, List, ZArith, Lia, SpecFloat). No third-party library, no axioms of our own.
* `Print Assumptions` is printed under every property theorem in the `P_*.v` files;
  the expected answer everywhere is "Closed under the global context".
* `coqchk -o` on the whole development also lists seven parameters `Coq.ssr.ssrunder.Under_rel.*`: they belong to a
  module type of the standard library that is loaded with its tactics, and no theorem depends on them.
* The fidelity of the reading of the Go sources: every definition of the model cites file and lines.
* Go's language and library semantics as transcribed (int64 wrap, slices, interface equality,
  `strconv.ParseInt`, `utf8.DecodeRune`, `bytes.Buffer`, `bufio.Reader`, `os.File`): written in the model itself.
* External behaviour that is *not* transcribed is a parameter (record `env` / section variable) over which
  theorems quantify: float parsing/printing, Unicode classes above U+00FF, calls into user functions.

## Shape of the model

* Go `string`/`[]byte` = `list byte` (`Coq.Init.Byte.byte`). Go `int`/`int64` = `Z`, with wrap-around
  written explicitly where arithmetic can overflow.
* Outcomes: `res A := Ok a | Panic | NoFuel`. A Go run-time panic is the value `Panic`. Loops run on explicit
  fuel; `NoFuel` is never a normal result. Termination theorems give a sufficient fuel; non-termination theorems
  say that *no* fuel suffices.
* `Graph` = finite tree `Node this out`, `out : list (option graph)` (a nil hole is explicit), `this : value`,
  a sum of the Go dynamic types that the library treats specially. Aliasing is handled in a separate heap model.
* The lexer/parser is written in a free monad over the three lexer primitives (read byte, unread byte, read token),
  so the same parser text is interpreted over an ideal byte stream and over the real 4096-byte buffer. The buffer
  refines the stream (`repr`, Wp.v: bytes older than 2040 positions need not be readable back), and a weakest
  precondition calculus for programs over the stream is sound for the buffer (`wp_sound`), so the text-parser
  theorems speak about the real buffer, for inputs of any length.

## Plan per property

| id | model | proof |
|----|-------|-------|
| C01 | Binary/bin, parse/line, Tree | induction on forests; parse(bin g ++ rest); refuted companions for NUL, leading 0x01, level >= 2^21 |
| C02 | newVarInt/varInt on Z with bit operations | exact range theorem; refutation at 0x200000 |
| C03 | parse with fuel | refuted: truncated text node needs unbounded fuel; partial: characterisation of termination |
| C04 | header | case analysis |
| C05 | parse with remaining input | from the forest induction of C01 |
| C06 | line's binary branch | refuted by witness; partial: binary node at end of stream |
| C07 | reader with failing tail | refuted: an erroring reader yields 0 bytes which terminate text nodes |
| C08-C11 | log state machine (file bytes, synced length) over op lists, crash op | induction over histories using C05 |
| C12 | arena model of Tree vs. recursive spec | invariant over prefixes |
| C13-C15 | buffer state machine with arbitrary reader; free-monad simulation | invariant relating buffer window to stream |
| C16 | parser on the buffered lexer, operations counted (CostSpec.v) | measure on remaining bytes; potential paying for the blanks read again when a level is closed (Cost.v) |
| C17-C22 | document grammar (lines, indents, scalars) vs. parser | induction over lines; refuted parts by witness |
| C23 | typed variant | simulation between the two parsers |
| C24-C25, C28-C30 | tree operations | induction on lists/trees |
| C26 | Go interface equality with panic on uncomparable types | tree induction |
| C27, C58 | heap model | separation / reachability invariants |
| C31-C35 | NewPath + set + getPath | induction on paths; refuted parts by witness |
| C36-C38 | ParseInt/FormatInt, typed accessors | arithmetic induction on digits |
| C39 | path/expression parser with fuel | measure for ASCII; refuted in general by a non-terminating input and a panicking one; exact criterion for the panics of NewExpression (JamSpec.v, Jam.v, P_Jam.v) |
| C40 | _ast on sibling lists | invariant over reduction rounds |
| C41-C44 | calc/compare/logic/eval | arithmetic, case analysis; refuted parts by witness |
| C45-C48 | template parser, flow, process | induction on template lists |
| C49-C52 | RPC state machines over read schedules | induction over segmentations / attempts / interleavings |
| C53 | Check vs. inductive conformance | mutual induction |
| C54 | Less is a strict weak order; any correct sort gives sorted permutation | order lemmas; `sort.Sort` itself is an assumption |
| C55-C57 | JSON/XML conversions over abstract documents | tree induction; refuted parts by witness |
| C59-C63 | views of a graph: string lists, Find, HTML, simplified XML, method arguments | list and tree induction; refuted parts by witness |
| C64 | assignments, from the text | evaluation lemmas over `changed`; refuted parts by witness |
| C65 | calls of functions and methods, from the text | parser lemmas for argument lists; evaluation lemmas; refuted parts by witness |
| C66-C68 | the commands | from C17, C18, C33, C46, C56, C57; refuted parts by witness; gtemplate without data by induction on the template (EvalNil.v: a path is an error, an assignment panics) |
| C69 | selectors in paths | the parser by induction over the steps, the evaluator by induction over the walk; Set refuted by witness |
| C70 | binary reader and RPC never panic | invariants over events, places and interleavings |
| C71 | arithmetic with floats and texts | correct rounding of SpecFloat proved over integers (RoundFacts.v); refuted parts by witness |
| C72 | memory against trees | refinement of Heap.v to Graph.v: each operation by induction, then histories |
| C73 | slices against lists | refinement of Slices.v to Heap.v: ownership of arrays as an invariant, loops that read live elements |
| C74 | scanning functions of the lexer | weakest preconditions per call, induction over the session; refuted parts by witness |
| C75 | runes | invariant over the buffer, induction over the history of calls; refuted parts by general witness |
| C76 | getters of a node | case analysis on the content; texts of integers by induction over the characters |
| C77 | paths in expressions, reserved names, Get against Eval | induction over the way through the graph, with any remaining elements |
| C78 | expressions as indexes | parsing by the same rules as expressions (C40), evaluation by induction over the hops |
| C79 | expressions as names | the same hops; a group is replaced by the name it evaluates to |
| C80 | Text, Binary, FromString, FromBinary, the log | from C01, C08, C18; refuted part by witness |
| C81 | expressions in selectors | the same hops; an expression is replaced by the number it evaluates to |
| C82 | lookups and evaluation do not modify the graph | induction over the evaluation; an invariant of the events that any text gives |
| C83 | evaluation on nodes | simulation between memory and trees |
| C84 | templates on nodes | the same, with an invariant for the variables of loops; refuted parts by witness |
| C85 | evaluation and templates return | induction on the depth of the expression; every helper shown not to run out of fuel (Ends.v) |
| C86 | what makes the evaluation of an expression panic | every helper shown not to panic on data, or to have a faulty operator (Panics.v) |
| C87 | assignments of values on nodes without sharing | the evaluator on nodes follows the one on trees (AssignNodes.v), with set as in C72 and the right side as in C83 |
| C88 | Text, Binary, Equals | from C01, C18, C26, C80 (P_Distinct.v); refuted parts by witness |
| C89 | selectors after an index or a selector | induction on the path, carrying the last name and the node before the last hop (TrailSpec.v, P_Trail.v) |
| C90 | Copy within one graph | on the memory of Heap.v: the loop of Copy keeps the nodes it still has to read (P_Within.v); that copying into a node below never ends, by induction on the fuel |
| C91 | no graph becomes part of itself | exact condition from what paths over the appended children look like (P_Cycle.v); Clone on a loop by induction on the fuel |
| C92 | what follows a path or an expression is ignored | the parsers' specifications over the ideal stream with a rest (RestSpec.v, P_Rest.v), decode_rune on bytes that are no character |
| C93 | Set returns a node of the graph | the walk along the existing nodes, then induction over the nodes added, on the heap (P_SetRet.v) |
| C94 | A template can be processed again | what a loop leaves in the context is what its own first step deletes; induction over the templates without assignments (P_Twice.v) |
| C95 | Show prints the top node too | induction over the graph: with and without the flag _text writes the same, once underscores are filled in; then C18 (P_Show.v) |
| C96 | sorting by distinct keys has one result | an ascending permutation of a list with distinct keys is unique, by induction; then C54; witnesses for equal keys (P_SortOne.v) |
| C97 | substitutions one after the other | Substitute maps a function over the contents below the top; two of them are the composition, compared content by content; witnesses (P_Subst.v) |
| C98 | deletions one after the other | induction over the relation deleted of C25; indexes by splitting the list of subnodes (P_Delete.v) |
| C99 | the last value set counts | the relation changed of C31 is deterministic, and two of them are the second one, by induction over the path (P_Last.v) |

## What is modelled so far

| Go code | model file | left out |
|---------|-----------|----------|
| event.go | Event.v | EventHandler interface (only SimpleEventHandler exists) |
| binary.go | Binary.v | byte counts returned by Write; readers are byte lists plus a failing tail |
| log.go | Log.v | os.File as byte list and synced length; no permissions, no concurrent processes |
| lexer.go | Lexer.v, Buffer.v, Stream.v | deprecated helpers that the parsers do not call |
| block.go, parser.go (FromString, FromBytes, FromReader, FromStringTypes) | TextParser.v, Buffer.v | - |
| parser.go FromFile; cmd/gpath, cmd/gtemplate, cmd/json2ogdl, cmd/xml2ogdl | Cmd.v | files are their contents (or missing), standard output is the result; options, usage and error messages; the copy of FromXML in cmd/xml2ogdl is taken as Xml.v's |
| graph.go Text, Show, _text | Emit.v | - |
| gettypes.go conversions, graph.go accessors | Value.v | nil and empty `Out` are identified; Slices.v tells them apart (Scalar() on a node whose last child was removed panics, C73) |
| graph.go Add ... Merge | Graph.v | sharing of nodes (a modified receiver is returned as a new tree), see Heap.v; arrays, see Slices.v |
| graph.go New ... Merge, Get and Set on paths of names and indexes | Heap.v | nodes with addresses; functions called by Get; arrays behind []byte contents |
| the same, and gettypes.go Scalar, ThisScalar, on slices | Slices.v | slices that do not start at the beginning of their array (graph.go makes none; Simplify of io/gxml does); a caller that stores one slice in the Out of two nodes |
| flow.go (NewPath, Path, Index, Selector, Args, ArgList, Expression, UnaryExpression), expression.go | PathParser.v | the path and expression parsers; templates separately |
| template.go, flow.go (directives) | Template.v; Process(nil) in EvalNil.v | see below |
| ogdlrf/client.go, ogdlrf/server.go | Rpc.v | Serve, Serve1 (listening, accepting), logging; see below |
| schema.go, graph.go ThisType | Schema.v | of the type names only those that checkNode compares are told apart |
| sort.go | Sort.v | sort.Sort is a parameter with its documented promise; effects of evaluating the field on the children |
| encoding.go | Encoding.v | the decoder of encoding/json, fmt's %f |
| io/gxml/xml.go FromXML | Xml.v | the decoder of encoding/xml, accent removal, TrimSpace |
| gettypes.go Bytes, Number, Float64, This... | Getters.v | Value and ThisValue (reflection) |
| lexer.go Rune, UnreadRune, PeekRune for a client | Runes.v | the field err |
| gettypes.go String, Strings, StringCSV, StringTxt, Find; html.go; function.go convert; io/gxml/xml.go Simplify | Views.v | regexp (a matcher), reflect's Call, ParseBool, the value ParseFloat returns with an error |
| function.go function | Func.v, Eval.v | types are compared by name; variadic functions; functions that modify the graph |
| eval.go, graph.go Get and Set, gettypes.go GetString ... GetBool | Eval.v | snapshots instead of aliasing; see below |

The status of each property is in MANIFEST.json.

## Text documents (C17-C23)

TextSpec.v defines documents without reference to the parser: lines with an indentation, plain or quoted scalars
separated by blanks, an ending (LF, CR LF, end of input, comment, block), and the graph they denote through a
`level` function (nearest previous line with smaller indentation is the parent). TextDoc.v shows that the parser
reads the source of each document to that graph. Cost.v repeats the termination proof of TextTerm.v with a count of the
operations (CostSpec.v `run_count`).

## Scanning functions (C74)

LexSpec.v describes sessions of a client with a Lexer: `reply l c a l'` says what call c answers when l is left to be
read and what is left afterwards; LexFacts.v proves it over the buffered lexer of Buffer.v.

## Runes (C75)

Runes.v adds the field lastRuneSize to the lexer of Buffer.v and models Rune, UnreadRune and PeekRune. RunesSpec.v
has a client's session and the answers expected from a list of characters with a position in it. Proved for texts up
to 4094 bytes, and for longer ones whose characters do not lie across the end of a buffer, with UnreadRune at most 2048
bytes behind (the buffer is a window on the text). Mixing runes with the byte functions is left out.

## Paths and expressions (C15, C39, C40)

PathParser.v is written over the same lexer primitives as the text parser. PathTerm.v proves that every function
returns on well lettered texts (measure: five times the bytes left). PathSpec.v defines paths, operands, operators
and grouped trees without the parser; PathFacts.v shows what the parser does on them (`x_path`, `x_expression`) and
that `_ast` builds the grouped tree (invariant over the passes 6..0). PathLimits.v has the texts on which the code
hangs or panics. A name is a word of letters and digits in UTF-8 (`utf8` relates code points to bytes; which code
points above Latin-1 are letters is left to `env`). Longer paths are only covered by
the negative theorem: Token8 does not notice the end of the buffer.

## Access and evaluation (C31-C35, C38, C41-C44)

Eval.v threads the context graph through the evaluator and returns the changed graph with the value. Simplifications:
a graph obtained by Get is a snapshot (changes made to it afterwards are not seen in its root); user functions and
remote functions are parameters (record `calls`) that do not modify the graph; an index in Set may need any amount of
memory, which is assumed to be there; Go `error` values are identifiers. Func.v gives the `calls` that reflection makes
of a library of functions and methods (each with parameter types, result types and a body); FuncSpec.v defines the
text of calls, the values of arguments and their conversion; CallFacts.v has the parser lemmas. AccessSpec.v defines walking along a path
(`walk`, `lost`) and changing a graph at a path (`changed`) without the code; EvalSpec.v defines 64-bit arithmetic
(`arith`) and what a grouped tree denotes in a graph (`den`).
`updated` says what an assignment makes of the old value.
TypesSpec.v defines numerals and which integer a float is or has as its integer part (`float_is`, `integer_part`).
RoundSpec.v defines the float64 for an exact result (`rounds`: nearest, ties to even, infinity from half a step beyond
the largest), on integers: floats are counted in units of 2^-1074. RoundFacts.v proves that the operations of the
standard library's SpecFloat, which the model uses for Go's float64 arithmetic, round so. That Go's float64 operations
are those of IEEE 754 is an assumption.

## Templates (C45-C48)

Template.v has the template parser over the lexer primitives, the nesting pass and the processor, which returns the
context afterwards and the text. Simplifications beyond those of Eval.v: the node that a loop binds to its variable
is found again as the child of the context with the variable's name; called functions do not modify the graph.
In the code the variable holds the element of the list itself and assignments store nodes themselves; the tree model
copies them. It therefore does not say what the code does with a loop over the context itself, or with a later
assignment through a loop variable or through a node assigned before; C48 excludes these templates, and HeapEval.v
models evaluation and processing on nodes.
TemplateSpec.v defines templates (`tmpl`), their text (`source`) and which texts are unambiguous (`wf`) without the
parser. WpLong.v reasons about parsers over texts of any length: the same proofs serve for the ideal input and for the
4096-byte buffer, where names must be plain and must not end the text. TemplateFacts.v shows that NewTemplate reads the
source of each template to the expected nodes if it is `legible` (up to 4094 bytes, or longer under those conditions).
StaleFacts.v follows the bytes left over in the buffer: a name at the end of a text over 4096 bytes is continued with
the byte 2048 before the end. TemplateProc.v shows what processing the nodes does; TemplateTerm.v that every template
up to 4094 bytes, well formed or not, is read to the end or makes the parser panic. P_TemplatePath.v joins this with
EpathSpec.v for paths with indexes, quoted names and reserved names, P_TemplateHops.v with IndexSpec.v for indexes,
selectors and names that are expressions.

## Remote functions (C49-C52)

Rpc.v writes client and server over a record `net` of the operations they use of a connection (dial, write, read), with
any network state. `pipe_net` is one end of a connection on which the peer's bytes arrive in given segments; a Read
returns at most one segment, writing succeeds. RpcSpec.v adds `world_net`, in which the client talks to the modelled
server and each attempt has a plan: whether dialing works, what the Writes report, how much of request and response
arrives and in which segments. Simplifications: deadlines are failing Reads; a handler's connection argument is left
out; the server works on an attempt's request when the client first reads (or gives up); a lost connection delivers a
prefix of what was written. For several connections (C52) the goroutines are cut into steps (`next`, `next1`) with at
most one operation on the connection or one run of the handler each, and `serve` takes the steps in any order;
RpcFacts.v shows that the steps of one goroutine make up `process` and `process1`. A run of a handler is one step: races
inside handlers are not modelled.

For protocol 1 the record is `link` (dial, write, and FromBinaryReader on the connection), and `world_link` of RpcSpec.v
is the unreliable network: each attempt has a plan that says what Write returns, which beginnings of the request and of the
response arrive in which segments, and whether a read after them gives the end of the file or another error.

## Schemas (C53)

SchemaSpec.v says which contents suit a schema text (`suits`), which children conform to a schema position by position
(`conforms`) and which position is the first that does not (`misfit`), without the code.

## Shared nodes (C27, C58)

Heap.v has the operations of graph.go on a heap of nodes; a program keeps what it wrote when it panics or runs out of
fuel. `run` executes a history of operations of a caller that holds some nodes. HeapSpec.v defines which nodes lead to
which (`reach`), graphs without common nodes (`apart`, `away`) and the finite graph that a node shows (`shows`).
HeapFacts.v proves for each operation that it writes only inside any set of addresses that holds its arguments, all
free addresses, and whatever its nodes lead to. Children are lists there; Slices.v and C73 justify that.

## Memory and trees (C72)

RefineSpec.v says when a node in memory is the root of an unshared graph (`spread`, with the addresses used) and when the
variables of a caller hold several such graphs without common nodes (`forest`). `heap_run` and `tree_run` execute the same
operations in memory and on trees. RefineFacts.v relates them operation by operation: `refines` says that both end in the
same way, `evolves` that only addresses of the graphs involved and new ones are written. So the theorems about Graph.v carry
over to memory for programs that do not share nodes.

## Slices and lists (C73)

Slices.v has graph.go once more, with an array and a length behind every `Out` that is not nil. append writes into the
array if it is large enough and takes a new one otherwise, with any amount of spare room (`spare`); Delete and DeleteAt
move elements within the array; a loop takes the slice once and reads each element when it gets there. SlicesFacts.v shows
that each operation does to the memory what Heap.v does to lists (`sim`), with two invariants: no two nodes have the same
array (`owned`), and what a running loop still has to read is not overwritten (`grows`; Delete, DeleteAt and assignment to
an index do not have it, and are not called within loops).

## Paths in expressions (C77-C79, C81)

Get and Eval walk paths with two loops (getPath, evalPath) that differ: after an index Get goes on from a node that holds
the child, Eval from the child itself. EpathSpec.v says where the steps of a path arrive in an expression (`arrives`,
`misses`), which node stands for it (`shown`) and what the reserved names ask (`asked`). IndexSpec.v has paths with
expressions in brackets, parentheses or braces (`hop`), the positions that operands denote (`position`), the names
(`called`) and where such a path leads (`hops`).

## Evaluation and templates on nodes (C83, C84)

HeapEval.v is eval.go and template.go:79-169 once more, on the memory of Heap.v: results are nodes of the
context, assignments store nodes, the variable of a loop holds the element.  Expressions and templates remain
trees; a part of an expression that comes out as a result is copied to new nodes.  Nodes that the evaluation
creates (`[`, `{`, `!g`) are written when their subnodes are known, which nobody can observe.
HeapEvalFacts.v relates it to Eval.v: `sim h Q m t` says that the program m, started in memory h, only adds
nodes and ends as t does.  `seen h P n a g` is `shows` with a condition P on the nodes of each level, which the
templates need: HeapTemplate.v keeps `inv c h R g`, the context c shows g, c is nowhere below itself, and the
nodes R of the loop variables occur as children of c only.  `Fr hb h d` says what processing did: no node but c
changed, children of c with names in d went away, new ones have names in d (d is the list that `process` of
Template.v returns).  So a node of R is either still in its place or gone, which is the `live` of Template.v.

## Termination (C85)

Loops and recursion of the model are bounded by a number (fuel), and `NoFuel` is the outcome when it does not suffice; so
a Go call that never returns is `NoFuel` for every number. Fuel.v shows that more fuel never changes an answer. Ends.v
shows for every function of the evaluator that it does not run out of fuel when the expression has fewer levels than the
fuel. What stays outside: the functions called (`call`) and the JSON text (`to_json`) are assumed to return.

## Panics (C86)

PanicSpec.v says which expressions have their operands in place (`formed`) and with which operands an operator panics
(`faulty`), and which templates are covered (`page`: no loops). Panics.v goes through the evaluator function by function: on data without nil nodes a panic of any of them comes
with a faulty operator of the expression. Only expressions that assign nothing are covered, so the context stays the same
and the values of the operands can be stated after the fact. P_AssignPanics.v adds single assignments to paths of names. P_LoopPanics.v
adds templates with loops: the invariant is no longer that the context is unchanged but that it is the
given one apart from the variables of the loops (apart_from); loops over the context itself are left out,
as the tree model does not see that the loop changes what it runs over (C85).


## Assignments on nodes (C87)

AssignNodes.v relates `hassign` of HeapEval.v to `assign` of Eval.v for contexts without sharing (`spread`, RefineSpec.v) that hold data (`stored`), and for values that are not nodes.
`tracks` is the relation: same outcome; afterwards the context is spread as the tree says; nodes outside are as they were. The right side is evaluated as in C83. Compound assignments
are covered for paths of names only: an index or selector in the path makes the evaluator wrap the node it finds in a new one. The value of the assignment itself is not compared.
P_AssignText.v joins this with C64: the texts of C64, on nodes.

## Lookups do not modify (C82)

Quiet.v says which expressions assign nothing (`quiet`: no node with subnodes is an assignment operator) and shows that
evaluating them leaves the context. QuietFacts.v shows that every text parsed as a path gives such a tree. It follows the
handler through the parser, with arbitrary bytes (`pwp`), and keeps the invariant that whatever may still get subnodes is
one of the type nodes (`open`, `typed`). For expressions and templates, where the syntax tree puts operands below
operators, the same run shows that contents are made of bytes of the text (`fine`), so that = cannot come out of a text
without it.

## Sorting, JSON, XML (C54-C57)

SortSpec.v has the promise of sort.Sort (`sorts`), dictionary order and `ascending`. JsonSpec.v has the grammar of
RFC 8259 (`wellformed`; bytes of non-ASCII characters are not checked to be UTF-8) and the graphs that have the form of
a JSON text (`document`); JsonFacts.v has a checker that accepts every well-formed text, used to show that certain
outputs are not. `kept` says what a decoded document becomes. XmlSpec.v has XML trees, their tokens and the nodes they
become (`image`).

## Views (C59-C63)

ViewsSpec.v has joined strings, the subnodes that a matcher picks (`picked`), the lines of the HTML view with a small
grammar of HTML (`fragment`: text, non-breaking spaces, line breaks, links around text), and the rules of Simplify as a
relation on trees (`simpler`).
