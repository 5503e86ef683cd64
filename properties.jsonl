{"id": "C01", "title": "Binary round trip", "statement": "FromBinary(g.Binary()) rebuilds g: same node contents as strings, same order, same nesting, under a '_' root. Nodes with empty content are transparent (their children move up). This holds whenever every content is NUL-free, does not start with byte 0x01, and the nesting level stays below 2^21; each of these restrictions is necessary.", "quantifier": "every graph (any width, depth and content)", "why_tests_cant": "infinitely many graphs; the failing contents/levels are rare and were never sampled", "anchors": ["binary.go: Graph.Binary, Graph.bin, FromBinary, binParser.parse, binParser.line", "event.go: SimpleEventHandler.Tree"]}
{"id": "C02", "title": "Variable-length integers of the binary format round-trip", "statement": "The level written by Binary() is the level read back by FromBinary(), for the whole range 0..0xFFFFFFF that the format documents; integers outside the range are rejected by the writer; the shortest form is used.", "quantifier": "every Go int", "why_tests_cant": "2^28 values; the existing test uses && where || was meant, so it cannot fail", "anchors": ["binary.go: newVarInt, binParser.varInt"]}
{"id": "C03", "title": "FromBinary returns on every input", "statement": "FromBinary(b) returns (a graph or nil) for every byte slice b, including truncated and corrupt ones.", "quantifier": "every byte string", "why_tests_cant": "non-termination on one input cannot be excluded by sampling", "anchors": ["binary.go: binParser.line, binParser.parse, binParser.read"]}
{"id": "C04", "title": "Bad headers are rejected", "statement": "FromBinary(b) is nil if and only if b does not begin with 01 'G' 00; it never builds a graph from a stream with another header.", "quantifier": "every byte string on which FromBinary returns", "why_tests_cant": "all byte strings", "anchors": ["binary.go: binParser.header, binParser.parse"]}
{"id": "C05", "title": "Binary objects are self-delimiting", "statement": "Reading one object from a stream holding g1.Binary() followed by anything else returns g1 and consumes exactly the bytes of g1.Binary(), so a sequence of objects can be read back one after the other.", "quantifier": "every representable graph and every continuation of the stream", "why_tests_cant": "arbitrary continuations", "anchors": ["binary.go: FromBinaryBufioReader, binParser.parse", "log.go: Log.Get"]}
{"id": "C06", "title": "Binary nodes follow the documented grammar", "statement": "A node written as 0x01 (length data)* 0x00 is read as the concatenated data, and the nodes after it are read too.", "quantifier": "every stream containing a binary node", "why_tests_cant": "the only test has the binary node last, where the defect is invisible", "anchors": ["binary.go: binParser.line"]}
{"id": "C07", "title": "An I/O error is not mistaken for data", "statement": "When the underlying reader fails in the middle of an object (timeout, reset), the parser does not return a graph as if the object were complete.", "quantifier": "every stream prefix after which the reader fails", "why_tests_cant": "needs every failure point", "anchors": ["binary.go: binParser.read, FromBinaryReader", "ogdlrf/server.go: process1", "ogdlrf/client.go: callV1"]}
{"id": "C08", "title": "Log: every added object is read back at the position returned", "statement": "After any sequence of Add/AddBinary calls, Get(p) for the position p returned by an Add of g returns g and the position of the next record; iterating Get from 0 yields exactly the added objects in order; earlier bytes are never modified.", "quantifier": "every history of log operations", "why_tests_cant": "histories are unbounded", "anchors": ["log.go: Log.Add, Log.AddBinary, Log.Get"]}
{"id": "C09", "title": "Log: GetBinary returns the stored bytes and the next position", "statement": "GetBinary(p) returns exactly the bytes stored at p and, as documented, the position of the next object.", "quantifier": "every history and every returned position", "why_tests_cant": "histories are unbounded", "anchors": ["log.go: Log.GetBinary"]}
{"id": "C10", "title": "Log: crash consistency", "statement": "After a crash that keeps any prefix of the file containing at least what was synced, every object whose Add had been synced is still returned by Get at its position, and objects added after the crash are returned at their own positions.", "quantifier": "every history, every crash point", "why_tests_cant": "crash points x histories", "anchors": ["log.go: Log.Add, Log.Sync, Log.SetSync, Log.Get"]}
{"id": "C11", "title": "Log: torn tail is detected", "statement": "Reading a record that was cut short by a crash returns an error or nil rather than hanging or returning a wrong graph as complete.", "quantifier": "every representable graph and every cut", "why_tests_cant": "every cut point", "anchors": ["log.go: Log.Get", "binary.go: binParser.line"]}
{"id": "C12", "title": "Event levels determine the tree", "statement": "The graph built from a sequence of (level, item) events attaches each item to the most recent item one level above; for level sequences that never jump by more than one every item appears exactly once, in order; it never fails on handler-produced sequences.", "quantifier": "every sequence of event handler calls", "why_tests_cant": "all sequences", "anchors": ["event.go: SimpleEventHandler.*, Tree"]}
{"id": "C13", "title": "The buffered lexer presents the underlying byte stream", "statement": "Reading and unreading bytes through the lexer gives exactly the bytes of the input in order, for inputs of any length, as long as no more than half a buffer (2048 bytes) is unread below the furthest position read.", "quantifier": "every input length, every sequence of Byte/UnreadByte calls", "why_tests_cant": "boundary conditions at every multiple of the half buffer", "anchors": ["lexer.go: Lexer.fill, Byte, UnreadByte"]}
{"id": "C14", "title": "Parsing does not depend on how the reader chunks its data", "statement": "FromReader(r) gives the same graph whatever sizes r's successive Read calls return (including data returned together with io.EOF).", "quantifier": "every splitting of the input into reads", "why_tests_cant": "all chunkings", "anchors": ["lexer.go: Lexer.fill", "parser.go: FromReader"]}
{"id": "C15", "title": "Tokens of any length can be parsed", "statement": "NewPath(s) on a token of any length returns a one-element path containing that token.", "quantifier": "every token", "why_tests_cant": "failure only at lengths around the buffer size", "anchors": ["lexer.go: Lexer.Rune, Token8, fill", "flow.go: NewPath"]}
{"id": "C16", "title": "FromString terminates on every text", "statement": "FromString, FromBytes and FromStringTypes return for every byte string, after a number of steps linear in its length.", "quantifier": "every byte string", "why_tests_cant": "non-termination cannot be excluded by sampling", "anchors": ["block.go: Parser.Ogdl, tree, line", "lexer.go"]}
{"id": "C17", "title": "Indentation determines nesting", "statement": "A document of lines gives the tree in which a line's level is the number of enclosing lines with smaller indentation, and scalars on the same line nest left to right.", "quantifier": "every document of plain or quoted scalars, any indentation pattern", "why_tests_cant": "unbounded documents and indentation patterns", "anchors": ["block.go: Parser.tree, line"]}
{"id": "C18", "title": "Text round trip", "statement": "FromString(g.Text()) rebuilds g for every graph whose contents are non-empty printable strings (any bytes > 32 except the separators at the top level; below the top level also blanks, newlines, quotes, commas and parentheses).", "quantifier": "every such graph", "why_tests_cant": "unbounded graphs and contents", "anchors": ["graph.go: Graph.Text, Graph._text", "block.go", "lexer.go: Quoted"]}
{"id": "C19", "title": "Blank lines and comments do not change the structure", "statement": "Inserting an empty line or a comment line anywhere between two lines of a document does not change the graph.", "quantifier": "every document, every insertion point", "why_tests_cant": "all documents", "anchors": ["block.go: Parser.line", "lexer.go: Comment, Break"]}
{"id": "C20", "title": "CR LF and LF documents are equivalent", "statement": "A document with CR LF line ends parses to the same graph as the one with LF line ends.", "quantifier": "every document of plain scalars", "why_tests_cant": "all documents", "anchors": ["lexer.go: Break"]}
{"id": "C21", "title": "No line is silently dropped", "statement": "Every scalar of a document appears in the graph.", "quantifier": "every document of plain scalars", "why_tests_cant": "all indentation patterns", "anchors": ["block.go: Parser.Ogdl, tree, line"]}
{"id": "C22", "title": "Blocks do not disturb what follows", "statement": "A text block ends before the first line that is not indented deeper than its owner, and that line is parsed with its own indentation.", "quantifier": "every document containing a block", "why_tests_cant": "all documents", "anchors": ["lexer.go: Lexer.Block", "block.go: Parser.line"]}
{"id": "C23", "title": "FromStringTypes only refines leaf types", "statement": "FromStringTypes builds a graph with the same shape as FromString in which each unquoted scalar s is replaced by the int64, float64 or bool it denotes, quoted scalars staying strings; integer scalars denote themselves exactly.", "quantifier": "every text", "why_tests_cant": "all texts", "anchors": ["block.go: OgdlTypes", "lexer.go: ScalarType"]}
{"id": "C24", "title": "Node lookup and creation", "statement": "Node(s) returns the first child whose content prints as s, or nil; NodeOrNew/Create return that child or append a new one; after NodeSet(s,v) the first child s has exactly one subnode v; all other children are unchanged.", "quantifier": "every graph and key", "why_tests_cant": "all graphs", "anchors": ["graph.go: Node, NodeOrNew, NodeSet, Create, GetAt"]}
{"id": "C25", "title": "Deletion", "statement": "Delete(n) removes exactly the children equal to n, keeping the others in order; DeleteAt(i) removes exactly the i-th child and does nothing out of range; Clear removes all.", "quantifier": "every graph and key/index", "why_tests_cant": "all graphs", "anchors": ["graph.go: Delete, DeleteAt, Clear"]}
{"id": "C26", "title": "Equals is structural equality", "statement": "On graphs with comparable contents Equals is an equivalence relation that holds exactly when contents, order and shape coincide; it never fails.", "quantifier": "all pairs/triples of graphs", "why_tests_cant": "all graphs", "anchors": ["graph.go: Equals"]}
{"id": "C27", "title": "Clone is faithful and independent", "statement": "Clone returns a graph equal to the original sharing no node with it: no later modification of either is visible through the other.", "quantifier": "every graph, every later modification", "why_tests_cant": "all mutation histories", "anchors": ["graph.go: Clone"]}
{"id": "C28", "title": "Copy appends a complete copy", "statement": "g.Copy(c) appends a copy of every subtree of c to g and leaves what g had.", "quantifier": "every pair of graphs", "why_tests_cant": "all graphs", "anchors": ["graph.go: Copy"]}
{"id": "C29", "title": "Substitute", "statement": "Substitute(s,v) replaces the content of every node below the root that prints as s by v, changes nothing else, keeps the shape, and is idempotent when v does not print as s.", "quantifier": "every graph, s, v", "why_tests_cant": "all graphs", "anchors": ["graph.go: Substitute"]}
{"id": "C30", "title": "Merge", "statement": "g.Merge(src): children of src whose name exists in g replace that child's content, the others are appended.", "quantifier": "every pair of graphs", "why_tests_cant": "all graphs", "anchors": ["graph.go: Merge"]}
{"id": "C31", "title": "Set then Get", "statement": "After Set(path, v), Get(path) is a node whose only subnode is v, for every path of names, quoted or not, whether or not the path existed.", "quantifier": "every graph, name path and value", "why_tests_cant": "all graphs and paths", "anchors": ["graph.go: Set, set, Get", "eval.go: getPath", "flow.go: NewPath"]}
{"id": "C32", "title": "Set changes nothing else", "statement": "After Set(path, v), Get(q) is unchanged for every path q of names, quoted or not, that is neither a prefix nor an extension of path.", "quantifier": "every graph and pair of name paths", "why_tests_cant": "all pairs of paths", "anchors": ["graph.go: set", "eval.go: getPath"]}
{"id": "C33", "title": "Get composes", "statement": "Get(p.q) equals Get(p).Get(q), and Get of a missing name is nil.", "quantifier": "every graph and name paths", "why_tests_cant": "all graphs and paths", "anchors": ["graph.go: Get", "eval.go: getPath"]}
{"id": "C34", "title": "Get is safe to chain", "statement": "Get returns nil when there is nothing to return, never fails, and the typed accessors can be called on its result whatever the path.", "quantifier": "every graph and path", "why_tests_cant": "all graphs and paths", "anchors": ["graph.go: Get", "eval.go: getPath", "gettypes.go: Int64"]}
{"id": "C35", "title": "Set with an index", "statement": "Set(p[i], v) stores v as the i-th subnode of p, keeps the others, and the graph remains usable; further path elements after the index are honoured.", "quantifier": "every graph, path and index", "why_tests_cant": "all indices", "anchors": ["graph.go: set"]}
{"id": "C36", "title": "Integer contents are exact", "statement": "A node holding the decimal text of an int64 z reads as z through Int64, GetInt64, Number and Scalar; texts that are not int64 numerals give the default.", "quantifier": "all 2^64 integers, all byte strings", "why_tests_cant": "2^64 values", "anchors": ["gettypes.go: Int64, _int64f, number, isInteger"]}
{"id": "C37", "title": "Scalar never fails", "statement": "Scalar(), Number() and Eval of a constant return for every content.", "quantifier": "every content", "why_tests_cant": "all strings", "anchors": ["gettypes.go: number, isInteger, ThisScalar, Scalar"]}
{"id": "C38", "title": "Typed getters agree with Get", "statement": "GetString/GetInt64/GetBool(path) return exactly the conversion of Get(path)'s first subnode, and an error exactly when there is none or it does not convert.", "quantifier": "every graph and path", "why_tests_cant": "all graphs and paths", "anchors": ["gettypes.go: GetString, GetInt64, GetBool, GetBytes"]}
{"id": "C39", "title": "Path and expression parsing returns", "statement": "NewPath, NewExpression and NewTemplate return a graph for every input text.", "quantifier": "every byte string", "why_tests_cant": "non-termination and panics cannot be excluded by sampling", "anchors": ["flow.go: ArgList, Expression, UnaryExpression, Path", "expression.go: _ast"]}
{"id": "C40", "title": "Operator precedence and associativity", "statement": "NewExpression groups operators by the documented precedence and left-associatively: the in-order reading of the tree is the input, a higher operator is never below a lower one without parentheses.", "quantifier": "every operator/operand sequence", "why_tests_cant": "unbounded expressions", "anchors": ["expression.go: _ast, precedence"]}
{"id": "C41", "title": "Integer arithmetic", "statement": "Arithmetic on integer operands is 64-bit two's complement; division truncates toward zero; the remainder has the dividend's sign; it fails exactly on division by zero.", "quantifier": "all pairs of int64", "why_tests_cant": "2^128 pairs", "anchors": ["eval.go: calc"]}
{"id": "C42", "title": "Comparison laws", "statement": "On integers the six comparisons agree with the usual order; == and != are complementary and == is symmetric on all operand types.", "quantifier": "all pairs of values", "why_tests_cant": "all pairs", "anchors": ["eval.go: compare"]}
{"id": "C43", "title": "Boolean operators", "statement": "&& and || follow the truth tables on values that denote booleans and are false otherwise; ! negates.", "quantifier": "all pairs of values", "why_tests_cant": "all pairs", "anchors": ["eval.go: logic, evalBool, evalExpression"]}
{"id": "C44", "title": "Parenthesised expressions", "statement": "A parenthesised subexpression evaluates to the value of its content.", "quantifier": "every expression", "why_tests_cant": "unbounded nesting", "anchors": ["flow.go: UnaryExpression", "expression.go: ast", "eval.go: evalExpression, evalBinary"]}
{"id": "C45", "title": "Template text is copied verbatim", "statement": "Text without '$' (and without control characters) is output unchanged by NewTemplate(s).Process(ctx).", "quantifier": "every such text and context", "why_tests_cant": "all texts", "anchors": ["template.go: NewTemplate, Text, process"]}
{"id": "C46", "title": "Template variables are substituted", "statement": "text1 $name text2 is output as text1, the text of the context's node name, text2.", "quantifier": "every text, name and context", "why_tests_cant": "all contexts", "anchors": ["template.go: Variable, process", "eval.go: evalPath"]}
{"id": "C47", "title": "Exactly one branch of a conditional is processed", "statement": "Of an $if/$elseif/$else chain the first branch whose condition holds is processed and no other; $else is processed iff none holds.", "quantifier": "every chain length, conditions and bodies", "why_tests_cant": "unbounded chains", "anchors": ["template.go: flow, process"]}
{"id": "C48", "title": "Loops visit every element in order", "statement": "$for(v,list) body $end processes body once per subnode of list, in order, with v bound to it; $break ends the loop, also from inside a conditional.", "quantifier": "every list and body", "why_tests_cant": "unbounded lists", "anchors": ["template.go: process, flow"]}
{"id": "C49", "title": "RPC client reassembles responses under any segmentation", "statement": "However the network segments the response body, callV2 returns the graph the server sent.", "quantifier": "every response graph and every segmentation", "why_tests_cant": "all segmentations", "anchors": ["ogdlrf/client.go: callV2"]}
{"id": "C50", "title": "RPC server accepts requests under any segmentation", "statement": "However the network segments a request, the server answers it.", "quantifier": "every request and segmentation", "why_tests_cant": "all segmentations", "anchors": ["ogdlrf/server.go: process"]}
{"id": "C51", "title": "RPC calls are executed at most once", "statement": "One Call makes the server run the handler at most once, and reports success only if the handler's result was received.", "quantifier": "every pattern of failures", "why_tests_cant": "all failure patterns", "anchors": ["ogdlrf/client.go: Call, callV2, callV1"]}
{"id": "C52", "title": "RPC routing", "statement": "A request is passed to the handler last registered for its first child, all others get the not-found answer; connections do not influence each other.", "quantifier": "every route history, request and interleaving", "why_tests_cant": "all interleavings", "anchors": ["ogdlrf/server.go: AddRoute, router, process"]}
{"id": "C53", "title": "Schema checking", "statement": "Check(x) accepts exactly the graphs that contain, position by position, what the schema demands.", "quantifier": "every schema and graph", "why_tests_cant": "all graphs", "anchors": ["schema.go: Check, checkNode"]}
{"id": "C54", "title": "Sorting", "statement": "Sort/SortAsInt reorder the children into non-decreasing key order, keeping every child.", "quantifier": "every graph and key path", "why_tests_cant": "all graphs", "anchors": ["sort.go"]}
{"id": "C55", "title": "JSON output is JSON", "statement": "JSON() produces well-formed JSON and leaves the graph unchanged.", "quantifier": "every graph", "why_tests_cant": "all graphs", "anchors": ["encoding.go: JSON, json, writeValue, writeString"]}
{"id": "C56", "title": "JSON import loses nothing", "statement": "FromJSON keeps every member and element of the document.", "quantifier": "every JSON document", "why_tests_cant": "all documents", "anchors": ["encoding.go: FromJSON, toGraph"]}
{"id": "C57", "title": "XML import preserves the element tree", "statement": "FromXML of a well-formed token stream has one node per element and non-blank text, nested as in the document, attributes first.", "quantifier": "every XML tree", "why_tests_cant": "all documents", "anchors": ["io/gxml/xml.go: FromXML"]}
{"id": "C58", "title": "Adding shares, cloning does not", "statement": "Add(node), AddNodes and assignment of a graph make the same nodes reachable from both places (a change through one is visible through the other); operations on one graph do not affect graphs with no common node.", "quantifier": "every heap of graphs and every operation", "why_tests_cant": "all aliasing patterns", "anchors": ["graph.go: Add, AddNodes, set, addNodes, Clone"]}
{"id": "C59", "title": "String lists of a node", "statement": "Strings returns the contents of the subnodes in order; StringTxt and StringCSV join them with blanks and commas, for every graph, and contents without the separator can be told apart in the result; the default is returned when there is nothing.", "quantifier": "every graph and default", "why_tests_cant": "all contents and numbers of subnodes", "anchors": ["gettypes.go: String, Strings, StringCSV, StringTxt"]}
{"id": "C60", "title": "Find returns exactly the matching subnodes", "statement": "Find(re) returns a new graph with the direct subnodes whose content matches, in order and no others; nil when there are none; an error for a wrong expression.", "quantifier": "every graph and regular expression", "why_tests_cant": "all graphs and matchers", "anchors": ["gettypes.go: Find"]}
{"id": "C61", "title": "HTML view", "statement": "Html writes one line per node in document order with the indentation of its level and a link on nodes with subnodes, and the result is well-formed HTML whatever the contents.", "quantifier": "every graph and path", "why_tests_cant": "all contents", "anchors": ["html.go: Html, _html"]}
{"id": "C62", "title": "Simplified XML", "statement": "Simplify replaces nodes with an @id by a node named so and fields with a @name by a node named so, leaves everything else, loses no part of the document, and returns on every XML document.", "quantifier": "every XML document", "why_tests_cant": "all documents", "anchors": ["io/gxml/xml.go: Simplify"]}
{"id": "C63", "title": "Arguments of methods", "statement": "convert gives a value of the declared parameter type, unchanged when the types agree and equal in value for integers, for every argument.", "quantifier": "every argument value and parameter type", "why_tests_cant": "all values and types", "anchors": ["function.go: convert"]}
{"id": "C64", "title": "Assignments in expressions", "statement": "Evaluating `p op e` (=, +=, -=, *=, /=, %=) leaves the variable p with the value that op and the value of e make of its old value, and changes nothing else in the graph.", "quantifier": "every graph, path and expression", "why_tests_cant": "all graphs, paths and expressions", "anchors": ["eval.go: assign, evalBinary, calc", "graph.go: set"]}
{"id": "C65", "title": "Calls of functions and methods", "statement": "A call `f(a, b)` in an expression or a path hands the values of its arguments, in order, to the Go function that f holds and yields its first result; with other argument types nothing is called and there is an error. `o.m(a, b)` calls the method m of the object that o holds, with the arguments converted to the parameters' types, and a remote function gets a graph with the method's name and the arguments.", "quantifier": "every graph, function, method and argument list", "why_tests_cant": "all functions, argument lists and graphs", "anchors": ["function.go: function, convert", "flow.go: Args, ArgList", "eval.go: evalPath", "graph.go: get"]}
{"id": "C66", "title": "gpath prints what the path names", "statement": "`gpath . file` prints a document that reads back as the graph of the file, and printing that document again changes nothing. `gpath path file` prints the subnodes of the node at the path in a form that reads back as them; a single value is printed as it is; the output ends with a newline; a path that leads nowhere prints nothing.", "quantifier": "every document and path", "why_tests_cant": "all documents, paths and ways in which the input arrives in pieces", "anchors": ["cmd/gpath/main.go: main", "graph.go: Text", "parser.go: FromReader"]}
{"id": "C67", "title": "json2ogdl and xml2ogdl keep the input", "statement": "The printed text reads back as the members and elements of the JSON object (numbers, texts, booleans in order below their names), or as the elements, attributes and texts of the XML document, or of the part of it at the path. With -id, a node with an id is named by it and reduced to its last subnode, all others are kept.", "quantifier": "every JSON and XML document", "why_tests_cant": "all documents and read schedules", "anchors": ["cmd/json2ogdl/main.go: main", "cmd/xml2ogdl/main.go: main, simplify, xml2graph"]}
{"id": "C68", "title": "gtemplate uses all data files", "statement": "The output is that of the template processed on the graph with the subnodes of all data files in order, and a newline; a variable is taken from the first file that has its first name; files that are missing or empty are passed over.", "quantifier": "every template and list of data files", "why_tests_cant": "all templates and files", "anchors": ["cmd/gtemplate/main.go: main", "parser.go: FromFile", "graph.go: AddNodes"]}
{"id": "C69", "title": "Selectors", "statement": "name{} in a path leads to a node with the subnodes of all children of that name, in order; name{n} to one with the subnodes of the nth child of that name, and without subnodes if there are fewer; the rest of the path goes on from there. If no child has the name the result is nil. Get never panics on such paths, Get(p.q) is Get(q) of Get(p), Eval gives the same node, and Set followed by Get returns what was stored.", "quantifier": "every graph and path with selectors after names", "why_tests_cant": "all graphs, names, positions of repeated names and combinations of steps", "anchors": ["eval.go: getPath", "eval.go: evalPath", "flow.go: Selector", "graph.go: addEqualNodes"]}
{"id": "C70", "title": "Peers cannot crash a remote function", "statement": "Whatever bytes its peers send, in whatever segments and interleaving, a server does not panic as long as its handlers do not, nor does a client; and every request is answered or its connection is left.", "quantifier": "all bytes received, segmentations, orders of steps, handlers, routes", "why_tests_cant": "all byte strings a peer can send and all interleavings", "anchors": ["ogdlrf/server.go: process, process1, router", "ogdlrf/client.go: callV1, callV2", "binary.go: FromBinary"]}
{"id": "C71", "title": "Mixed arithmetic", "statement": "If one operand of + - * / in an expression is a float and the other an integer or a float, both are converted to float64 and the result is the float64 nearest to the exact result (ties to even, infinity beyond the largest); % gives the remainder of the integer parts. Comparisons with a float on the left follow the order of the numbers. Two texts are joined by + and no other operator applies; a number and a numeric text are added as numbers.", "quantifier": "all 64 bit integers, finite float32 and float64 values, texts", "why_tests_cant": "2^128 pairs of operands; correct rounding in every case", "anchors": ["eval.go: calc", "eval.go: compare", "gettypes.go: _float64, _float64f"]}
{"id": "C72", "title": "Graphs that share no nodes are trees", "statement": "A caller that builds several graphs and calls New, Add, AddNodes, Copy, Clone, NodeSet, Create, Delete, Clear, DeleteAt, Set, Substitute and Merge on them, never using a graph again after storing it in another one, sees exactly what the same operations on immutable trees give: the same panics, each variable shows the tree computed for it, and no two variables ever share a node. With a node reachable in two ways this is false.", "quantifier": "all sequences of these operations, all graphs with plain contents, names, indexes and values", "why_tests_cant": "unbounded sequences over unbounded graphs; aliasing shows only in particular combinations", "anchors": ["graph.go: Add, AddNodes, Copy, Clone, NodeSet, Create, Delete, Clear, DeleteAt, Set, Substitute, Merge"]}
{"id": "C73", "title": "Every node owns the array behind its children", "statement": "Whatever calls of the functions of graph.go are made, and however much space append reserves, the results and the children of every node are as if each node had its own list: no two nodes ever share an array, adding to or removing from one node changes no other node, and loops over children see the children that were there when they began. A node without children behaves the same however it lost them.", "quantifier": "all histories of calls by a caller holding any number of nodes, all growth policies of append", "why_tests_cant": "aliasing between slices depends on capacities chosen by the runtime and on the order of earlier calls", "anchors": ["graph.go: Add, AddNodes, Copy, Clone, Delete, DeleteAt, Clear, Set, set, Substitute, Merge", "gettypes.go: Scalar, ThisScalar, Interface"]}
{"id": "C74", "title": "Scanning functions take the longest match", "statement": "In every session with a Lexer, each of String, StringStop, WhiteSpace, Space, SpaceMax, Integer, Number, Operator, TemplateText, Break, End, Quoted, Comment, Block, Scalar, Token8 and PeekByte answers with the longest piece of its kind at the current position and consumes exactly that; if there is none it consumes nothing.", "quantifier": "all texts of any length, all readers, all sequences of calls", "why_tests_cant": "unbounded texts and call sequences; refills of the buffer happen at every possible position", "anchors": ["lexer.go: String ... Scalar", "lexer.go: fill, Byte, UnreadByte"]}
{"id": "C75", "title": "Runes", "statement": "Rune returns the characters of a UTF-8 text one after the other, UnreadRune goes back by exactly one character and fails only before the first one, PeekRune returns the next character without going on. At the end Rune reports an error.", "quantifier": "all UTF-8 texts, all sequences of Rune, PeekRune and UnreadRune", "why_tests_cant": "unbounded histories over every mix of character sizes; the buffer boundary may fall inside any character", "anchors": ["lexer.go: Rune", "lexer.go: UnreadRune", "lexer.go: PeekRune"]}
{"id": "C76", "title": "Getters of a node agree", "statement": "String, Bytes, Int64, Float64, Number and Scalar return for a node what ThisString, ThisBytes, ThisInt64, ThisFloat64, ThisNumber and ThisScalar return for its first subnode. A default is returned exactly when there is no value of the type asked for. Number returns the int64 of every text that is an integer, with blanks around it allowed.", "quantifier": "all graphs, contents of every type, all defaults", "why_tests_cant": "every pair of getters over every content type and every text", "anchors": ["gettypes.go: Int64, Float64, Bool, Bytes, Number, This*", "gettypes.go: number, isInteger"]}
{"id": "C77", "title": "Paths in expressions", "statement": "In an expression a path of names, quoted strings, indexes and selectors evaluates to what the node it leads to holds: the single value below it, or else the node; a path that leads nowhere evaluates to nothing. Get of the same path returns the same node. The names _len, _this, _thisString, _string and _json at the end of a path give the number of subnodes, the node, its content, the content of its first subnode and its JSON; the graph is not changed.", "quantifier": "all graphs, all paths of names, quoted strings, numeric indexes and selectors", "why_tests_cant": "paths and graphs are unbounded; two evaluators (Get and Eval) must agree on all of them", "anchors": ["eval.go: evalPath", "eval.go: getPath", "expression.go: NewExpression"]}
{"id": "C78", "title": "Expressions as indexes", "statement": "a[e] is the child of a at the position that the expression e evaluates to in the graph; when e is not a non-negative integer, Get returns nil and Eval an error.", "quantifier": "all graphs, all paths with indexes of operands and operators", "why_tests_cant": "expressions, paths and graphs are unbounded", "anchors": ["eval.go: index", "flow.go: Index", "expression.go: ast"]}
{"id": "C79", "title": "Expressions as names", "statement": "a.(e) is a.s, where s is the text of what the expression e evaluates to in the graph: Get returns the same node and an expression the same value, wherever in a path the parentheses stand and whatever follows. If no child has that name, or the text is empty, Get returns nil and Eval nothing; the graph is not changed.", "quantifier": "all graphs, all paths with groups of operands and operators", "why_tests_cant": "expressions, paths and graphs are unbounded; the outcome depends on where the path stands in a larger expression", "anchors": ["eval.go: getPath (TypeGroup)", "eval.go: evalPath (TypeGroup)", "flow.go: Args", "expression.go: _ast"]}
{"id": "C80", "title": "The text format, the binary format and the log carry the same graphs", "statement": "FromString(g.Text()) and FromBinary(g.Binary()) are the same graph, and it prints the same text and the same bytes again. What Get returns for a graph added to a log prints as the graph, whatever was written before and after it, and reading that text gives the graph that Get returned.", "quantifier": "every graph, every history of the log", "why_tests_cant": "all graphs and all histories; the two formats treat contents by different functions (_string, _bytes)", "anchors": ["graph.go: Text", "binary.go: Binary, FromBinary", "parser.go: FromString", "log.go: Add, Get", "gettypes.go: _string, _bytes"]}
{"id": "C81", "title": "Expressions in selectors", "statement": "a{e} is a{n}, where n is the value of the expression e in the graph: the subnodes of the nth child called a, whether a is a name, a quoted string or a name from an expression; when e is not a non-negative integer, Get returns nil and Eval an error.", "quantifier": "all graphs, all paths of names, indexes, groups and selectors with operands and operators", "why_tests_cant": "expressions, paths and graphs are unbounded", "anchors": ["eval.go: getPath", "eval.go: evalPath", "eval.go: index", "flow.go: Selector"]}
{"id": "C82", "title": "Lookups and evaluation do not modify the graph", "statement": "Get leaves the graph exactly as it was, whatever the path. So do Eval and the conditions of templates, unless the expression contains an assignment; and so does processing a template without assignments and loops. (Functions that are called may do anything.)", "quantifier": "all graphs, all path texts, all expression trees and templates", "why_tests_cant": "the texts, the trees and the graphs are unbounded, and any malformed text counts", "anchors": ["eval.go: getPath, evalPath, evalExpression, evalBinary, index", "flow.go: Path, Expression, ArgList, Args, Index, Selector", "expression.go: ast", "template.go: process"]}
{"id": "C83", "title": "Evaluation reads: shared nodes are not touched", "statement": "Evaluating an expression without assignments modifies no node of the context, whatever comes out (a panic included); it only creates new nodes. A node may occur at several places of the context: the result is the one that the unfolded tree gives, and where it is a node of the context it is that node itself. With assignments this fails: after c=a, storing under c.x also changes a.x.", "quantifier": "all contexts in memory that show a finite tree, with any sharing of nodes, all expression trees", "why_tests_cant": "expressions, contexts and ways of sharing are unbounded", "anchors": ["eval.go: Eval, evalBool, evalExpression, evalPath, evalBinary, index, assign", "graph.go: Node, GetAt, addEqualNodes, set"]}
{"id": "C84", "title": "Templates leave shared nodes alone", "statement": "Processing a template without assignments, whose loops run over paths that do not begin with _this, modifies no node except the context (its list of children), even if it panics: list elements and everything that shares them stay as they were. The text and the context afterwards are those that the unfolded tree gives. The restrictions are needed: a loop over the context itself makes the context contain itself, so that writing the variable never ends, and an assignment through a loop variable modifies the list element for everybody who shares it.", "quantifier": "all templates, all contexts in memory that show a finite tree without nil subnodes, with any sharing of nodes", "why_tests_cant": "templates, nestings of loops, contexts and ways of sharing are unbounded", "anchors": ["template.go: Process, process", "graph.go: Delete, Add", "eval.go: Eval, evalBool"]}
{"id": "C85", "title": "Evaluation and templates return", "statement": "Evaluating an expression and processing a template always end, with a result or a panic, provided the functions in the context and the conversion to JSON return: the depth of the recursion is at most one more than the depth of the expression or template, whatever the context holds. The same holds for Get, Set and for reading and processing a template, for every text of at most 4094 bytes in which multi-byte characters are well formed; with longer names Get and Set never return. On nodes in memory it holds under the conditions of C83 and C84.", "quantifier": "all expression trees and templates (also ones no text is read as), all contexts, all texts up to 4094 bytes", "why_tests_cant": "no test shows the absence of an endless loop for all inputs; the evaluator recurses over user-supplied expressions, the loops of templates over user-supplied lists", "anchors": ["eval.go: Eval, evalExpression, evalPath, getPath, evalBinary, index", "function.go: function", "template.go: Process, process", "graph.go: Get, Set, Delete, Text"]}
{"id": "C86", "title": "What makes the evaluation of an expression or a template panic", "statement": "If evaluating an expression panics, the operands of one of its operators are to blame: an integer is divided by the integer 0 (/ or %), or the remainder of a number is taken by something whose whole part is 0 (a text that is not a number counts as 0), or an integer is compared with a node that is not there. Such operands always make the operator panic. This is for expressions that do not assign, with every operator between its operands, and contexts that hold data (no functions, no nil nodes); in particular for the texts of C40, as NewExpression reads them. An assignment panics exactly if its right side does, or if it updates (+= -= *= /= %=) a variable that is there but empty, or if it divides (/= %=) the variable by something that counts as 0. If processing a template panics (the loops in it are over paths, not over the context itself), then for this reason, in one of its expressions, or because the text of what one of its paths leads to cannot be shown (Text panics, C18); this is in the context it was given, apart from the variables of its loops. If it does not panic, the context is the same afterwards apart from these variables.", "quantifier": "all expression trees of that form, all contexts of data, all values of the operands; all texts of operands (numbers, quoted strings, paths) with operators between them, up to 4094 bytes; all templates, with loops over paths, whose expressions have that form, and their texts", "why_tests_cant": "no test shows that other expressions and data do not panic; the two directions together characterise the panics", "anchors": ["eval.go: Eval, evalExpression, evalPath, evalBinary, compare, calc, index, selector", "gettypes.go: _int64f, _float64f, _string", "expression.go: NewExpression", "template.go: Process, process"]}
{"id": "C87", "title": "Assigning values on nodes in memory", "statement": "In a context in memory no node of which occurs at two places, and which holds data, assigning with = a value that is not a node (a number, text, truth value, ...) leaves exactly the context that the description on trees gives; no node outside of the context is modified, and still no node occurs at two places. The same holds for += -= *= /= %= when the path on the left has only names. A panic happens on nodes exactly when it happens on trees. It also holds for every sequence of such assignments and of expressions that assign nothing. Both conditions are needed: if a node occurs at two places, an assignment through one is seen at the other; and assigning a node makes its subnodes occur twice (C83).", "quantifier": "all contexts of data without sharing, all paths on the left that contain names and indexes, all expressions on the right that assign nothing and yield no node, all finite sequences", "why_tests_cant": "contexts, expressions and histories are unbounded, and the claim that no other node is touched speaks about all of memory", "anchors": ["eval.go: Eval, evalExpression, evalBinary, assign, getPath", "graph.go: set, Add, Node", "eval.go: calc"]}
{"id": "C88", "title": "Text, Binary and Equals distinguish the same documents", "statement": "Two documents (graphs of non-empty texts as FromString returns them, under roots with the same content) have the same Text() if and only if they have the same Binary(), if and only if Equals says they are equal. For graphs of any contents Text() and Binary() are the same if and only if the graphs print as the same forest of texts.", "quantifier": "all pairs of graphs", "why_tests_cant": "all pairs of graphs: two different graphs that are written alike are rare", "anchors": ["graph.go: Equals, Text, _text", "binary.go: Binary"]}
{"id": "C89", "title": "Selectors after an index or a selector", "statement": "A selector that follows an index or another selector takes its nodes among the children of the node to which that index or selector was applied, and of these the ones called by the last name of the path: p.a[i]{} gives the subnodes of all children of p.a that are called a, p.a[i]{n} those of the nth of them, whatever is at position i, and the rest of the path goes on from there. Get and Eval agree. A selector before any name makes Get return nil.", "quantifier": "all graphs, all paths of names, indexes, names from expressions and selectors in any order", "why_tests_cant": "paths, graphs and the positions of selectors in the path are unbounded", "anchors": ["eval.go: getPath", "eval.go: evalPath", "graph.go: addEqualNodes", "flow.go: Selector"]}
{"id": "C90", "title": "Copy within one graph", "statement": "g.Copy(h) returns, appends to g a copy of each child that h has at the time of the call and changes no other node, whether g and h are apart, the same node, or one is part of the other.", "quantifier": "all graphs in memory without shared nodes, all pairs of their nodes", "why_tests_cant": "shapes of graphs and positions of the two nodes are unbounded; that a call never returns cannot be observed", "anchors": ["graph.go: Copy", "graph.go: Add"]}
{"id": "C91", "title": "No graph becomes part of itself", "statement": "If no node is below itself before g.Add(v) or g.AddNodes(n), then none is afterwards, so that Clone, which visits all nodes below the given one, still returns.", "quantifier": "all graphs in memory, with or without shared nodes, all values added", "why_tests_cant": "shapes of graphs are unbounded; that a call never returns cannot be observed", "anchors": ["graph.go: Add", "graph.go: AddNodes", "graph.go: Clone"]}
{"id": "C92", "title": "What follows a path or an expression is ignored", "statement": "If p is a path of names, quoted strings and indexes and r is a text that begins with a character that is no letter, digit or underscore and not one of . [ ( {, then NewPath, Get and Set do with p+r what they do with p: the rest is neither read nor reported. The same holds for NewPath of a name followed by bytes that are not UTF-8. NewExpression of an expression followed by blanks, a closing bracket or a comma, and then by anything but an operator, gives the tree of the expression alone.", "quantifier": "all paths and expressions and all texts after them, up to 4094 bytes in all; all graphs and values", "why_tests_cant": "paths, expressions and the texts after them are unbounded in number", "anchors": ["flow.go: NewPath", "flow.go: Path", "flow.go: Expression", "lexer.go: Token8", "graph.go: Get", "graph.go: Set"]}
{"id": "C93", "title": "Set returns a node of the graph", "statement": "The node that g.Set(path, v) returns is a new node with content v and no subnodes, and it is part of g, so that what is added to it is seen in g.", "quantifier": "all graphs in memory, also with shared nodes and nodes below themselves, all paths of names and indexes, all values", "why_tests_cant": "shapes of graphs, paths and values are unbounded", "anchors": ["graph.go: Set", "graph.go: set", "graph.go: addNodes"]}
{"id": "C94", "title": "A template can be processed again", "statement": "Processing a template a second time with the same context, which the first time may have modified, writes the same text again and leaves the context as the first time left it.", "quantifier": "all templates, all contexts", "why_tests_cant": "templates and contexts are unbounded; that the context carries something over from one call to the next shows only with particular pairs of them", "anchors": ["template.go: Process", "template.go: process", "eval.go: evalBinary", "graph.go: Delete"]}
{"id": "C95", "title": "Show prints the top node too", "statement": "g.Show() writes what Text() writes of a graph whose only subnode is g, with an underscore in place of each empty content and each missing node, and it panics only if that Text() does. Under the conditions on the contents for which C18 is proved (no lone hash or backslash, no leading backquote, no backslash before a backslash, a quote or the end of a text that has to be quoted, no separators in the content of g itself), FromString(g.Show()) is a graph whose only subnode is g, with the contents as strings and those underscores.", "quantifier": "all graphs whose contents have a string form, with or without missing nodes", "why_tests_cant": "shapes and contents of graphs are unbounded", "anchors": ["graph.go: Show", "graph.go: _text", "graph.go: Text"]}
{"id": "C96", "title": "Sorting by distinct keys has one result", "statement": "If every child has a key, and no two different children have the same one, then the result of Sort and of SortAsInt depends neither on the order in which the children were before nor on the method by which sort.Sort sorts, and sorting again changes nothing. With equal keys it depends on both: sort.Sort does not promise to keep the order of equal elements.", "quantifier": "all graphs, key paths, orders of the children, and methods that keep the promise of sort.Sort", "why_tests_cant": "a test sees the one method of the installed library, and few orders", "anchors": ["sort.go: Sort", "sort.go: SortAsInt"]}
{"id": "C97", "title": "Substitutions one after the other", "statement": "Substitute(s,v) changes nothing if no node below the top prints as s. Two substitutions commute if each replaces another text and neither writes what the other replaces. Substitute(a,b) followed by Substitute(b,c) gives what Substitute(b,c) followed by Substitute(a,c) gives. A substitution is undone by the reverse one if the new text was not there before and all the nodes replaced had the content that the reverse one writes. Without those conditions they do not commute and are not undone.", "quantifier": "all graphs without missing nodes whose contents have a string form, all texts and contents", "why_tests_cant": "shapes of graphs and contents are unbounded", "anchors": ["graph.go: Substitute"]}
{"id": "C98", "title": "Deletions one after the other", "statement": "Delete(n) twice gives what it gives once. Delete(n) and Delete(m) give the same in either order. DeleteAt(j) and then DeleteAt(i), with i<j below Len(), gives the same as DeleteAt(i) and then DeleteAt(j-1). After Delete(s), in a graph whose direct subnodes contain strings, Node(s) is nil. Delete(n) after Add(n) gives the graph as it was if no subnode had a content equal to n, n is not nil and not a not-a-number (which Delete does not find). With other contents than strings Node may find what Delete has left.", "quantifier": "all graphs with direct subnodes present and of comparable contents other than pointers to graphs (DeleteAt: all graphs), all contents of that kind", "why_tests_cant": "numbers of subnodes and contents are unbounded", "anchors": ["graph.go: Delete", "graph.go: DeleteAt", "graph.go: Add", "graph.go: Node"]}
{"id": "C99", "title": "The last value set counts", "statement": "Set(p,w) after Set(p,v), or after Set(p.q,v), leaves the same graph as Set(p,w) alone; in particular the same Set again changes nothing. Sets of different new names leave the nodes in the order of the Sets.", "quantifier": "all graphs without missing nodes whose contents have a string form, all paths p and p.q of names, all values v that have a string form or are such graphs, all values w", "why_tests_cant": "graphs, paths and values are unbounded", "anchors": ["graph.go: Set", "flow.go: NewPath"]}
