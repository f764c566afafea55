(** The style sheets of src/apex.c 6128-6401, as they are in the memory: memcpy does not turn %% into %, and the parts written by snprintf have no %. *)
From Verif Require Import Base.

Definition lines (l : list str) : str := concat (map (fun x => x ++ [NL]) l).
(** 6130-6135 *)
Definition code_style : str := Eval vm_compute in lines [
  B "  <style>";
  B "    /* GitHub-style syntax highlighting for Pygments and Skylighting */";
  B "    /* Don't apply background to wrapper when code highlighting is enabled - let default styles handle it */";
  B "    .code-highlighted .highlight, .code-highlighted .sourceCode { background: inherit; border-radius: 6px; padding: 16px; overflow-x: auto; }";
  B "    .highlight pre, .sourceCode pre { margin: 0; padding: 0; background: transparent; }";
  B "    .highlight code, .sourceCode code { font-family: 'SFMono-Regular', Consolas, 'Liberation Mono', Menlo, monospace; font-size: 12px; line-height: 1.45; }"].
(** 6174-6220 *)
Definition pygments : str := Eval vm_compute in lines [
  B "    .highlight .k { color: #d73a49; font-weight: 600; } /* Keyword */";
  B "    .highlight .kt { color: #d73a49; } /* Keyword.Type */";
  B "    .highlight .kd { color: #d73a49; font-weight: 600; } /* Keyword.Declaration */";
  B "    .highlight .kn { color: #d73a49; } /* Keyword.Namespace */";
  B "    .highlight .kp { color: #d73a49; } /* Keyword.Pseudo */";
  B "    .highlight .kr { color: #d73a49; font-weight: 600; } /* Keyword.Reserved */";
  B "    .highlight .n { color: #6f42c1; } /* Name */";
  B "    .highlight .na { color: #6f42c1; } /* Name.Attribute */";
  B "    .highlight .nc { color: #6f42c1; font-weight: 600; } /* Name.Class */";
  B "    .highlight .no { color: #005cc5; } /* Name.Constant */";
  B "    .highlight .nd { color: #6f42c1; font-weight: 600; } /* Name.Decorator */";
  B "    .highlight .ni { color: #800080; } /* Name.Entity */";
  B "    .highlight .ne { color: #990000; font-weight: 600; } /* Name.Exception */";
  B "    .highlight .nf { color: #6f42c1; font-weight: 600; } /* Name.Function */";
  B "    .highlight .nl { color: #6f42c1; } /* Name.Label */";
  B "    .highlight .nn { color: #555; } /* Name.Namespace */";
  B "    .highlight .nt { color: #22863a; } /* Name.Tag */";
  B "    .highlight .nv { color: #e36209; } /* Name.Variable */";
  B "    .highlight .s { color: #032f62; } /* String */";
  B "    .highlight .sb { color: #032f62; } /* String.Backtick */";
  B "    .highlight .sc { color: #032f62; } /* String.Char */";
  B "    .highlight .sd { color: #032f62; } /* String.Doc */";
  B "    .highlight .s2 { color: #032f62; } /* String.Double */";
  B "    .highlight .se { color: #032f62; } /* String.Escape */";
  B "    .highlight .sh { color: #032f62; } /* String.Heredoc */";
  B "    .highlight .si { color: #032f62; } /* String.Interpol */";
  B "    .highlight .sx { color: #032f62; } /* String.Other */";
  B "    .highlight .sr { color: #032f62; } /* String.Regex */";
  B "    .highlight .s1 { color: #032f62; } /* String.Single */";
  B "    .highlight .ss { color: #032f62; } /* String.Symbol */";
  B "    .highlight .c { color: #6a737d; font-style: italic; } /* Comment */";
  B "    .highlight .c1 { color: #6a737d; font-style: italic; } /* Comment.Single */";
  B "    .highlight .cm { color: #6a737d; font-style: italic; } /* Comment.Multiline */";
  B "    .highlight .cp { color: #6a737d; font-weight: 600; } /* Comment.Preproc */";
  B "    .highlight .cs { color: #6a737d; font-weight: 600; font-style: italic; } /* Comment.Special */";
  B "    .highlight .m { color: #005cc5; } /* Literal.Number */";
  B "    .highlight .mb { color: #005cc5; } /* Literal.Number.Bin */";
  B "    .highlight .mf { color: #005cc5; } /* Literal.Number.Float */";
  B "    .highlight .mh { color: #005cc5; } /* Literal.Number.Hex */";
  B "    .highlight .mi { color: #005cc5; } /* Literal.Number.Integer */";
  B "    .highlight .il { color: #005cc5; } /* Literal.Number.Integer.Long */";
  B "    .highlight .mo { color: #005cc5; } /* Literal.Number.Oct */";
  B "    .highlight .o { color: #d73a49; } /* Operator */";
  B "    .highlight .ow { color: #d73a49; } /* Operator.Word */";
  B "    .highlight .p { color: #24292e; } /* Punctuation */";
  B "    .highlight .w { color: #e1e4e8; } /* Text.Whitespace */"].
(** 6248-6278 *)
Definition skylighting : str := Eval vm_compute in lines [
  B "    .sourceCode .kw { color: #d73a49; font-weight: 600; } /* Keyword */";
  B "    .sourceCode .dt { color: #6f42c1; } /* DataType */";
  B "    .sourceCode .dv { color: #005cc5; } /* DecVal */";
  B "    .sourceCode .bn { color: #005cc5; } /* BaseN */";
  B "    .sourceCode .fl { color: #005cc5; } /* Float */";
  B "    .sourceCode .ch { color: #032f62; } /* Char */";
  B "    .sourceCode .st { color: #032f62; } /* String */";
  B "    .sourceCode .co { color: #6a737d; font-style: italic; } /* Comment */";
  B "    .sourceCode .ot { color: #22863a; } /* Other */";
  B "    .sourceCode .al { color: #e36209; font-weight: 600; } /* Alert */";
  B "    .sourceCode .fu { color: #6f42c1; font-weight: 600; } /* Function */";
  B "    .sourceCode .re { color: #032f62; } /* RegionMarker */";
  B "    .sourceCode .er { color: #d73a49; font-weight: 600; } /* Error */";
  B "    .sourceCode .cf { color: #d73a49; font-weight: 600; } /* ControlFlow */";
  B "    .sourceCode .op { color: #d73a49; } /* Operator */";
  B "    .sourceCode .pp { color: #6a737d; } /* Preprocessor */";
  B "    .sourceCode .at { color: #005cc5; } /* Attribute */";
  B "    .sourceCode .do { color: #6a737d; font-style: italic; } /* Documentation */";
  B "    .sourceCode .an { color: #6a737d; font-weight: 600; } /* Annotation */";
  B "    .sourceCode .cv { color: #6a737d; font-weight: 600; font-style: italic; } /* CommentVar */";
  B "    .sourceCode .in { color: #6a737d; } /* Information */";
  B "    .sourceCode .wa { color: #e36209; font-weight: 600; } /* Warning */";
  B "    .sourceCode .im { color: #d73a49; } /* Import */";
  B "    .sourceCode .bu { color: #005cc5; } /* BuiltIn */";
  B "    .sourceCode .ex { color: #6f42c1; } /* Extension */";
  B "    .sourceCode .va { color: #e36209; } /* Variable */";
  B "    .sourceCode .ss { color: #032f62; } /* SpecialString */";
  B "    .sourceCode .sc { color: #032f62; } /* SpecialChar */";
  B "    .sourceCode .vs { color: #032f62; } /* VerbatimString */";
  B "    .sourceCode .il { color: #005cc5; } /* Special */"].
(** 6298-6303 *)
Definition line_numbers : str := Eval vm_compute in lines [
  B "    /* Line numbers (Skylighting) */";
  B "    .sourceCode.numberSource .sourceCode { counter-reset: line; }";
  B "    .sourceCode.numberSource .sourceCode > span { position: relative; left: -4em; counter-increment: line; }";
  B "    .sourceCode.numberSource .sourceCode > span > a:first-child::before { content: counter(line); position: relative; left: -1em; text-align: right; vertical-align: baseline; border: none; display: inline-block; min-width: 1em; padding-right: 0.5em; color: #aaa; }";
  B "  </style>"].
(** 6361-6401 *)
Definition default_style : str := Eval vm_compute in lines [
  B "  <style>";
  B "    body {";
  B "      font-family: -apple-system, BlinkMacSystemFont, 'Segoe UI', Helvetica, Arial, sans-serif;";
  B "      line-height: 1.6;";
  B "      max-width: 800px;";
  B "      margin: 2rem auto;";
  B "      padding: 0 1rem;";
  B "      color: #333;";
  B "    }";
  B "    pre { background: #f5f5f5; padding: 1rem; overflow-x: auto; }";
  B "    code { background: #f0f0f0; padding: 0.2em 0.4em; border-radius: 3px; }";
  B "    blockquote { border-left: 4px solid #ddd; margin: 0; padding-left: 1rem; color: #666; }";
  B "    table { border-collapse: collapse; width: 100%%; }";
  B "    th, td { border: 1px solid #ddd; padding: 0.5rem; }";
  B "    th { background: #f5f5f5; }";
  B "    tfoot td { background: #e8e8e8; }";
  B "    figure.table-figure { width: fit-content; margin: 1em 0; }";
  B "    figure.table-figure table { width: auto; }";
  B "    figcaption { text-align: center; font-weight: bold; font-size: 0.8em; }";
  B "    .page-break { page-break-after: always; }";
  B "    .callout { padding: 1rem; margin: 1rem 0; border-left: 4px solid; }";
  B "    .callout-note { border-color: #3b82f6; background: #eff6ff; }";
  B "    .callout-warning { border-color: #f59e0b; background: #fffbeb; }";
  B "    .callout-tip { border-color: #10b981; background: #f0fdf4; }";
  B "    .callout-danger { border-color: #ef4444; background: #fef2f2; }";
  B "    ins { background: #d4fcbc; text-decoration: none; }";
  B "    del { background: #fbb6c2; text-decoration: line-through; }";
  B "    mark { background: #fff3cd; }";
  B "    .critic.comment { background: #e7e7e7; color: #666; font-style: italic; }";
  B "    .mkhashtag { color: #666; }";
  B "    .mkstyledtag {";
  B "      display: inline-block;";
  B "      background: #e0e0e0;";
  B "      padding: 3px 9px;";
  B "      border-radius: 20px;";
  B "      font-size: 0.9em;";
  B "      line-height: 1.4;";
  B "      color: #333;";
  B "      margin: 0 2px;";
  B "    }";
  B "  </style>"].
