// Translates the repository's coverage fixtures (spec/fixtures/*.yaml) into Fixtures.v:
//   node --expose-internals tools/fixtures.js /repo/spec/fixtures > rocq/theories/Fixtures.v
// The source of a fixture is parsed by the acorn parser built into node and written down as a
// syntax tree of the model; nothing is executed here.
const fs = require('fs'), path = require('path');
const acorn = require('internal/deps/acorn/acorn/dist/acorn');

// ---- YAML (the subset the fixtures use) ----
function flow(src) {
  let i = 0;
  const ws = () => { while (i < src.length && /\s/.test(src[i])) i++; };
  function plain(stop) {
    let j = i; while (j < src.length && !stop.test(src[j])) j++;
    const t = src.slice(i, j).trim(); i = j;
    if (/^-?\d+$/.test(t)) return Number(t);
    if (t === 'true') return true; if (t === 'false') return false;
    if (t === 'null' || t === '~' || t === '') return null;
    return t;
  }
  function value(inside) {
    ws();
    const c = src[i];
    if (c === '{') {
      i++; const o = {};
      for (;;) { ws(); if (src[i] === '}') { i++; return o; } if (src[i] === ',') { i++; continue; }
        const k = String(value(':')); ws(); if (src[i] !== ':') throw Error('flow map ' + src); i++; o[k] = value(true); }
    }
    if (c === '[') {
      i++; const a = [];
      for (;;) { ws(); if (src[i] === ']') { i++; return a; } if (src[i] === ',') { i++; continue; } a.push(value(true)); }
    }
    if (c === "'" || c === '"') { const j = src.indexOf(c, i + 1); const t = src.slice(i + 1, j); i = j + 1; return t; }
    return plain(inside === ':' ? /[:]/ : inside ? /[,\]}]/ : /[\n]/);
  }
  return value(false);
}
function yaml(text) {
  const lines = text.split('\n');
  let p = 0;
  const indent = l => l.match(/^ */)[0].length;
  const skip = () => { while (p < lines.length && (/^\s*$/.test(lines[p]) || /^\s*#/.test(lines[p]))) p++; };
  function scalar(style, base) {
    const out = []; let ind = -1;
    while (p < lines.length) {
      const l = lines[p];
      if (/^\s*$/.test(l)) { out.push(''); p++; continue; }
      if (indent(l) <= base) break;
      if (ind < 0) ind = indent(l);
      out.push(l.slice(ind)); p++;
    }
    while (out.length && out[out.length - 1] === '') out.pop();
    if (style === '|') return out.join('\n') + '\n';
    let r = out[0];
    for (let k = 1; k < out.length; k++) r += (/^\s/.test(out[k]) || /^\s/.test(out[k - 1]) ? '\n' : ' ') + out[k];
    return r + '\n';
  }
  function block(ind) {
    skip();
    if (p >= lines.length || indent(lines[p]) < ind) return null;
    const base = indent(lines[p]);
    if (lines[p].slice(base).startsWith('- ')) {
      const a = [];
      for (;;) {
        skip();
        if (p >= lines.length || indent(lines[p]) !== base || !lines[p].slice(base).startsWith('- ')) return a;
        const rest = lines[p].slice(base + 2);
        if (/^[\w]+:/.test(rest)) { lines[p] = ' '.repeat(base + 2) + rest; a.push(block(base + 2)); }
        else { a.push(flow(rest)); p++; }
      }
    }
    const o = {};
    for (;;) {
      skip();
      if (p >= lines.length || indent(lines[p]) !== base) return o;
      const m = lines[p].slice(base).match(/^(\w+):\s*(.*)$/);
      if (!m) throw Error('yaml: ' + lines[p]);
      p++;
      if (m[2] === '|' || m[2] === '>') o[m[1]] = scalar(m[2], base);
      else if (m[2] === '') o[m[1]] = block(base + 1);
      else o[m[1]] = flow(m[2]);
    }
  }
  return block(0);
}

// ---- syntax trees ----
const str = s => {
  if (/[^\x00-\x7f]/.test(s)) throw Error('non-ascii ' + s);
  return '"' + s.replace(/"/g, '""') + '"';
};
const BIN = ['+', '-', '*', '/', '<', '>', '===', '!==', '<=', '>=', '%', '==', '!='];
const ASSIGN = ['=', '+=', '-=', '*='];
const UNARY = ['-', '!', '+', 'typeof'];
const list = l => '[' + l.join('; ') + ']';
const none = 'none';
const w = (n, f, k, cs) => `${f} ${n.start + 1} ${n.end + 1} ${k} ${list(cs)}`;
const par = s => '(' + s + ')';
const A = (n, k, cs = []) => par(w(n, 'at_', k, cs));
const X = (n, k, cs = []) => par(w(n, 'X', k, cs));
const T = (n, k, cs = []) => par(w(n, 'T', k, cs));
const O = t => `(KOther ${t})`;
const lst = l => par('list_ ' + list(l));
const types = 'types';

function block(n) { return par(`block ${n.start + 1} ${n.end + 1} ${list(n.body.map(stmt))}`); }
function pat(n) {
  switch (n.type) {
    case 'Identifier': return A(n, `(KIdent ${str(n.name)})`);
    case 'AssignmentPattern': return A(n, 'KAssignPat', [pat(n.left), expr(n.right)]);
    case 'MemberExpression': return member(n, A);
    case 'ParenthesizedExpression': return pat(n.expression);
  }
  throw Error('pattern ' + n.type);
}
const optE = n => n ? expr(n) : none;
function fn(n, outer) {
  return A(outer || n, 'KFunction', [lst(n.params.map(p => A(p, O(49), [pat(p)]))), lst([]), block(n.body), types]);
}
function key(n, computed, accessor) {
  if (computed) return A(n, O(2), [expr(n)]);
  switch (n.type) {
    case 'Identifier': return A(n, `(KPropIdent ${str(n.name)})`, accessor ? [none] : []);
    case 'PrivateIdentifier': return A(n, O(48), [A(n, `(KStr ${str('#' + n.name)})`)]);
    case 'Literal':
      if (n.bigint) return A(n, O(60));
      if (typeof n.value === 'string') return A(n, `(KStr ${str(n.value)})`);
      return A(n, O(1000 + n.value));
  }
  throw Error('key ' + n.type);
}
function member(n, W) { return W(n, O(1), [expr(n.object), key(n.property, n.computed)]); }
function prop(n) {
  if (n.type === 'SpreadElement') return A(n, O(43), [expr(n.argument)]);
  if (n.kind === 'get') return A(n, 'KGetter', [key(n.key, n.computed), types, block(n.value.body)]);
  if (n.kind === 'set') return A(n, 'KSetter', [key(n.key, n.computed), none, pat(n.value.params[0]), block(n.value.body)]);
  if (n.method) return A(n, 'KMethodProp', [key(n.key, n.computed), fn(n.value, n)]);
  if (n.shorthand) throw Error('shorthand');
  return A(n, O(42), [key(n.key, n.computed), expr(n.value)]);
}
function cls(n) {
  const members = n.body.body.map(m => {
    if (m.static) throw Error('static');
    if (m.type === 'PropertyDefinition')
      return A(m, m.key.type === 'PrivateIdentifier' ? 'KPrivateProp' : 'KClassProp', [key(m.key, m.computed), optE(m.value), types, lst([])]);
    if (m.kind === 'constructor') return A(m, O(58), [key(m.key), lst(m.value.params.map(pat)), block(m.value.body)]);
    return A(m, 'KClassMethod', [key(m.key, m.computed, m.kind !== 'method'), fn(m.value, m)]);
  });
  return A(n, 'KClass', [lst([]), lst(members), optE(n.superClass), types]);
}
const arg = n => A(n, O(4), [expr(n)]);
function expr(n) {
  switch (n.type) {
    case 'Identifier': return X(n, `(KIdent ${str(n.name)})`);
    case 'Literal':
      if (typeof n.value === 'string') return X(n, `(KStr ${str(n.value)})`);
      if (typeof n.value === 'boolean') return X(n, O(n.value ? 52 : 53));
      if (n.value === null) return X(n, O(54));
      return X(n, O(1000 + n.value));
    case 'MemberExpression': return member(n, X);
    case 'CallExpression': return X(n, O(3), [expr(n.callee), ...n.arguments.map(arg)]);
    case 'NewExpression': return X(n, O(5), [expr(n.callee), ...n.arguments.map(arg)]);
    case 'AssignmentExpression': {
      const o = ASSIGN.indexOf(n.operator); if (o < 0) throw Error(n.operator);
      return X(n, O(10 + o), [pat(n.left), expr(n.right)]); }
    case 'UpdateExpression': return X(n, O(20 + (n.operator === '--' ? 1 : 0) + (n.prefix ? 2 : 0)), [expr(n.argument)]);
    case 'UnaryExpression': return X(n, O(30 + UNARY.indexOf(n.operator)), [expr(n.argument)]);
    case 'BinaryExpression': return X(n, `(KBin (OpOther ${BIN.indexOf(n.operator)}))`, [expr(n.left), expr(n.right)]);
    case 'LogicalExpression':
      return X(n, `(KBin ${{ '||': 'OpOr', '&&': 'OpAnd', '??': 'OpNullish' }[n.operator]})`, [expr(n.left), expr(n.right)]);
    case 'ConditionalExpression': return X(n, 'KCond', [expr(n.test), expr(n.consequent), expr(n.alternate)]);
    case 'ParenthesizedExpression': return X(n, 'KParen', [expr(n.expression)]);
    case 'SequenceExpression': return X(n, 'KSeq', n.expressions.map(expr));
    case 'ArrayExpression': return X(n, O(40), n.elements.map(e => e ? arg(e) : none));
    case 'ObjectExpression': return X(n, O(41), n.properties.map(prop));
    case 'ThisExpression': return X(n, O(44));
    case 'MetaProperty': return X(n, O(45));
    case 'AwaitExpression': return X(n, O(46), [expr(n.argument)]);
    case 'YieldExpression': return X(n, O(47), [optE(n.argument)]);
    case 'FunctionExpression': return X(n, 'KFnExpr', [n.id ? pat(n.id) : none, fn(n)]);
    case 'ArrowFunctionExpression':
      return X(n, 'KArrow', [lst(n.params.map(pat)), n.body.type === 'BlockStatement' ? block(n.body) : expr(n.body), types]);
    case 'ClassExpression': return X(n, 'KClassExpr', [n.id ? pat(n.id) : none, cls(n)]);
  }
  throw Error('expression ' + n.type);
}
function vardecl(n) {
  return [`(KVarDecl ${{ var: 'VVar', let: 'VLet', const: 'VConst' }[n.kind]})`,
    [lst(n.declarations.map(d => A(d, 'KVarDeclarator', [pat(d.id), optE(d.init)])))]];
}
const head = n => !n ? none : n.type === 'VariableDeclaration' ? A(n, ...vardecl(n)) : null;
function decl(n, W) {
  switch (n.type) {
    case 'VariableDeclaration': return W(n, ...vardecl(n));
    case 'FunctionDeclaration': return W(n, 'KFnDecl', [pat(n.id), fn(n)]);
    case 'ClassDeclaration': return W(n, 'KClassDecl', [pat(n.id), cls(n)]);
  }
  return null;
}
function stmt(n) {
  const d = decl(n, T); if (d) return d;
  switch (n.type) {
    case 'BlockStatement': return par(`at_ ${n.start + 1} ${n.end + 1} KStmt [${block(n)}]`);
    case 'ExpressionStatement': return T(n, 'KExprStmt', [expr(n.expression)]);
    case 'EmptyStatement': return T(n, O(57));
    case 'IfStatement': return T(n, 'KIf', [expr(n.test), stmt(n.consequent), n.alternate ? stmt(n.alternate) : none]);
    case 'ReturnStatement': return T(n, 'KReturn', [optE(n.argument)]);
    case 'ThrowStatement': return T(n, 'KThrow', [expr(n.argument)]);
    case 'BreakStatement': return T(n, 'KBreak', [n.label ? pat(n.label) : none]);
    case 'ContinueStatement': return T(n, 'KContinue', [n.label ? pat(n.label) : none]);
    case 'LabeledStatement': return T(n, 'KLabeled', [pat(n.label), stmt(n.body)]);
    case 'WhileStatement': return T(n, 'KWhile', [expr(n.test), stmt(n.body)]);
    case 'DoWhileStatement': return T(n, 'KDoWhile', [expr(n.test), stmt(n.body)]);
    case 'ForStatement': return T(n, 'KFor', [head(n.init) || expr(n.init), optE(n.test), optE(n.update), stmt(n.body)]);
    case 'ForInStatement': return T(n, 'KForIn', [head(n.left) || pat(n.left), expr(n.right), stmt(n.body)]);
    case 'ForOfStatement': return T(n, 'KForOf', [head(n.left) || pat(n.left), expr(n.right), stmt(n.body)]);
    case 'SwitchStatement':
      return T(n, 'KSwitch', [expr(n.discriminant), lst(n.cases.map(c => A(c, 'KSwitchCase', [optE(c.test), par('mk KStmts ' + list(c.consequent.map(stmt)))])))]);
    case 'TryStatement': return T(n, 'KTry', [block(n.block),
      n.handler ? A(n.handler, O(50), [n.handler.param ? pat(n.handler.param) : none, block(n.handler.body)]) : none,
      n.finalizer ? block(n.finalizer) : none]);
    case 'WithStatement': return T(n, 'KWith', [expr(n.object), stmt(n.body)]);
    case 'ExportNamedDeclaration':
      return par(`at_ ${n.start + 1} ${n.end + 1} KModuleDecl [${A(n, 'KExportDecl', [decl(n.declaration, A)])}]`);
    case 'ImportDeclaration': return par(`at_ ${n.start + 1} ${n.end + 1} KModuleDecl [${A(n, O(59))}]`);
  }
  throw Error('statement ' + n.type);
}

// ---- fixtures ----
function js(v) {
  if (v === undefined) return 'LUndef';
  if (v === null) return 'LNull';
  if (typeof v === 'boolean') return `(LBool ${v})`;
  if (typeof v === 'number') return `(LNum (${v})%Z)`;
  if (typeof v === 'string') return `(LStr ${str(v)})`;
  if (Array.isArray(v)) return `(LArr ${list(v.map(js))})`;
  return `(LObj ${list(Object.entries(v).map(([k, x]) => `(${str(k)}, ${js(x)})`))})`;
}
const hits = (o, f) => list(Object.keys(o || {}).map(Number).sort((a, b) => a - b).map(k => `(${k}, ${f(o[k])})`));
const dir = process.argv[2];
const out = [`(** The repository's test fixtures (spec/fixtures/*.yaml), generated by tools/fixtures.js; debug-test.yaml
    repeats a fixture, jsx.yaml is not JavaScript and strict.yaml.skipped is not run by the repository. *)
From Coq Require Import NArith ZArith String List Bool.
Import ListNotations.
From Verif Require Import Base Oxide SourceCov Hints Ast Visitor VisitorEx JsHost FixtureRun.
Open Scope string_scope. Open Scope list_scope. Open Scope N_scope.

Definition types : node := mk KTs [].
`], log = [];
// The expected output is the name of a function or class.
const NAMES = ['fx_arrow_fn_6', 'fx_classes_1', 'fx_classes_2', 'fx_functions_5', 'fx_functions_6'];
// Generators are beyond the interpreter: only the tables are compared.
const STATIC = ['fx_for_of_1', 'fx_for_of_2', 'fx_yield_1'];
for (const f of fs.readdirSync(dir).sort()) {
  if (!f.endsWith('.yaml') || f === 'debug-test.yaml') continue;
  let no = 0;
  for (const doc of fs.readFileSync(path.join(dir, f), 'utf8').split(/^---\s*$/m)) {
    const d = yaml(doc);
    if (!d || d.code === undefined) continue;
    no++;
    const id = 'fx_' + f.replace('.yaml', '').replace(/-/g, '_') + '_' + no;
    const opts = d.instrumentOpts || {}, o = d.opts || {};
    const script = opts.esModules === false;
    const comments = [];
    let ast, tree;
    try {
      const tokens = [];
      ast = acorn.parse(d.code, { ecmaVersion: 'latest', sourceType: script ? 'script' : 'module', preserveParens: true,
        onToken: tokens, allowAwaitOutsideFunction: true, onComment: (b, t, s, e) => comments.push([t, s, e]) });
      const items = list(ast.body.map(stmt)).replace(/; /g, ';\n  ');
      const first = tokens.length ? tokens[0].start : 0;
      tree = `at_ ${first + 1} ${d.code.length + 1} ${script ? 'KScript [mk KStmts' : 'KModule [mk KModuleItems'} ${items}]`;
      // a comment leads the token that follows it
      const lead = {};
      for (const [t, s, e] of comments) {
        if (d.code.startsWith('#!', s)) continue;
        const next = tokens.find(k => k.start >= e); if (!next) continue;
        (lead[next.start + 1] = lead[next.start + 1] || []).push(t);
      }
      const starts = [1]; for (let i = 0; i < d.code.length; i++) if (d.code[i] === '\n') starts.push(i + 2);
      out.push(`(** ${f}: ${d.name.replace(/\*\)/g, '')} *)`);
      out.push(`Definition ${id} : fixture := mkFixture\n  (${tree})\n  ${list(starts)}\n  ${list(Object.entries(lead).map(([k, l]) => `(${k}, ${list(l.map(str))})`))}\n  ${!!opts.reportLogic} ${list((opts.ignoreClassMethods || []).map(str))}.`);
      const tests = o.generateOnly || o.noCoverage ? [] : (d.tests || []).filter(t => t.args !== '__notest__');
      out.push(`Definition ${id}_tests : list test := ${list(tests.map(t =>
        `mkTest ${js(t.args)} ${'out' in t ? js(t.out) : 'LUndef'}\n    ${hits(t.lines, x => x)}\n    ${hits(t.statements, x => x)}\n    ${hits(t.functions, x => x)}\n    ${hits(t.branches, x => list(x))}\n    ${hits(t.branchesTrue, x => list(x))}`))}.\n`);
      log.push([id, tests.length, o.generateOnly ? 'generate' : o.noCoverage ? 'ignored' : 'run', d.name]);
    } catch (e) { process.stderr.write(`${f} ${no} (${d.name}): ${e.message}\n`); }
  }
}
const kind = (k, p) => log.filter(l => l[2] === k && p(l[0])).map(l => l[0]);
const suite = (name, doc, ids, f, type) =>
  out.push(`(** ${doc} *)\nDefinition ${name} : list ${type} :=\n  ${list(ids.map(f)).replace(/; /g, ';\n   ')}.\n`);
suite('suites', 'Fixtures that are run: source, whether the output is compared, tests', kind('run', i => !STATIC.includes(i)),
  i => `(${i}, ${!NAMES.includes(i)}, ${i}_tests)`, '(fixture * bool * list test)');
suite('generators', 'Fixtures of which only the tables are compared', STATIC, i => `(${i}, ${i}_tests)`, '(fixture * list test)');
suite('generate_only', 'Fixtures that are only instrumented', kind('generate', () => true), i => i, 'fixture');
suite('ignored_files', 'Fixtures that are not to be instrumented', kind('ignored', () => true), i => i, 'fixture');
console.log(out.join('\n'));
process.stderr.write(log.map(l => l.join(' | ')).join('\n') + '\n');
