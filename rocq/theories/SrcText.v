(** The source files of the package, letter by letter.  Written by
    tools/srctext.py; inside a Coq string a double quote is written
    twice, nothing else is changed. *)
From Coq Require Import String List.
Import ListNotations.
Local Open Scope string_scope.

(** /repo/base.go *)
Definition base_go : string := "// Package query provides database queries build helpers.
//
// It helps to simplify query building for relation database CRUD operations,
// especially in cases when used fields set will be known only in runtime, not on developments stage.
package query

import (
	""errors""
)

var (
	// Error indicates different database errors.
	Error = errors.New(""query"")
)

// BaseCondition implements a part of Condition interface.
// It includes JoinType() to include into real conditions implementations.
type BaseCondition struct {
	joinType JoinType
	negate   bool
}

// JoinType defines JoinType to combine condition with previous.
func (condition BaseCondition) JoinType() JoinType {
	return condition.joinType
}

// Join returns a copy of BaseCondition having JoinType set to specified value.
func (condition BaseCondition) Join(newJoinType JoinType) BaseCondition {
	condition.joinType = newJoinType
	return condition
}

// Negate returns a copy of BaseCondition having IsNegate set to specified value.
func (condition BaseCondition) Negate(newNegateIndicator bool) BaseCondition {
	condition.negate = newNegateIndicator
	return condition
}

// func (condition *BaseCondition) SetJoinType(newJoinType JoinType) {
// 	condition.joinType = newJoinType
// }
//
// func (condition *BaseCondition) SetNegate(newNegateIndicator bool) {
// 	condition.negate = newNegateIndicator
// }

// IsNegate returns true if condition negated GroupAND false otherwise.
func (condition BaseCondition) IsNegate() bool {
	return condition.negate
}

// RenderNegate returns either empty string GroupOR ""NOT "" prefix if condition negated.
// Used by real condition implementations.
func (condition BaseCondition) RenderNegate() string {
	if condition.negate {
		return ""NOT""
	}

	return """"
}

// RenderJoin renders join logical operation GroupAND negate suffix to place before condition.
// If isFirst is true, logical operation is omitted.
// If negate is false, negate affix is omitted.
// In case isFirst is true && negate is false result will be empty string.
// Any other cases result always starts GroupAND finishes with space.
func (condition BaseCondition) RenderJoin(isFirst bool) (result string) {
	if !isFirst {
		return string(condition.joinType)
	}

	return """"
}

// newBaseCondition creates new BaseCondition having specified JoinType.
// Takes logical operation to join with previous conditions GroupAND negate indicator.
func newBaseCondition(joinType JoinType, negate bool) *BaseCondition {
	return &BaseCondition{joinType: joinType, negate: negate}
}
".

(** /repo/build_base.go *)
Definition build_base_go : string := "package query

// BaseBuilder defines a base data structure useful for any queries type.
type BaseBuilder struct {
	op Operation // operation aka SELECT, INSERT, UPDATE or DELETE
}

// Operation returns SQL operation of query.
// If not set DoSelect used by default.
func (b BaseBuilder) Operation() Operation {
	return b.op
}
".

(** /repo/count.go *)
Definition count_go : string := "package query

import (
	""strings""
)

// CountBuilder helps to build count queries.
// It utilizes BaseSelectBuilder methods
type CountBuilder struct {
	baseBuilder BaseSelectBuilder
	countField  FieldDefinition
}

// RenderFrom returns string representation of table name or tables join with possible tables aliases.
// Implements ClauseFromRenderer.
func (query CountBuilder) RenderFrom() string {
	return query.baseBuilder.RenderFrom()
}

// BuildQueryAndParams generates sql query string with desired parameters set.
// If query generation failed returns empty query and parameters set or non-nil error.
func (query CountBuilder) BuildQueryAndParams() (sql string, params []interface{}, err error) {
	tokens := append([]string{},
		DoSelect.String(),
		kwCount.String()+""(""+query.countField.RenderField()+"")"",
		kwFrom.String(),
		query.baseBuilder.RenderFrom(),
	)

	if len(query.baseBuilder.where.Conditions()) > 0 {
		tokens = append(tokens, kwWhere.String(), query.baseBuilder.where.Render(0))
		params = query.baseBuilder.where.Values()
	}

	return strings.Join(tokens, "" ""), params, nil
}

// Count prepares SQL SELECT COUNT query builder.
// Takes BaseSelectBuilder instance and optional mustField name to count over it.
// If no mustField name specified default '*' will used.
// Returns CountBuilder instance.
func Count(query BaseSelectBuilder, fieldToCount ...FieldName) (countBuilder CountBuilder) {
	countBuilder = CountBuilder{baseBuilder: query}

	if len(fieldToCount) > 0 {
		countBuilder.countField = Field(fieldToCount[0])
	} else {
		countBuilder.countField = Field(""*"")
	}

	return countBuilder
}
".

(** /repo/delete.go *)
Definition delete_go : string := "package query

import (
	""fmt""
	""strings""
)

// DeleteBuilder helps to build SQL DELETE queries.
type DeleteBuilder struct {
	BaseBuilder
	tableName TableName
	where     Group
}

// RenderFrom returns string representation of table name or tables join with possible tables aliases.
func (updater DeleteBuilder) RenderFrom() string {
	return updater.tableName.RenderFrom()
}

// Where adds fields conditions GroupAND returns modified DeleteBuilder.
func (updater DeleteBuilder) Where(fieldConditions ...Condition) DeleteBuilder {
	updater.where = updater.where.GroupAND(fieldConditions...)
	return updater
}

// BuildQueryAndParams returns query string and params to fill in SQL DELETE query string.
// If query build failed returns non-nil error.
func (updater DeleteBuilder) BuildQueryAndParams() (sql string, params []interface{}, err error) {
	// disallow some cases
	switch {
	case len(updater.where.conditions) == 0:
		return """", params, fmt.Errorf(""%w: empty conditions, will not delete every record"", Error)
	case len(updater.tableName) == 0:
		return """", params, fmt.Errorf(""%w: no table name set"", Error)
	}

	sql = strings.Join([]string{
		kwDelete.String(),
		kwFrom.String(),
		updater.tableName.String(),
		kwWhere.String(),
		updater.where.Render(len(params)),
	}, "" "")

	params = append(params, updater.where.Values()...)

	return sql, params, nil
}

// TableName returns table name to delete.
func (updater DeleteBuilder) TableName() TableName {
	return updater.tableName
}

// Delete generates table deleter using predefined table helper.
// Takes table name (of string, TableName or TableIdent types).
// Use DeleteBuilder.Where and DeleteBuilder.Set to finalize DeleteBuilder configuration.
func Delete[T TableNameParameter](tableNameProvider T) DeleteBuilder {
	var (
		p         any = tableNameProvider
		tableName TableName
	)

	switch typedValue := p.(type) {
	case string:
		tableName = TableName(typedValue)
	case TableName:
		tableName = typedValue
	case TableIdent:
		tableName = typedValue.TableName()
	}

	return DeleteBuilder{
		BaseBuilder: BaseBuilder{op: DoDelete},
		tableName:   tableName,
		where:       NewGroup(LogicalAND),
	}
}
".

(** /repo/field_definition.go *)
Definition field_definition_go : string := "package query

import (
	""fmt""
	""strings""
)

// FieldDefinition defines field definition data structure.
// It contains field name, field table name and field name alias.
// Used as field name wrapper in conditions and fields lists of queries.
type FieldDefinition struct {
	fieldName string // original field name, using string here to reduce type conversions in methods.
	tableName string // original field table name, do not required until building joins
	alias     string // retrieve data as this name
}

// FieldOrError creates new FieldDefinition.
// Takes string, FieldName of FieldDefinition instance.
// If FieldDefinition passed as argument it returns immediately with pointer to specified argument and nil error.
// If FieldName or string argument provided it parsed using rules below.
// 1) identification string with no dots and spaces defines field name with empty (unknown) table name and alias;
// 2) ""<table>.<name>"" form defines both field name and field table name;
// 3) ""<name> as|AS <alias>"" form defines both field name and its alias;
// 4) ""<table>.<name> as|AS <alias>"" defines all field name, table name and alias.
// Returns error if no format matched.
// Use Field constructor if argument fully determined and suits one of formats above.
// Note setting alias to same value as field name gives empty alias if table name is empty.
func FieldOrError[T FieldNameParameter](fieldName T) (field *FieldDefinition, err error) {
	var (
		param   any = fieldName
		strName string
	)

	switch value := param.(type) {
	case FieldDefinition:
		return &value, nil
	case FieldName:
		strName = string(value)
	case string:
		strName = value
	default:
		strName = fmt.Sprintf(""%v"", value)
	}

	tokens := strings.Fields(strName)
	switch {
	case len(tokens) == 1 && !strings.Contains(tokens[0], "".""):
		return &FieldDefinition{fieldName: tokens[0], alias: """", tableName: """"}, nil
	case len(tokens) == 1 && strings.Contains(tokens[0], "".""):
		nameTokens := strings.Split(tokens[0], ""."")
		return &FieldDefinition{fieldName: nameTokens[1], alias: """", tableName: nameTokens[0]}, nil
	case len(tokens) == 3 && strings.ToUpper(tokens[1]) == ""AS"" && !strings.Contains(tokens[0], "".""):
		return &FieldDefinition{fieldName: tokens[0], alias: tokens[2], tableName: """"}, nil
	case len(tokens) == 3 && strings.ToUpper(tokens[1]) == ""AS"" && strings.Contains(tokens[0], "".""):
		nameTokens := strings.Split(tokens[0], ""."")
		return &FieldDefinition{fieldName: nameTokens[1], alias: tokens[2], tableName: nameTokens[0]}, nil
	default:
		return nil, fmt.Errorf(""%w: unexpected field specification: %v"", Error, strName)
	}
}

func mustField[T FieldNameParameter](fieldName T) (field FieldDefinition) {
	var (
		err       error
		param     any = fieldName
		fieldPtr  *FieldDefinition
		takenName FieldName
	)

	switch value := param.(type) {
	case FieldDefinition:
		return value
	case FieldName:
		takenName = value
	case string:
		takenName = FieldName(value)
	default:
		takenName = FieldName(fmt.Sprintf(""%v"", value))
	}
	fieldPtr, err = FieldOrError(takenName)
	if err != nil {
		panic(err)
	}

	return *fieldPtr
}

// Field creates new mustField identification.
// It can use several forms to define not only mustField name but a table name, an alias or both:
// 1) identification string with no dots and spaces defines mustField name with empty (unknown) table name and alias;
// 2) ""<table>.<name>"" form defines both mustField name and mustField table name;
// 3) ""<name> as <alias>"" form defines both mustField name and its alias;
// 4) ""<table>.<name> as <alias>"" defines all mustField name, table name and alias.
// Panics if no format matched.
// Use FieldOrError constructor if fieldName format is not guaranteed to suit one of formats above.
func Field[T FieldNameParameter](spec T) (field FieldDefinition) {
	var (
		ok    bool
		param any = spec
	)
	if field, ok = param.(FieldDefinition); ok {
		return field
	}

	return mustField(spec)
}

// FieldName returns mustField name as wrapped FieldName string type.
func (fieldIdent FieldDefinition) FieldName() FieldName {
	return FieldName(fieldIdent.fieldName)
}

// Alias returns mustField name alias. Same as FieldName until As not called.
func (fieldIdent FieldDefinition) Alias() FieldName {
	return FieldName(fieldIdent.alias)
}

// TableName returns table name of mustField pointed by FieldDefinition.
func (fieldIdent FieldDefinition) TableName() TableName {
	return TableName(fieldIdent.tableName)
}

// As returns a copy of FieldDefinition with mustField name alias set to specified fieldName.
// Note setting alias to same name as field name renders FieldDefinition without alias unless table name is not empty.
func (fieldIdent FieldDefinition) As(alias FieldName) FieldDefinition {
	fieldIdent.alias = string(alias)
	return fieldIdent
}

// Of returns a copy of FieldDefinition with table name set to specified baseTable.
func (fieldIdent FieldDefinition) Of(tableName TableName) FieldDefinition {
	fieldIdent.tableName = string(tableName)
	return fieldIdent
}

// RenderSpec returns a field specification to use in SQL queries as a fetch items enumeration.
func (fieldIdent FieldDefinition) RenderSpec() string {
	items := make([]string, 0, 4)
	if len(fieldIdent.tableName) > 0 {
		items = append(items, fieldIdent.tableName+""."")
	}
	items = append(items, fieldIdent.fieldName)
	switch {
	case len(fieldIdent.alias) > 0 && fieldIdent.alias != fieldIdent.fieldName:
		// alias differs field name, render alias
		items = append(items, "" ""+kwAs.String()+"" "", fieldIdent.alias)
	case len(fieldIdent.alias) > 0 && fieldIdent.alias == fieldIdent.fieldName && len(fieldIdent.tableName) > 0:
		// alias matches field name but table is not empty, render alias too
		items = append(items, "" ""+kwAs.String()+"" "", fieldIdent.alias)
	}

	return strings.Join(items, """")
}

// RenderField returns a mustField identification to use in SQL queries in conditional or sorting clauses.
func (fieldIdent FieldDefinition) RenderField() string {
	items := make([]string, 0, 4)
	if len(fieldIdent.tableName) > 0 {
		items = append(items, fieldIdent.tableName+""."")
	}
	items = append(items, fieldIdent.fieldName)
	switch {
	case len(fieldIdent.alias) > 0 && fieldIdent.alias != fieldIdent.fieldName:
		// use alias if defined and differs from original mustField name
		return fieldIdent.alias
	case len(fieldIdent.tableName) > 0:
		// use table.mustField form as mustField name is not empty
		return fieldIdent.tableName + ""."" + fieldIdent.fieldName
	default:
		return fieldIdent.fieldName
	}
}

// RenderTableSpec returns a field name in form <table_name>.<field_name> as string value.
// Used to render SQL JOIN conditional clauses.
// If value of FieldName type required use TableFieldName instead.
func (fieldIdent FieldDefinition) RenderTableSpec() string {
	return fieldIdent.tableName + ""."" + fieldIdent.fieldName
}

// TableFieldName returns a field name in form <table_name>.<field_name> as FieldName value.
// If value of string type required use RenderTableSpec instead.
func (fieldIdent FieldDefinition) TableFieldName() FieldName {
	return FieldName(fieldIdent.RenderTableSpec())
}

// Value generates FieldValue item using current field definition.
// Note FieldValue keeps its own copy of field definition taken in constructor,
// so any further changes to FieldDefinition will not affect generated FieldValue.
// To sync changes made in FieldDefinition after FieldValue generated, use FieldValue.ApplyFieldSpec.
func (fieldIdent FieldDefinition) Value(value any) FieldValue {
	return NewFieldValue(fieldIdent.FieldName(), value).ApplyFieldTable(fieldIdent.TableName())
}
".

(** /repo/field_name.go *)
Definition field_name_go : string := "package query

import (
	""fmt""
	""strings""
)

// ValueProvider implementations provides it's own values to database.
type ValueProvider interface {
	DatabaseValue() interface{}
}

// FieldName wraps string type to provide conditional clauses shortcuts.
type FieldName string

// Validate validates field name.
// Returns error if field name has unexpected characters or empty.
func (fn FieldName) Validate() error {
	fnStr := string(fn)

	switch {
	case strings.Contains(fnStr, ""'""):
		return fmt.Errorf(""%w: field name contains quote character"", Error)
	case strings.Contains(fnStr, ""\""""):
		return fmt.Errorf(""%w: field name contains double quote character"", Error)
	case strings.Contains(fnStr, "" ""):
		return fmt.Errorf(""%w: field name contains space character"", Error)
	case strings.Count(fnStr, ""."") > 1:
		return fmt.Errorf(""%w: too many dots inside field name"", Error)
	case len(fnStr) == 0:
		return fmt.Errorf(""%w: empty field name"", Error)
	case strings.HasSuffix(fnStr, "".""):
		return fmt.Errorf(""%w: field name could not end with dot"", Error)
	case strings.HasPrefix(fnStr, "".""):
		return fmt.Errorf(""%w: field name could not start with dot"", Error)
	}

	return nil
}

// String returns string value of FieldName.
func (fn FieldName) String() string {
	return string(fn)
}

// Contains generates field contains text Condition. Wraps Contains(string(*FieldName), value).
func (fn FieldName) Contains(value string) Condition {
	return Contains(fn, value)
}

// IContains generates field lookup confition comparing filed value using case-independent comparison.
// Wraps IContains(string(*FieldName), value).
func (fn FieldName) IContains(value string) Condition {
	return IContains(fn, value)
}

// EqualTo generates field equal to value Condition. Wraps EqualTo(string(*FieldName), value).
func (fn FieldName) EqualTo(value interface{}) Condition {
	return EqualTo(fn, value)
}

// In generates condition to select values where field value in supplied list. Wraps In(string(*FieldName), value).
func (fn FieldName) In(value interface{}) Condition {
	return In(fn, value)
}

// Value generates field value.
// If value is ValueProvider uses ValueProvider.DatabaseValue() instead if direct value.
func (fn FieldName) Value(value interface{}) FieldValue {
	switch typed := value.(type) {
	case ValueProvider:
		return *NewFieldValue(fn, typed.DatabaseValue())
	default:
		return *NewFieldValue(fn, value)
	}
}

// IsNull generates `field is null` Condition. Wraps IsNull(string(*FieldName), value).
func (fn FieldName) IsNull() Condition {
	return IsNull(fn)
}

// Field returns FieldDefinition build from FieldName to use in queries.
// Shorthand to Field((FieldName).fn).
func (fn FieldName) Field() FieldDefinition {
	return Field(fn)
}
".

(** /repo/fields.go *)
Definition fields_go : string := "package query

import (
	""fmt""
	""strings""
)

// Fields handles list of fields to build SQL SELECT clause.
type Fields struct {
	fieldSpecs []FieldDefinition // fields to select
}

// String returns a string representation of Fields.
func (query Fields) String() string {
	fieldStrings := make([]string, len(query.fieldSpecs))
	for idx, field := range query.fieldSpecs {
		fieldStrings[idx] = field.RenderSpec()
	}
	return ""Fields("" + strings.Join(fieldStrings, "","") + "")""
}

// Len returns a length or fields added to Fields.
// Zero length means no fields explicitly defined and '*' will used instead.
func (query Fields) Len() int {
	return len(query.fieldSpecs)
}

// Fields returns a copy of Fields having mustField list to retrieve updated with a list of specified FieldDefinition`s.
func (query Fields) Fields(fieldSpecs ...FieldDefinition) (updated Fields) {
	updated = query
	updated.fieldSpecs = make([]FieldDefinition, len(fieldSpecs)) // reset added fields
	for idx, fieldSpec := range fieldSpecs {
		updated.fieldSpecs[idx] = fieldSpec
	}

	return updated
}

// FieldDefinitions returns attached FieldDefinition list copy.
func (query Fields) FieldDefinitions() (res []FieldDefinition) {
	res = make([]FieldDefinition, len(query.fieldSpecs))
	copy(res, query.fieldSpecs)

	return res
}

// FieldList returns spec list string with their possible aliases to build select query.
func (query Fields) FieldList() string {
	if len(query.fieldSpecs) == 0 {
		return ""*""
	}

	fieldSpecs := make([]string, len(query.fieldSpecs))
	for idx, spec := range query.fieldSpecs {
		fieldSpecs[idx] = spec.RenderSpec()
	}

	return strings.Join(fieldSpecs, "", "")
}

// NewFields makes new fields list.
// Takes a slice of strings, FieldName or FieldDefinition.
// Any unexpected type argument will cause an error.
func NewFields(args ...any) Fields {
	fieldSpecs := make([]FieldDefinition, len(args))

	for idx := range args {
		switch value := args[idx].(type) {
		case FieldDefinition:
			fieldSpecs[idx] = value
		case FieldName:
			fieldSpecs[idx] = Field(value)
		case string:
			fieldSpecs[idx] = Field(value)
		default:
			panic(fmt.Sprintf(""only string, FieldName or FieldDefinition types allowed""))
		}
	}

	return Fields{fieldSpecs: fieldSpecs}
}
".

(** /repo/group.go *)
Definition group_go : string := "package query

// Group implements conditions grouping.
type Group struct {
	BaseCondition
	conditions   []Condition //
	withBrackets bool        // indicate whether to draw group in brackets. False by default.
}

// WithBrackets creates new group having same conditions but required to enclose conditions into brackets.
func (conditionsGroup Group) WithBrackets() Group {
	conditionsGroup.withBrackets = true
	return conditionsGroup
}

// Join returns a copy of Group having JoinType set to specified value.
func (conditionsGroup Group) Join(newJoinType JoinType) Condition {
	conditionsGroup.BaseCondition = conditionsGroup.BaseCondition.Join(newJoinType)
	return conditionsGroup
}

// Negate returns a copy of BaseCondition having IsNegate set to specified value.
func (conditionsGroup Group) Negate(newNegateIndicator bool) Condition {
	conditionsGroup.BaseCondition = conditionsGroup.BaseCondition.Negate(newNegateIndicator)
	return conditionsGroup
}

// FieldName returns empty string. Implements Condition.
func (conditionsGroup Group) FieldName() FieldName {
	return """"
}

// NewGroup makes a group of conditions with default external join AND.
// All conditions inside group joined with requested joinType.
func NewGroup(joinType JoinType, conditions ...Condition) Group {
	if conditions == nil {
		conditions = make([]Condition, 0)
	}
	return Group{
		BaseCondition: *newBaseCondition(LogicalAND, false),
		conditions:    joinType.SetToAll(conditions...),
		withBrackets:  false,
	}
}

// addGroup does extra routines while adding single group element.
// Note it operates over Group copy and returns pointer to modified copy.
func (conditionsGroup Group) addGroup(anotherGroup Group) Group {
	haveNone := len(conditionsGroup.conditions) == 0
	haveSingle := len(conditionsGroup.conditions) == 1

	havingOnlyAND := conditionsGroup.hasAll(LogicalAND)
	havingOnlyOR := conditionsGroup.hasAll(LogicalOR)
	havingAnyAND := conditionsGroup.hasOne(LogicalAND)
	havingAnyOR := conditionsGroup.hasOne(LogicalOR)

	addingOnlyAnd := anotherGroup.hasAll(LogicalAND)
	addingAnyAnd := anotherGroup.hasOne(LogicalAND)
	addingOnlyOR := anotherGroup.hasAll(LogicalOR)
	addingAnyOR := anotherGroup.hasOne(LogicalOR)

	op := anotherGroup.joinType

	switch {
	case haveNone: // current group empty, reset it op and elements from another
		conditionsGroup.conditions = anotherGroup.conditions
		conditionsGroup.joinType = op

	// check conditions on have single condition and adding group
	case haveSingle && op == LogicalAND && addingOnlyAnd: // AND AND (AND),- unpack another group into flat (AND...AND)
		conditionsGroup.conditions = append(conditionsGroup.conditions, anotherGroup.conditions...)
	case haveSingle && op == LogicalOR && addingOnlyOR: // OR OR (OR),- unpack another group into flat (OR-OR).
		conditionsGroup.conditions = append(conditionsGroup.conditions, anotherGroup.conditions...)
	case haveSingle: // any other single (or group) + group: enclose new group into brackets
		conditionsGroup.conditions = append(conditionsGroup.conditions, op.Join(anotherGroup.WithBrackets()))

	// check conditions on having many conditions and adding group with conjunction
	case havingOnlyOR && op == LogicalOR && addingOnlyOR: // (OR) OR (OR) => flat OR
		conditionsGroup.conditions = append(conditionsGroup.conditions, anotherGroup.conditions...)
	case havingOnlyOR && op == LogicalOR && addingAnyAnd: // (OR) OR (AND) => OR OR (AND)
		conditionsGroup.conditions = append(conditionsGroup.conditions, anotherGroup.WithBrackets())
	case havingAnyOR && op == LogicalAND && addingAnyAnd: // (OR) AND (AND) => (OR) AND AND
		conditionsGroup.conditions = append([]Condition{conditionsGroup.WithBrackets()}, anotherGroup.conditions...)
		// check conditions on having many conditions and adding group with conjunction

	case havingOnlyAND && op == LogicalAND && addingOnlyAnd: // (AND) AND (AND) => flat AND
		conditionsGroup.conditions = append(conditionsGroup.conditions, anotherGroup.conditions...)
		// check conditions on having many conditions and adding group
	case havingOnlyAND && op == LogicalAND && addingAnyOR: // (AND) AND (OR),- AND AND (OR)
		conditionsGroup.conditions = append(conditionsGroup.conditions, anotherGroup.WithBrackets())
		// check conditions on having many conditions and adding group
	// check conditions on having many conditions and adding group
	case havingAnyAND && op == LogicalOR && addingOnlyOR: // (AND) OR (OR) => (AND) OR OR
		conditionsGroup.conditions = append([]Condition{conditionsGroup.WithBrackets()}, anotherGroup.conditions...)

	default: // have many, adding many, join is not matched, join both with brackets
		conditionsGroup.conditions = []Condition{conditionsGroup.WithBrackets(), op.Join(anotherGroup.WithBrackets())}
	}

	return conditionsGroup
}

// addSingleCondition does extra routines while adding single condition.
// Note it operates over Group copy and returns pointer to modified copy.
func (conditionsGroup Group) addSingleCondition(condition Condition) Group {
	haveNone := len(conditionsGroup.conditions) == 0
	haveSingle := len(conditionsGroup.conditions) == 1
	haveMany := len(conditionsGroup.conditions) > 1
	havingOnlyAND := conditionsGroup.hasAll(LogicalAND)
	havingOnlyOR := conditionsGroup.hasAll(LogicalOR)
	groupToAdd, addingGroup := condition.(Group)
	op := condition.JoinType()

	switch {
	case addingGroup: // process adding groups in separate method
		return conditionsGroup.addGroup(groupToAdd)
	case haveNone: // current group empty, join single condition and set group join type
		conditionsGroup.conditions = append(conditionsGroup.conditions, condition)
		conditionsGroup.joinType = op
	case haveSingle: // just join new single to group joining with required op
		conditionsGroup.conditions = append(conditionsGroup.conditions, op.Join(condition))
	case haveMany && op == LogicalAND && havingOnlyAND: // have many, all joins are AND, join new to group
		conditionsGroup.conditions = append(conditionsGroup.conditions, op.Join(condition))
	case haveMany && op == LogicalOR && havingOnlyOR: // have many, all joins are OR, join new to group
		conditionsGroup.conditions = append(conditionsGroup.conditions, op.Join(condition))
	default: // have many, adding single, join is not matched, enclose existing into bracket
		conditionsGroup.conditions = []Condition{conditionsGroup.WithBrackets(), op.Join(condition)}
	}

	return conditionsGroup
}

// addConditions adds new conditions into existing set and returns modified group.
// Note it operates over Group copy and returns pointer to modified copy.
func (conditionsGroup Group) addConditions(op JoinType, conditions ...Condition) Group {
	havingAnyAND := conditionsGroup.hasOne(LogicalAND)
	havingAnyOR := conditionsGroup.hasOne(LogicalOR)
	haveConditions := len(conditionsGroup.conditions) > 0

	switch {
	case len(conditions) == 0: // simply return pointer to copy if no new conditions.
		return conditionsGroup
	case !haveConditions: // join to existed flat AND-AND new OR(AND_AND)
		conditionsGroup.conditions = append(conditionsGroup.conditions, conditions...)
		conditionsGroup.joinType = op
	case len(conditions) == 1: // process single element adding in separated Group.addSingleCondition
		return conditionsGroup.addSingleCondition(op.Join(conditions[0]))
	case havingAnyOR && op == LogicalAND: // enclose existed OR-OR into brackets and join flat AND-AND
		conditionsGroup.conditions = append([]Condition{conditionsGroup.WithBrackets()}, conditions...)
	case havingAnyAND && op == LogicalOR: // join to existed flat AND-AND new OR(AND_AND)
		conditionsGroup.conditions = append(conditionsGroup.conditions, op.Join(NewGroup(op, conditions...)))
	default: // have many, adding many, enclose both sets into brackets and return new group with required join.
		conditionsGroup.conditions = append([]Condition{
			conditionsGroup.WithBrackets()},
			NewGroup(LogicalAND, conditions...).WithBrackets(),
		)
	}

	return conditionsGroup
}

// hasAll returns true if all conditions joined with specified JoinType.
// Ignores first condition join type as everything joined to it.
func (conditionsGroup Group) hasAll(joinType JoinType) bool {
	for idx, item := range conditionsGroup.conditions {
		if idx == 0 {
			continue // ignore
		}
		if item.JoinType() != joinType {
			return false
		}
	}

	return true
}

// hasOne returns true if any condition joined with specified JoinType.
// Ignores first condition join type as everything joined to it.
func (conditionsGroup Group) hasOne(joinType JoinType) bool {
	for idx, item := range conditionsGroup.conditions {
		if idx == 0 {
			continue // ignore
		}
		if item.JoinType() == joinType {
			return true
		}
	}

	return false
}

// GroupAND adds a new condition group into current.
// Specified conditions joined into group with logical AND.
// Existed conditions are joined into group too.
// Both groups joined with logical AND operator.
// Returns new group containing required condition set.
func (conditionsGroup Group) GroupAND(conditions ...Condition) Group {
	return conditionsGroup.addConditions(LogicalAND, conditions...)
}

// And adds a new condition group into current.
// Specified conditions joined into group with logical AND.
// Existed conditions are joined into group too.
// Both groups joined with logical AND operator.
func (conditionsGroup Group) And(conditions ...Condition) Condition {
	return conditionsGroup.GroupAND(conditions...)
}

// GroupOR creates a new condition group.
// Specified conditions joined into group with logical AND.
// Existed conditions are joined into group too.
// Both groups joined with logical OR operator.
// Returns new group containing required condition set.
// Used internally to manage groups on externally called Or.
func (conditionsGroup Group) GroupOR(conditions ...Condition) Group {
	return conditionsGroup.addConditions(LogicalOR, conditions...)
}

// Or creates a new condition group.
// Specified conditions joined into group with logical AND.
// Existed conditions are joined into group too.
// Both groups joined with logical OR operator.
func (conditionsGroup Group) Or(conditions ...Condition) Condition {
	return conditionsGroup.GroupOR(conditions...)
}

// Render renders SQL SELECT clause part for current group.
// Takes existed parameters number (0 means no parameters are defined yet)
// Note Render renders group without brackets itself if called directly.
// Any child conditions groups are enclosed into brackets internally.
func (conditionsGroup Group) Render(parametersCount int) (sql string) {
	sql = """"

	if len(conditionsGroup.conditions) == 0 {
		return sql
	}

	for idx, condition := range conditionsGroup.conditions {
		joinToken := condition.RenderJoin(idx == 0)
		if len(joinToken) > 0 {
			sql += "" "" + joinToken + "" ""
		}

		sql += condition.Render(parametersCount)
		parametersCount += len(condition.Values())
	}

	if conditionsGroup.IsNegate() && len(conditionsGroup.conditions) > 1 { // force set brackets when negate
		conditionsGroup.withBrackets = true
	}

	if conditionsGroup.withBrackets { // if render with brackets
		sql = ""("" + sql + "")""
	}

	if conditionsGroup.IsNegate() {
		return conditionsGroup.RenderNegate() + "" "" + sql
	}

	return sql
}

// RenderSQL renders SQL clause or its part.
// Implementation should render parameters substitutions using standard sql ""?""(question) character.
func (conditionsGroup Group) RenderSQL() (sql string) {
	sql = """"

	if len(conditionsGroup.conditions) == 0 {
		return sql
	}

	for idx, condition := range conditionsGroup.conditions {
		joinToken := condition.RenderJoin(idx == 0)
		if len(joinToken) > 0 {
			sql += "" "" + joinToken + "" ""
		}

		sql += condition.RenderSQL()
	}

	if conditionsGroup.IsNegate() && len(conditionsGroup.conditions) > 1 { // force set brackets when negate
		conditionsGroup.withBrackets = true
	}

	if conditionsGroup.withBrackets { // if render with brackets
		sql = ""("" + sql + "")""
	}

	if conditionsGroup.IsNegate() {
		return conditionsGroup.RenderNegate() + "" "" + sql
	}

	return sql
}

// Values returns a set of values of grouped conditions.
func (conditionsGroup Group) Values() (values []interface{}) {
	values = make([]interface{}, 0)

	for _, condition := range conditionsGroup.conditions {
		values = append(values, condition.Values()...)
	}

	return values
}

// ApplyFieldSpec makes a copy of Group with updated FieldDefinition on each child when field name matched.
// Implements Condition.
func (conditionsGroup Group) ApplyFieldSpec(spec FieldDefinition) Condition {
	for idx := range conditionsGroup.conditions {
		conditionsGroup.conditions[idx] = conditionsGroup.conditions[idx].ApplyFieldSpec(spec)
	}

	return conditionsGroup
}

// ApplyFieldTable makes a copy of Condition with updated FieldDefinition table name.
// Implements Condition.
func (conditionsGroup Group) ApplyFieldTable(table TableName) Condition {
	for idx := range conditionsGroup.conditions {
		conditionsGroup.conditions[idx] = conditionsGroup.conditions[idx].ApplyFieldTable(table)
	}

	return conditionsGroup
}
".

(** /repo/insert.go *)
Definition insert_go : string := "package query

import (
	""fmt""
	""strconv""
	""strings""
)

// InsertBuilder helps to build SQL INSERT queries.
type InsertBuilder struct {
	BaseBuilder
	tableName TableName
	setValues []FieldValue
}

// RenderFrom returns string representation of table name or tables join with possible tables aliases.
func (inserter InsertBuilder) RenderFrom() string {
	return inserter.tableName.RenderFrom()
}

// SetValues returns a copy of fields values attached to use in create query.
func (inserter InsertBuilder) SetValues() []FieldValue {
	return inserter.setValues
}

// Values generates new InsertBuilder having additional field values to build insert query parameters.
// Can be called multiple times to set as many field values as required.
func (inserter InsertBuilder) Values(values ...FieldValue) InsertBuilder {
	inserter.setValues = append(inserter.setValues, values...)
	return inserter
}

// BuildQueryAndParams generates SQL INSERT query based on the set values.
// Returns SQL INSERT query string, parameters to fill placeholders in driver.
// If any errors occurs returns that error.
func (inserter InsertBuilder) BuildQueryAndParams() (sql string, params []interface{}, err error) {
	params = make([]interface{}, 0)

	// disallow some cases
	switch {
	case len(inserter.setValues) == 0:
		return """", params, fmt.Errorf(""%w: no fields to insert"", Error)
	case len(inserter.tableName) == 0:
		return """", params, fmt.Errorf(""%w: table name empty"", Error)
	}

	columns := make([]string, 0)
	valuePlaceholders := make([]string, 0)

	for _, fieldValue := range inserter.setValues {
		params = append(params, fieldValue.Values()...)

		columns = append(columns, fieldValue.fieldName)
		valuePlaceholders = append(valuePlaceholders, ""$""+strconv.Itoa(len(params)))
	}

	sql = strings.Join([]string{
		kwInsert.String(), kwInto.String(),
		inserter.tableName.String() + ""("" + strings.Join(columns, "", "") + "")"",
		kwValues.String(),
		""("" + strings.Join(valuePlaceholders, "", "") + "")"",
	}, "" "")

	return sql, params, nil
}

// TableName returns table name to insert data into.
func (inserter InsertBuilder) TableName() TableName {
	return inserter.tableName
}

// InsertInto generates InsertBuilder.
// Takes string table name, TableName or TableIdent.
// Use InsertBuilder.Values to finalize InsertBuilder configuration.
func InsertInto[T TableNameParameter](tableNameProvider T) InsertBuilder {
	var (
		p         any = tableNameProvider
		tableName TableName
	)

	switch typedValue := p.(type) {
	case string:
		tableName = TableName(typedValue)
	case TableName:
		tableName = typedValue
	case TableIdent:
		tableName = typedValue.TableName()
	}

	return InsertBuilder{
		BaseBuilder: BaseBuilder{op: DoInsert},
		tableName:   tableName,
		setValues:   make([]FieldValue, 0),
	}
}
".

(** /repo/interfaces.go *)
Definition interfaces_go : string := "package query

import (
	""context""
)

// TableNameParameter allows use a string, TableName or TableIdent in cases where TableName or TableIdent required.
type TableNameParameter interface {
	string | TableName | TableIdent
}

// FieldNameParameter allows use a string, FieldName or FieldDefinition in cases where FieldName or FieldDefinition required.
type FieldNameParameter interface {
	string | FieldName | FieldDefinition
}

// IncompleteSelectJoin items is generated in BaseSelectBuilder join generation functions
// such as SelectFromTableBuilder.Join, BaseSelectBuilder.InnerJoin, SelectFromTableBuilder.LeftJoin,
// BaseSelectBuilder.RightJoin or BaseSelectBuilder.FullJoin.
// It provides single method On required to finalize JOIN clause builder and return to BaseSelectBuilder instance.
type IncompleteSelectJoin interface {
	// On finalises SQL JOIN definition adding left and right tables fields onto JOIN ... ON clause.
	// Note both left and right FieldDefinition's required to contain table name.
	// Returns updated BaseSelectBuilder instance.
	On(leftField FieldDefinition, rightField FieldDefinition) (updated BaseSelectBuilder)
}

// IncompleteSelectManyJoiner items is generated in SelectManyBuilder join generation functions
// such as SelectFromTableBuilder.Join, SelectManyBuilder.InnerJoin, SelectManyBuilder.LeftJoin,
// SelectManyBuilder.RightJoin or SelectManyBuilder.FullJoin.
// It provides single method On required to finalize JOIN clause builder and return to SelectManyBuilder instance.
// See also IncompleteSelectJoin interface for serve joins on BaseSelectBuilder.
type IncompleteSelectManyJoiner interface {
	// On finalises SQL JOIN definition adding left and right tables fields onto JOIN ... ON clause.
	// Note both left and right FieldDefinition's required to contain table name.
	// Returns updated SelectManyBuilder instance.
	On(leftField FieldDefinition, rightField FieldDefinition) (updated SelectManyBuilder)
}

// IncompleteSelectSingleJoiner items is generated in SelectSingleBuilder join generation functions
// such as SelectSingleBuilder.Join, SelectSingleBuilder.InnerJoin, SelectSingleBuilder.LeftJoin,
// SelectSingleBuilder.RightJoin or SelectSingleBuilder.FullJoin.
// It provides single method By required to finalize JOIN clause builder and return to SelectSingleBuilder instance.
// See also IncompleteSelectJoin interface for serve joins on BaseSelectBuilder.
type IncompleteSelectSingleJoiner interface {
	// On finalises SQL JOIN definition adding left and right tables fields onto JOIN ... ON clause.
	// Note both left and right FieldDefinition's required to contain table name.
	// Returns updated SelectSingleBuilder instance.
	On(leftField FieldDefinition, rightField FieldDefinition) (updated SelectSingleBuilder)
}

// Fetcher requires implementation could fetch records from underline database using prepared query SelectManyBuilder.
type Fetcher interface {
	FetchCtx(ctx context.Context, queryParams SelectManyBuilder, target interface{}) (err error)
}

// Getter requires implementation could get single record from underline database using prepared query SelectManyBuilder.
type Getter interface {
	GetCtx(ctx context.Context, queryParams SelectSingleBuilder, target interface{}) (err error)
}

// Updater requires implementation provides single record update method using prepared UpdateBuilder.
type Updater interface {
	UpdateOneCtx(ctx context.Context, updateParams UpdateBuilder) (err error)
}

// Deleter requires implementation provides records delete method using prepared DeleteBuilder.
type Deleter interface {
	DeleteManyCtx(ctx context.Context, updateParams DeleteBuilder) (affectedRows int, err error)
}

// FetchCounter requires implementation could fetch records with total records count using prepared query SelectManyBuilder.
type FetchCounter interface {
	FetchCountCtx(ctx context.Context, queryParams SelectManyBuilder, target interface{}) (totalRows int, err error)
}

// Counter requires implementation could fetch total records count using prepared query CountBuilder.
type Counter interface {
	CountCtx(ctx context.Context, helper CountBuilder) (rowsCount int, err error)
}

// FetcherCounter provides both FetchCtx and CountCtx methods.
type FetcherCounter interface {
	Fetcher
	Counter
}

// CountingClauseRenderer requires implementations could render its SQL clause part using numbered parameters.
type CountingClauseRenderer interface {
	// Render renders SQL clause or its part with respect of parameters count added previously.
	// Takes existed parameters count (0 means no parameters are defined yet).
	// Implementation should render parameters substitutions starting from number = paramNum+1.
	// It expected substitutions are rendered using ""$<number>"" notation, as expected by postgresql driver.
	// Values result should contain the same values count as substitutions used in clause.
	// If implementation is condition and condition is negated, implementation SHOULD write negate prefix itself.
	Render(parametersCount int) (sql string)
}

// ValuesProvider requires clause renderer implementations should provide substitution values slice.
type ValuesProvider interface {
	// Values returns a set of parameters to substitute when SQL query is fully constructed and passed to execution.
	// Parameters count should be the same as substitutions used in Render result.
	// If implementation requires nothing to substitute it should return empty slice.
	Values() []any
}

// RawClauseRenderer requires implementations could render its SQL clause part using default parameters substitution.
type RawClauseRenderer interface {
	// RenderSQL renders SQL clause or its part.
	// Implementation should render parameters substitutions using standard sql ""?""(question) character.
	// Values result should contain the same values count as substitutions used in clause.
	// If implementation is condition and condition is negated, implementation SHOULD write negate prefix itself.
	RenderSQL() (sql string)
}

// Inserter interface defines field condition methods.
// Inserter requires implementation provides single record insert method using prepared InsertBuilder.
type Inserter interface {
	InsertOneCtx(ctx context.Context, updateParams InsertBuilder) (err error)
}

type Condition interface {
	ValuesProvider
	CountingClauseRenderer
	RawClauseRenderer

	// JoinType defines JoinType to combine condition with previous.
	JoinType() JoinType

	// RenderJoin renders join logical operation GroupAND negate suffix to place before condition.
	RenderJoin(isFirst bool) (result string)

	// IsNegate returns true if condition negated GroupAND false otherwise.
	IsNegate() bool

	// Join returns a copy of Condition having JoinType set to specified value.
	Join(newJoinType JoinType) Condition

	// Negate returns a copy of Condition having IsNegate set to specified value.
	Negate(newNegate bool) Condition

	// RenderNegate renders negate prefix if condition is market as negated.
	// It should return single ""NOT"" with no spaces around if negated GroupAND empty string otherwise.
	RenderNegate() string

	// And generates new condition which true on all conditions met.
	And(conditions ...Condition) Condition

	// Or generates new condition group which true on either initial condition is true GroupOR all of additional are true.
	Or(conditions ...Condition) Condition

	// FieldName returns field name of condition applied to.
	FieldName() FieldName

	// ApplyFieldSpec makes a copy of Condition with updated FieldDefinition if fieldName match.
	// If FieldName is not matched it does nothing.
	ApplyFieldSpec(spec FieldDefinition) Condition

	// ApplyFieldTable makes a copy of Condition with updated FieldDefinition table name.
	ApplyFieldTable(table TableName) Condition
}

// TableNameProvider requires instances could provide used table name.
type TableNameProvider interface {
	TableName() TableName
}
".

(** /repo/join_condition.go *)
Definition join_condition_go : string := "package query

// JoinCondition defines data structure to store fields parameters used in table join.
// Could be created with JoinFields.
// Not intended to use directly but only as a step of TableJoiner definition.
type JoinCondition struct {
	leftField  FieldDefinition
	rightField FieldDefinition
}

// Using transforms JoinCondition into TableJoiner.
// Takes TableJoinType to use.
// Returns TableJoiner having tables set from JoinCondition fields, specified TableJoinType and JoinCondition itself.
func (joinCondition JoinCondition) Using(joinType TableJoinType) TableJoiner {
	return TableJoiner{
		rightTable:    Table(joinCondition.rightField.TableName()),
		joinType:      joinType,
		joinCondition: joinCondition,
	}
}

// InnerJoin generates InnerJoin TableJoiner.
// Shorthand to Using(InnerJoin).
func (joinCondition JoinCondition) InnerJoin() TableJoiner {
	return joinCondition.Using(InnerJoin)
}

// LeftJoin generates LeftJoin TableJoiner.
// Shorthand to Using(LeftJoin).
func (joinCondition JoinCondition) LeftJoin() TableJoiner {
	return joinCondition.Using(LeftJoin)
}

// RightJoin generates RightJoin TableJoiner.
// Shorthand to Using(RightJoin).
func (joinCondition JoinCondition) RightJoin() TableJoiner {
	return joinCondition.Using(RightJoin)
}

// FullJoin generates FullJoin TableJoiner.
// Shorthand to Using(FullJoin).
func (joinCondition JoinCondition) FullJoin() TableJoiner {
	return joinCondition.Using(FullJoin)
}

// Render renders SQL JOIN condition clause.
func (joinCondition JoinCondition) Render() string {
	return joinCondition.leftField.RenderTableSpec() + ""="" + joinCondition.rightField.RenderTableSpec()
}

// JoinFields makes JoinCondition parameters to render SQL JOIN condition clause.
// NOTE both FieldDefinition argument MUST already have table name attached.
func JoinFields(fromField FieldDefinition, toField FieldDefinition) JoinCondition {
	return JoinCondition{leftField: fromField, rightField: toField}
}
".

(** /repo/join_tables.go *)
Definition join_tables_go : string := "package query

import (
	""strings""
)

// ClauseFromRenderer defines interface to use instead of direct table name in SQL FROM clause.
type ClauseFromRenderer interface {
	// RenderFrom returns string representation of table name or tables join with possible tables aliases.
	RenderFrom() string
}

// TableJoiner defines a table join definition data structure.
// It stores internally join type, right table and join conditions.
type TableJoiner struct {
	rightTable    TableIdent
	joinType      TableJoinType
	joinCondition JoinCondition
}

// JoinCondition returns tables JoinCondition.
func (tableJoiner TableJoiner) JoinCondition() JoinCondition {
	return tableJoiner.joinCondition
}

// JoinType returns TableJoinType.
func (tableJoiner TableJoiner) JoinType() TableJoinType {
	return tableJoiner.joinType
}

// By returns a TableJoiner having (re-)defined which fields are using to join tables.
func (tableJoiner TableJoiner) By(leftTableField FieldDefinition, rightTableField FieldDefinition) TableJoiner {
	tableJoiner.joinCondition = JoinFields(leftTableField, rightTableField)
	return tableJoiner
}

// RenderFrom returns SQL FROM clause filled with required tables.
func (tableJoiner TableJoiner) RenderFrom() string {
	return strings.Join([]string{
		tableJoiner.joinType.String(),
		tableJoiner.rightTable.RenderFrom(),
		kwOn.String(),
		tableJoiner.joinCondition.Render(),
	}, "" "")
}

// NewTableJoiner creates new table joiner.
func NewTableJoiner(right TableIdent, joinType TableJoinType, on JoinCondition) TableJoiner {
	return TableJoiner{rightTable: right, joinType: joinType, joinCondition: on}
}
".

(** /repo/join_type.go *)
Definition join_type_go : string := "package query

import (
	""strconv""
)

// TableJoinType defines table join type. See InnerJoin, LeftJoin, RightJoin and FullJoin constants.
type TableJoinType int

const (
	// InnerJoin defines constant to indicate (INNER) JOIN returning records that have matching values in both tables.
	InnerJoin TableJoinType = iota

	// LeftJoin defines constant to indicate LEFT (OUTER) JOIN returning all records from the left table,
	// and the matched records from the right table.
	LeftJoin

	// RightJoin defines constant to indicate RIGHT (OUTER) JOIN returning from the right table,
	// and the matched records from the left table.
	RightJoin

	// FullJoin defines constant to indicate FULL (OUTER) JOIN returning all records
	// when there is a match in either left or right table.
	FullJoin
)

// String returns string representation of TableJoinType value.
// Implements fmt.Stringer. Used in queries builder.
func (join TableJoinType) String() string {
	switch join {
	case InnerJoin:
		return ""INNER JOIN""
	case LeftJoin:
		return ""LEFT JOIN""
	case RightJoin:
		return ""RIGHT JOIN""
	case FullJoin:
		return ""FULL JOIN""
	default:
		return ""unknown JOIN("" + strconv.Itoa(int(join)) + "")""
	}
}

// By generates TableJoiner built as TableJoinType by specified FieldDefinition`s.
func (join TableJoinType) By(leftField FieldDefinition, rightField FieldDefinition) TableJoiner {
	return JoinFields(leftField, rightField).Using(join)
}

// Tables generates IncompleteSelectJoin instance built using leftTable BaseBuilder, right table and empty join condition.
// It should be finalized with IncompleteSelectJoin.On to get BaseSelectBuilder.
func (join TableJoinType) Tables(leftTable TableIdent, rightTable TableIdent) IncompleteSelectJoin {
	return leftTable.Select().joinIdent(rightTable, join)
}
".

(** /repo/join_unfinished.go *)
Definition join_unfinished_go : string := "package query

// incompleteBaseJoiner is not exported implementation of IncompleteSelectJoin just for prevent manual instance building.
// The goal is to provide chain style method to generate every clause types.
type incompleteBaseJoiner struct {
	BaseSelectBuilder
}

// On finalises SQL JOIN definition adding left and right tables fields onto JOIN ... ON clause.
// Note both left and right FieldDefinition's required to contain table name.
// Returns updated BaseSelectBuilder instance.
func (joiner incompleteBaseJoiner) On(left FieldDefinition, right FieldDefinition) (updated BaseSelectBuilder) {
	updated = joiner.BaseSelectBuilder
	unfinishedJoinIdx := len(updated.joins) - 1
	updated.joins[unfinishedJoinIdx] = updated.joins[unfinishedJoinIdx].By(left, right)

	return updated
}

// incompleteManyJoiner implements IncompleteSelectJoin preventing direct instance usage.
// // The goal is to provide chain style method to generate every clause types.
type incompleteManyJoiner struct {
	SelectManyBuilder
}

// On finalises SQL JOIN definition adding left and right tables fields onto JOIN ... ON clause.
// Note both left and right FieldDefinition's required to contain table name.
// Returns updated BaseSelectBuilder instance.
func (joiner incompleteManyJoiner) On(left FieldDefinition, right FieldDefinition) (updated SelectManyBuilder) {
	updated = joiner.SelectManyBuilder
	unfinishedJoinIdx := len(updated.joins) - 1
	updated.joins[unfinishedJoinIdx] = updated.joins[unfinishedJoinIdx].By(left, right)

	return updated
}

// incompleteManyJoiner implements IncompleteSelectJoin preventing direct instance usage.
// // The goal is to provide chain style method to generate every clause types.
type incompleteSingleJoiner struct {
	SelectSingleBuilder
}

// On finalises SQL JOIN definition adding left and right tables fields onto JOIN ... ON clause.
// Note both left and right FieldDefinition's required to contain table name.
// Returns updated BaseSelectBuilder instance.
func (joiner incompleteSingleJoiner) On(left FieldDefinition, right FieldDefinition) (updated SelectSingleBuilder) {
	updated = joiner.SelectSingleBuilder
	unfinishedJoinIdx := len(updated.joins) - 1
	updated.joins[unfinishedJoinIdx] = updated.joins[unfinishedJoinIdx].By(left, right)

	return updated
}
".

(** /repo/keywords.go *)
Definition keywords_go : string := "package query

type SQLKeyWord string

const (
	kwSelect SQLKeyWord = ""SELECT""
	kwUpdate SQLKeyWord = ""UPDATE""
	kwInsert SQLKeyWord = ""INSERT""
	kwInto   SQLKeyWord = ""INTO""
	kwDelete SQLKeyWord = ""DELETE""
	kwFrom   SQLKeyWord = ""FROM""
	kwWhere  SQLKeyWord = ""WHERE""
	kwCount  SQLKeyWord = ""COUNT""
	kwAs     SQLKeyWord = ""AS""
	kwOn     SQLKeyWord = ""ON""
	kwValues SQLKeyWord = ""VALUES""
	kwSet    SQLKeyWord = ""SET""
)

// String returns string representation of SQLKeyWord.
func (kw SQLKeyWord) String() string {
	return string(kw)
}
".

(** /repo/lib_equal.go *)
Definition lib_equal_go : string := "package query

import (
	""strconv""
	""strings""
)

// equalTo implements any type fields conditions to select those records where field value is equal to specified value.
type equalTo struct {
	BaseCondition
	FieldValue
}

// ApplyFieldTable makes a copy of contains condition with updated FieldDefinition table name.
// Implements Condition.
func (impl equalTo) ApplyFieldTable(table TableName) Condition {
	impl.FieldValue.FieldDefinition.tableName = string(table)
	return impl
}

// ApplyFieldSpec makes a copy of Condition with updated FieldDefinition if fieldName match.
// If FieldName is not matched it does nothing.
// Implements Condition.
func (impl equalTo) ApplyFieldSpec(spec FieldDefinition) Condition {
	impl.FieldValue = impl.FieldValue.ApplyFieldSpec(spec)
	return impl
}

// Join returns a copy of Group having JoinType set to specified value.
func (impl equalTo) Join(newJoinType JoinType) Condition {
	impl.BaseCondition = impl.BaseCondition.Join(newJoinType)
	return impl
}

// Negate returns a copy of BaseCondition having IsNegate set to specified value.
func (impl equalTo) Negate(newNegateIndicator bool) Condition {
	impl.BaseCondition = impl.BaseCondition.Negate(newNegateIndicator)
	return impl
}

// Render renders SQL SELECT clause part for current field.
func (impl equalTo) Render(paramNum int) string {
	var tokens []string
	if impl.IsNegate() {
		tokens = []string{impl.RenderNegate() + "" "", impl.RenderSpec(), ""=$"" + strconv.Itoa(paramNum+1)}
	} else {
		tokens = []string{impl.RenderSpec(), ""=$"" + strconv.Itoa(paramNum+1)}
	}
	return strings.Join(tokens, """")
}

// RenderSQL renders SQL clause or its part.
// Implementation should render parameters substitutions using standard sql ""?""(question) character.
func (impl equalTo) RenderSQL() (sql string) {
	var tokens []string
	if impl.IsNegate() {
		tokens = []string{impl.RenderNegate() + "" "", impl.RenderSpec(), ""=?""}
	} else {
		tokens = []string{impl.RenderSpec(), ""=?""}
	}
	return strings.Join(tokens, """")
}

// And generates new condition which true on all conditions met.
// Implements Condition.
func (impl equalTo) And(conditions ...Condition) Condition {
	return And(impl, conditions...)
}

// Or generates new condition group which true on either initial condition is true or all of additional are true.
// Implements Condition.
func (impl equalTo) Or(conditions ...Condition) Condition {
	return Or(impl, conditions...)
}

// EqualTo generates Condition for any field type equalTo to value.
func EqualTo(fieldName FieldName, value interface{}) Condition {
	return &equalTo{
		BaseCondition: *newBaseCondition(LogicalAND, false),
		FieldValue:    *NewFieldValue(fieldName, value),
	}
}
".

(** /repo/lib_gt.go *)
Definition lib_gt_go : string := "package query

import (
	""strconv""
	""strings""
)

// greater implements any type fields conditions to match records where field value is greater than specified value.
type greater struct {
	BaseCondition
	FieldValue
}

// ApplyFieldTable makes a copy of contains condition with updated FieldDefinition table name.
// Implements Condition.
func (impl greater) ApplyFieldTable(table TableName) Condition {
	impl.FieldValue.FieldDefinition.tableName = string(table)
	return impl
}

// ApplyFieldSpec makes a copy of Condition with updated FieldDefinition if fieldName match.
// If FieldName is not matched it does nothing.
// Implements Condition.
func (impl greater) ApplyFieldSpec(spec FieldDefinition) Condition {
	impl.FieldValue = impl.FieldValue.ApplyFieldSpec(spec)
	return impl
}

// Join returns a copy of Group having JoinType set to specified value.
func (impl greater) Join(newJoinType JoinType) Condition {
	impl.BaseCondition = impl.BaseCondition.Join(newJoinType)
	return impl
}

// Negate returns a copy of BaseCondition having IsNegate set to specified value.
func (impl greater) Negate(newNegateIndicator bool) Condition {
	impl.BaseCondition = impl.BaseCondition.Negate(newNegateIndicator)
	return impl
}

// Render renders SQL SELECT clause part for current field.
func (impl greater) Render(paramNum int) string {
	var tokens []string
	if impl.IsNegate() {
		tokens = []string{impl.RenderNegate() + "" "", impl.RenderSpec(), "">$"" + strconv.Itoa(paramNum+1)}
	} else {
		tokens = []string{impl.RenderSpec(), "">$"" + strconv.Itoa(paramNum+1)}
	}
	return strings.Join(tokens, """")
}

// RenderSQL renders SQL clause or its part.
// Implementation should render parameters substitutions using standard sql ""?""(question) character.
func (impl greater) RenderSQL() (sql string) {
	var tokens []string
	if impl.IsNegate() {
		tokens = []string{impl.RenderNegate() + "" "", impl.RenderSpec(), "">?""}
	} else {
		tokens = []string{impl.RenderSpec(), "">?""}
	}
	return strings.Join(tokens, """")
}

// And generates new condition which true on all conditions met.
// Implements Condition.
func (impl greater) And(conditions ...Condition) Condition {
	return And(impl, conditions...)
}

// Or generates new condition group which true on either initial condition is true or all of additional are true.
// Implements Condition.
func (impl greater) Or(conditions ...Condition) Condition {
	return Or(impl, conditions...)
}

// GreaterThan generates Condition for any field type to match records having field values greater than specified.
func GreaterThan(fieldName FieldName, value interface{}) Condition {
	return &greater{
		BaseCondition: *newBaseCondition(LogicalAND, false),
		FieldValue:    *NewFieldValue(fieldName, value),
	}
}
".

(** /repo/lib_gte.go *)
Definition lib_gte_go : string := "package query

import (
	""strconv""
	""strings""
)

// greaterOrEqual implements any type fields conditions to match records
// where field value is greater or equal to specified value.
type greaterOrEqual struct {
	BaseCondition
	FieldValue
}

// ApplyFieldTable makes a copy of contains condition with updated FieldDefinition table name.
// Implements Condition.
func (impl greaterOrEqual) ApplyFieldTable(table TableName) Condition {
	impl.FieldValue.FieldDefinition.tableName = string(table)
	return impl
}

// ApplyFieldSpec makes a copy of Condition with updated FieldDefinition if fieldName match.
// If FieldName is not matched it does nothing.
// Implements Condition.
func (impl greaterOrEqual) ApplyFieldSpec(spec FieldDefinition) Condition {
	impl.FieldValue = impl.FieldValue.ApplyFieldSpec(spec)
	return impl
}

// Join returns a copy of Group having JoinType set to specified value.
func (impl greaterOrEqual) Join(newJoinType JoinType) Condition {
	impl.BaseCondition = impl.BaseCondition.Join(newJoinType)
	return impl
}

// Negate returns a copy of BaseCondition having IsNegate set to specified value.
func (impl greaterOrEqual) Negate(newNegateIndicator bool) Condition {
	impl.BaseCondition = impl.BaseCondition.Negate(newNegateIndicator)
	return impl
}

// Render renders SQL SELECT clause part for current field.
func (impl greaterOrEqual) Render(paramNum int) string {
	var tokens []string
	if impl.IsNegate() {
		tokens = []string{impl.RenderNegate() + "" "", impl.RenderSpec(), "">=$"" + strconv.Itoa(paramNum+1)}
	} else {
		tokens = []string{impl.RenderSpec(), "">=$"" + strconv.Itoa(paramNum+1)}
	}
	return strings.Join(tokens, """")
}

// RenderSQL renders SQL clause or its part.
// Implementation should render parameters substitutions using standard sql ""?""(question) character.
func (impl greaterOrEqual) RenderSQL() (sql string) {
	var tokens []string
	if impl.IsNegate() {
		tokens = []string{impl.RenderNegate() + "" "", impl.RenderSpec(), "">=?""}
	} else {
		tokens = []string{impl.RenderSpec(), "">=?""}
	}
	return strings.Join(tokens, """")
}

// And generates new condition which true on all conditions met.
// Implements Condition.
func (impl greaterOrEqual) And(conditions ...Condition) Condition {
	return And(impl, conditions...)
}

// Or generates new condition group which true on either initial condition is true or all of additional are true.
// Implements Condition.
func (impl greaterOrEqual) Or(conditions ...Condition) Condition {
	return Or(impl, conditions...)
}

// GreaterOrEqual generates Condition for any field type matching rows
// having field values greater or equal to specified value.
func GreaterOrEqual(fieldName FieldName, value interface{}) Condition {
	return &greaterOrEqual{
		BaseCondition: *newBaseCondition(LogicalAND, false),
		FieldValue:    *NewFieldValue(fieldName, value),
	}
}
".

(** /repo/lib_ilike.go *)
Definition lib_ilike_go : string := "package query

import (
	""strconv""
	""strings""
)

const opIlike = ""ILIKE"" // use single point operator definition

// iContains implements string fields compare using ILIKE operator.
// It adds <field_name> ILIKE '%<value>%' to SQL SELECT clause.
type iContains struct {
	BaseCondition
	FieldValue
}

// ApplyFieldTable makes a copy of contains condition with updated FieldDefinition table name.
// Implements Condition.
func (impl iContains) ApplyFieldTable(table TableName) Condition {
	impl.FieldValue = impl.FieldValue.ApplyFieldTable(table)
	return impl
}

// Join returns a copy of Group having JoinType set to specified value.
func (impl iContains) Join(newJoinType JoinType) Condition {
	impl.BaseCondition = impl.BaseCondition.Join(newJoinType)
	return impl
}

// Negate returns a copy of BaseCondition having IsNegate set to specified value.
func (impl iContains) Negate(newNegateIndicator bool) Condition {
	impl.BaseCondition = impl.BaseCondition.Negate(newNegateIndicator)
	return impl
}

// ApplyFieldSpec makes a copy of Condition with updated FieldDefinition if fieldName match.
// If FieldName is not matched it does nothing.
// Implements Condition.
func (impl iContains) ApplyFieldSpec(spec FieldDefinition) Condition {
	impl.FieldValue = impl.FieldValue.ApplyFieldSpec(spec)
	return impl
}

// And generates new condition which true on all conditions met.
// Implements Condition.
func (impl iContains) And(conditions ...Condition) Condition {
	return NewGroup(LogicalAND, impl).And(conditions...)
}

// Or generates new condition group which true on either initial condition is true or all of additional are true.
// Implements Condition.
func (impl iContains) Or(conditions ...Condition) Condition {
	return NewGroup(LogicalOR, impl).Or(conditions...)
}

// Render renders SQL SELECT clause part for current mustField.
// Takes existed parameters count (0 means no parameters are defined yet).
func (impl iContains) Render(paramNum int) string {
	var tokens []string
	if impl.IsNegate() {
		tokens = []string{impl.RenderSpec(), impl.RenderNegate(), opIlike, ""$"" + strconv.Itoa(paramNum+1)}
	} else {
		tokens = []string{impl.RenderSpec(), opIlike, ""$"" + strconv.Itoa(paramNum+1)}
	}

	return strings.Join(tokens, "" "")
}

// RenderSQL renders SQL clause or its part.
// Implementation should render parameters substitutions using standard sql ""?""(question) character.
func (impl iContains) RenderSQL() (sql string) {
	var tokens []string
	if impl.IsNegate() {
		tokens = []string{impl.RenderSpec(), impl.RenderNegate(), opIlike, ""?""}
	} else {
		tokens = []string{impl.RenderSpec(), opIlike, ""?""}
	}

	return strings.Join(tokens, "" "")
}

// Values provides single string value wrapped to percent sign to fill SQL LIKE clause.
func (impl iContains) Values() []interface{} {
	return []interface{}{""%"" + (impl.value).(string) + ""%""}
}

// IContains generates Condition to compare string using case-independent SQL operator ILIKE.
// It generates comparison of ILIKE '%value%' form.
// See Contains condition generator to make case-aware contains comparison.
func IContains(fieldName FieldName, value string) Condition {
	return &iContains{
		BaseCondition: *newBaseCondition(LogicalAND, false),
		FieldValue:    *NewFieldValue(fieldName, value),
	}
}
".

(** /repo/lib_in.go *)
Definition lib_in_go : string := "package query

import (
	""strconv""
	""strings""
)

const (
	inSymbol = ""IN""
)

// in implements any type fields conditions to match records where field value is in than specified value.
type in struct {
	BaseCondition
	FieldValue
}

// ApplyFieldTable makes a copy of contains condition with updated FieldDefinition table name.
// Implements Condition.
func (impl in) ApplyFieldTable(table TableName) Condition {
	impl.FieldValue.FieldDefinition.tableName = string(table)
	return impl
}

// ApplyFieldSpec makes a copy of Condition with updated FieldDefinition if fieldName match.
// If FieldName is not matched it does nothing.
// Implements Condition.
func (impl in) ApplyFieldSpec(spec FieldDefinition) Condition {
	impl.FieldValue = impl.FieldValue.ApplyFieldSpec(spec)
	return impl
}

// Join returns a copy of Group having JoinType set to specified value.
func (impl in) Join(newJoinType JoinType) Condition {
	impl.BaseCondition = impl.BaseCondition.Join(newJoinType)
	return impl
}

// Negate returns a copy of BaseCondition having IsNegate set to specified value.
func (impl in) Negate(newNegateIndicator bool) Condition {
	impl.BaseCondition = impl.BaseCondition.Negate(newNegateIndicator)
	return impl
}

// Render renders SQL SELECT clause part for current field.
func (impl in) Render(paramNum int) string {
	var tokens []string

	placeholders := make([]string, len(impl.Values()))

	for idx := range impl.Values() {
		placeholders[idx] = ""$"" + strconv.Itoa(paramNum+idx+1)
	}

	placeholdersString := ""("" + strings.Join(placeholders, "","") + "")""

	if impl.IsNegate() {
		tokens = []string{impl.RenderSpec(), impl.RenderNegate(), inSymbol, placeholdersString}
	} else {
		tokens = []string{impl.RenderSpec(), inSymbol, placeholdersString}
	}

	return strings.Join(tokens, "" "")
}

// RenderSQL renders SQL clause or its part.
// Implementation should render parameters substitutions using standard sql ""?""(question) character.
func (impl in) RenderSQL() (sql string) {
	var tokens []string

	placeholders := make([]string, len(impl.Values()))

	for idx := range impl.Values() {
		placeholders[idx] = ""?""
	}

	placeholdersString := ""("" + strings.Join(placeholders, "","") + "")""

	if impl.IsNegate() {
		tokens = []string{impl.RenderSpec(), impl.RenderNegate(), inSymbol, placeholdersString}
	} else {
		tokens = []string{impl.RenderSpec(), inSymbol, placeholdersString}
	}

	return strings.Join(tokens, "" "")
}

// And generates new condition which true on all conditions met.
// Implements Condition.
func (impl in) And(conditions ...Condition) Condition {
	return And(impl, conditions...)
}

// Or generates new condition group which true on either initial condition is true or all of additional are true.
// Implements Condition.
func (impl in) Or(conditions ...Condition) Condition {
	return Or(impl, conditions...)
}

// In generates Condition for any field type to match records having field values in than specified.
func In(fieldName FieldName, value interface{}) Condition {
	return &in{
		BaseCondition: *newBaseCondition(LogicalAND, false),
		FieldValue:    *NewFieldValue(fieldName, value),
	}
}
".

(** /repo/lib_isnull.go *)
Definition lib_isnull_go : string := "package query

import (
	""strings""
)

type nullValue struct {
	BaseCondition
	FieldDefinition
}

// ApplyFieldSpec makes a copy of Condition with updated FieldDefinition if fieldName match.
// If FieldName is not matched it does nothing.
// Implements Condition.
func (impl nullValue) ApplyFieldSpec(spec FieldDefinition) Condition {
	if impl.FieldDefinition.fieldName == spec.fieldName {
		impl.FieldDefinition = spec
	}

	return impl
}

// ApplyFieldTable makes a copy of contains condition with updated FieldDefinition table name.
// Implements Condition.
func (impl nullValue) ApplyFieldTable(table TableName) Condition {
	impl.FieldDefinition.tableName = string(table)
	return impl
}

// Join returns a copy of Group having JoinType set to specified value.
func (impl nullValue) Join(newJoinType JoinType) Condition {
	impl.BaseCondition = impl.BaseCondition.Join(newJoinType)
	return impl
}

// Negate returns a copy of BaseCondition having IsNegate set to specified value.
func (impl nullValue) Negate(newNegateIndicator bool) Condition {
	impl.BaseCondition = impl.BaseCondition.Negate(newNegateIndicator)
	return impl
}

// Render renders IsNULL condition clause.
func (impl nullValue) Render(_ int) string {
	return impl.RenderSQL()
}

func (impl nullValue) RenderSQL() (sql string) {
	var tokens []string
	if impl.IsNegate() {
		tokens = []string{impl.RenderSpec(), ""IS"", ""NOT"", ""NULL""}
	} else {
		tokens = []string{impl.RenderSpec(), ""IS"", ""NULL""}
	}
	return strings.Join(tokens, "" "")
}

// Values returns empty []interface{} slice as no substitutions required.
func (impl nullValue) Values() []interface{} {
	return []interface{}{}
}

// And generates new condition which true on all conditions met.
// Implements Condition.
func (impl nullValue) And(conditions ...Condition) Condition {
	return NewGroup(LogicalAND, impl).And(conditions...)
}

// Or generates new condition group which true on either initial condition is true or all of additional are true.
// Implements Condition.
func (impl nullValue) Or(conditions ...Condition) Condition {
	return NewGroup(LogicalAND, nil).And(impl).Or(conditions...)
}

// IsNull generates Condition to select rows where specified field name value IS NULL'.
func IsNull(fieldName FieldName) Condition {
	return &nullValue{
		BaseCondition:   *newBaseCondition(LogicalAND, false),
		FieldDefinition: Field(fieldName),
	}
}
".

(** /repo/lib_like.go *)
Definition lib_like_go : string := "package query

import (
	""strconv""
	""strings""
)

// contains implements string fields compare using LIKE operator.
// It adds <field_name> LIKE '%<value>%' to SQL SELECT clause.
type contains struct {
	BaseCondition
	FieldValue
}

// ApplyFieldTable makes a copy of contains condition with updated FieldDefinition table name.
// Implements Condition.
func (impl contains) ApplyFieldTable(table TableName) Condition {
	impl.FieldValue = impl.FieldValue.ApplyFieldTable(table)
	return impl
}

// Join returns a copy of Group having JoinType set to specified value.
func (impl contains) Join(newJoinType JoinType) Condition {
	impl.BaseCondition = impl.BaseCondition.Join(newJoinType)
	return impl
}

// Negate returns a copy of BaseCondition having IsNegate set to specified value.
func (impl contains) Negate(newNegateIndicator bool) Condition {
	impl.BaseCondition = impl.BaseCondition.Negate(newNegateIndicator)
	return impl
}

// ApplyFieldSpec makes a copy of Condition with updated FieldDefinition if fieldName match.
// If FieldName is not matched it does nothing.
// Implements Condition.
func (impl contains) ApplyFieldSpec(spec FieldDefinition) Condition {
	impl.FieldValue = impl.FieldValue.ApplyFieldSpec(spec)
	return impl
}

// And generates new condition which true on all conditions met.
// Implements Condition.
func (impl contains) And(conditions ...Condition) Condition {
	return NewGroup(LogicalAND, impl).And(conditions...)
}

// Or generates new condition group which true on either initial condition is true or all of additional are true.
// Implements Condition.
func (impl contains) Or(conditions ...Condition) Condition {
	return NewGroup(LogicalOR, impl).Or(conditions...)
}

// Render renders SQL SELECT clause part for current mustField.
// Takes existed parameters count (0 means no parameters are defined yet).
func (impl contains) Render(paramNum int) string {
	var tokens []string
	if impl.IsNegate() {
		tokens = []string{impl.RenderSpec(), impl.RenderNegate(), ""LIKE"", ""$"" + strconv.Itoa(paramNum+1)}
	} else {
		tokens = []string{impl.RenderSpec(), ""LIKE"", ""$"" + strconv.Itoa(paramNum+1)}
	}

	return strings.Join(tokens, "" "")
}

// RenderSQL renders SQL clause or its part.
// Implementation should render parameters substitutions using standard sql ""?""(question) character.
func (impl contains) RenderSQL() (sql string) {
	var tokens []string
	if impl.IsNegate() {
		tokens = []string{impl.RenderSpec(), impl.RenderNegate(), ""LIKE"", ""?""}
	} else {
		tokens = []string{impl.RenderSpec(), ""LIKE"", ""?""}
	}

	return strings.Join(tokens, "" "")
}

// Values provides single string value wrapped to percent sign to fill SQL LIKE clause.
func (impl contains) Values() []interface{} {
	return []interface{}{""%"" + (impl.value).(string) + ""%""}
}

// Contains generates Condition to compare string like fields using LIKE '%value%'.
// See IContains condition generator to make case-independent `contains` comparison.
func Contains(fieldName FieldName, value string) Condition {
	return &contains{
		BaseCondition: *newBaseCondition(LogicalAND, false),
		FieldValue:    *NewFieldValue(fieldName, value),
	}
}
".

(** /repo/lib_lt.go *)
Definition lib_lt_go : string := "package query

import (
	""strconv""
	""strings""
)

const (
	lessSymbol = ""<""
)

// less implements any type fields conditions to match records where field value is less than specified value.
type less struct {
	BaseCondition
	FieldValue
}

// ApplyFieldTable makes a copy of contains condition with updated FieldDefinition table name.
// Implements Condition.
func (impl less) ApplyFieldTable(table TableName) Condition {
	impl.FieldValue.FieldDefinition.tableName = string(table)
	return impl
}

// ApplyFieldSpec makes a copy of Condition with updated FieldDefinition if fieldName match.
// If FieldName is not matched it does nothing.
// Implements Condition.
func (impl less) ApplyFieldSpec(spec FieldDefinition) Condition {
	impl.FieldValue = impl.FieldValue.ApplyFieldSpec(spec)
	return impl
}

// Join returns a copy of Group having JoinType set to specified value.
func (impl less) Join(newJoinType JoinType) Condition {
	impl.BaseCondition = impl.BaseCondition.Join(newJoinType)
	return impl
}

// Negate returns a copy of BaseCondition having IsNegate set to specified value.
func (impl less) Negate(newNegateIndicator bool) Condition {
	impl.BaseCondition = impl.BaseCondition.Negate(newNegateIndicator)
	return impl
}

// Render renders SQL SELECT clause part for current field.
func (impl less) Render(paramNum int) string {
	var tokens []string
	if impl.IsNegate() {
		tokens = []string{impl.RenderNegate() + "" "", impl.RenderSpec(), lessSymbol, ""$"" + strconv.Itoa(paramNum+1)}
	} else {
		tokens = []string{impl.RenderSpec(), lessSymbol, ""$"" + strconv.Itoa(paramNum+1)}
	}
	return strings.Join(tokens, """")
}

// RenderSQL renders SQL clause or its part.
// Implementation should render parameters substitutions using standard sql ""?""(question) character.
func (impl less) RenderSQL() (sql string) {
	var tokens []string
	if impl.IsNegate() {
		tokens = []string{impl.RenderNegate() + "" "", impl.RenderSpec(), lessSymbol, ""?""}
	} else {
		tokens = []string{impl.RenderSpec(), lessSymbol, ""?""}
	}
	return strings.Join(tokens, """")
}

// And generates new condition which true on all conditions met.
// Implements Condition.
func (impl less) And(conditions ...Condition) Condition {
	return And(impl, conditions...)
}

// Or generates new condition group which true on either initial condition is true or all of additional are true.
// Implements Condition.
func (impl less) Or(conditions ...Condition) Condition {
	return Or(impl, conditions...)
}

// Less generates Condition for any field type to match records having field values less than specified.
func Less(fieldName FieldName, value interface{}) Condition {
	return &less{
		BaseCondition: *newBaseCondition(LogicalAND, false),
		FieldValue:    *NewFieldValue(fieldName, value),
	}
}
".

(** /repo/lib_lte.go *)
Definition lib_lte_go : string := "package query

import (
	""strconv""
	""strings""
)

const (
	lteOp = ""<=""
)

// lessOrEqual implements any type fields conditions matching rows
// where field value is less or equal to specified value.
type lessOrEqual struct {
	BaseCondition
	FieldValue
}

// ApplyFieldTable makes a copy of contains condition with updated FieldDefinition table name.
// Implements Condition.
func (impl lessOrEqual) ApplyFieldTable(table TableName) Condition {
	impl.FieldValue.FieldDefinition.tableName = string(table)
	return impl
}

// ApplyFieldSpec makes a copy of Condition with updated FieldDefinition if fieldName match.
// If FieldName is not matched it does nothing.
// Implements Condition.
func (impl lessOrEqual) ApplyFieldSpec(spec FieldDefinition) Condition {
	impl.FieldValue = impl.FieldValue.ApplyFieldSpec(spec)
	return impl
}

// Join returns a copy of Group having JoinType set to specified value.
func (impl lessOrEqual) Join(newJoinType JoinType) Condition {
	impl.BaseCondition = impl.BaseCondition.Join(newJoinType)
	return impl
}

// Negate returns a copy of BaseCondition having IsNegate set to specified value.
func (impl lessOrEqual) Negate(newNegateIndicator bool) Condition {
	impl.BaseCondition = impl.BaseCondition.Negate(newNegateIndicator)
	return impl
}

// Render renders SQL SELECT clause part for current field.
func (impl lessOrEqual) Render(paramNum int) string {
	var tokens []string
	if impl.IsNegate() {
		tokens = []string{impl.RenderNegate() + "" "", impl.RenderSpec(), lteOp, ""$"" + strconv.Itoa(paramNum+1)}
	} else {
		tokens = []string{impl.RenderSpec(), lteOp, ""$"" + strconv.Itoa(paramNum+1)}
	}
	return strings.Join(tokens, """")
}

// RenderSQL renders SQL clause or its part.
// Implementation should render parameters substitutions using standard sql ""?""(question) character.
func (impl lessOrEqual) RenderSQL() (sql string) {
	var tokens []string
	if impl.IsNegate() {
		tokens = []string{impl.RenderNegate() + "" "", impl.RenderSpec(), lteOp, ""?""}
	} else {
		tokens = []string{impl.RenderSpec(), lteOp, ""?""}
	}
	return strings.Join(tokens, """")
}

// And generates new condition which true on all conditions met.
// Implements Condition.
func (impl lessOrEqual) And(conditions ...Condition) Condition {
	return And(impl, conditions...)
}

// Or generates new condition group which true on either initial condition is true or all of additional are true.
// Implements Condition.
func (impl lessOrEqual) Or(conditions ...Condition) Condition {
	return Or(impl, conditions...)
}

// LessOrEqual generates Condition for any field type matching rows having field values less or equal to specified.
func LessOrEqual(fieldName FieldName, value interface{}) Condition {
	return &lessOrEqual{
		BaseCondition: *newBaseCondition(LogicalAND, false),
		FieldValue:    *NewFieldValue(fieldName, value),
	}
}
".

(** /repo/limiter.go *)
Definition limiter_go : string := "package query

import (
	""strconv""
)

// Limiter implements query result limiting clause builder and renderer.
// It encapsulates limit parameter to build a queries with expected result limitation,
// an offset parameter to use together with limit when building pagination handlers.
// It also stores received values of any or both of limit and offset internally to return values to parameters substitution
// when fully constructed SQL query is passed to execution.
type Limiter struct {
	limit  uint
	offset uint
}

// Offset returns a copy of Limiter having offset attribute set to specified value.
// Original Limiter instance remains the same.
func (query Limiter) Offset(offset uint) Limiter {
	query.offset = offset
	return query
}

// Limit returns a copy of Limiter having limit attribute set to specified value.
// Original Limiter instance remains the same.
// Set 0 to disable limit in query.
func (query Limiter) Limit(limit uint) Limiter {
	query.limit = limit
	return query
}

// Render renders Limiter provided SQL clause using numbered parameters.
// Takes existed parameters count (0 means no parameters are defined yet).
// Renders parameters substitutions starting from paramNum+1 using ""$<number>"" notation.
// Implements CountingClauseRenderer.
func (query Limiter) Render(paramNum int) (sql string) {
	sql = """" // start with empty string

	if query.offset > 0 {
		paramNum++
		sql += ""OFFSET $"" + strconv.Itoa(paramNum)
	}

	if query.limit > 0 {
		if len(sql) > 0 {
			sql += "" ""
		}
		paramNum++
		sql += ""LIMIT $"" + strconv.Itoa(paramNum)
	}

	return sql
}

// RenderSQL renders offset and limit clauses using default sql substitution with ""?""(question) character.
// Implements RawClauseRenderer.
func (query Limiter) RenderSQL() (sql string) {
	sql = """" // start with empty string

	if query.offset > 0 {
		sql += ""OFFSET ?""
	}

	if query.limit > 0 {
		if len(sql) > 0 {
			sql += "" ""
		}
		sql += ""LIMIT ?""
	}

	return sql
}

// Values returns a set of Limiter values to substitute in SQL query generated using RenderSQL or Render methods.
// If either offset or limit attributes is equal to 0 its value is omitted.
// When both offset and limit are zeroes returns empty slice.
func (query Limiter) Values() (params []any) {
	params = make([]any, 0, 2) // max 2 parameters is expected
	switch {
	case query.offset > 0 && query.limit > 0:
		params = append(params, query.offset, query.limit)
	case query.offset > 0 && query.limit == 0:
		params = append(params, query.offset)
	case query.offset == 0 && query.limit > 0:
		params = append(params, query.limit)
	} // default params is empty set

	return params
}
".

(** /repo/logical.go *)
Definition logical_go : string := "package query

// JoinType defines conditions join variants.
type JoinType string

// String returns string type value of JoinType.
func (joinType JoinType) String() string {
	return string(joinType)
}

const (
	// LogicalAND defines logical AND operator to join conditions.
	LogicalAND JoinType = ""AND""

	// LogicalOR defines logical OR operator to join conditions.
	LogicalOR JoinType = ""OR""
)

// Join wraps specified condition to combine with previous conditions with logical operation specified by JoinType.
// Does the same as And() but in method of JoinType.
func (joinType JoinType) Join(conditions ...Condition) (result Condition) {
	if len(conditions) > 1 {
		return NewGroup(joinType, conditions...)
	}

	result = conditions[0]
	return result.Join(joinType)
}

// SetToAll returns supplied list with join type set to current in every list element.
func (joinType JoinType) SetToAll(conditions ...Condition) (result []Condition) {
	result = make([]Condition, len(conditions))
	for idx, condition := range conditions {
		result[idx] = joinType.Join(condition)
	}

	return result
}
".

(** /repo/op_type.go *)
Definition op_type_go : string := "package query

import (
	""strconv""
)

// Operation defines base query operation type, i.e. SELECT, INSERT, DELETE or UPDATE.
type Operation int

const (
	// DoSelect defines a constant SQL SELECT Operation type.
	DoSelect Operation = iota
	// DoInsert defines a constant SQL INSERT Operation type.
	DoInsert
	// DoUpdate defines a constant SQL UPDATE Operation type.
	DoUpdate
	// DoDelete defines a constant SQL DELETE Operation type.
	DoDelete
)

// String returns a string representation of SQL query operation.
// It equals either to ""SELECT"", ""INSERT"", ""UPDATE"" or ""DELETE"" when valid Operation used.
// If invalid returns ""unknown(<int>)"".
func (op Operation) String() string {
	switch op {
	case DoSelect:
		return kwSelect.String()
	case DoInsert:
		return kwInsert.String()
	case DoUpdate:
		return kwUpdate.String()
	case DoDelete:
		return kwDelete.String()
	default:
		return ""unknown("" + strconv.Itoa(int(op)) + "")""
	}
}

// New creates new BaseBuilder of desired operation.
func (op Operation) New() BaseBuilder {
	return BaseBuilder{op: op}
}
".

(** /repo/operations.go *)
Definition operations_go : string := "package query

// Not sets negate flag to single condition or group.
func Not(condition Condition) Condition {
	return condition.Negate(true)
}

// And makes condition or condition group with logical join AND.
// If single condition is specified, its join type is changed to LogicalAND.
func And(condition Condition, additionalConditions ...Condition) Condition {
	if len(additionalConditions) == 0 {
		return LogicalAND.Join(condition)
	}

	var (
		group        Group
		alreadyGroup bool
	)

	if group, alreadyGroup = condition.(Group); !alreadyGroup {
		group = NewGroup(LogicalAND, condition)
	}

	return group.And(additionalConditions...)
}

// Or makes condition or condition group with logical join OR.
// If single condition is specified, its join type is changed to LogicalOR.
func Or(condition Condition, additionalConditions ...Condition) Condition {
	if len(additionalConditions) == 0 {
		return LogicalOR.Join(condition)
	}

	var (
		group        Group
		alreadyGroup bool
	)

	if group, alreadyGroup = condition.(Group); !alreadyGroup {
		group = NewGroup(LogicalOR, condition)
	}

	return LogicalOR.Join(group.Or(additionalConditions...))
}
".

(** /repo/ordering.go *)
Definition ordering_go : string := "package query

import (
	""fmt""
)

// SortDirection wraps string type to define ordering directions in SelectManyBuilder.
type SortDirection string

// String returns string value of SortDirection.
func (direction SortDirection) String() string {
	return string(direction)
}

const (
	// Ascending defines constant value to indicate ascending ordering required.
	Ascending SortDirection = ""ASC""

	// Descending defines constant value to indicate descending ordering required.
	Descending SortDirection = ""DESC""
)

// FieldSorting groups together field definition GroupAND SortDirection to build ORDER BY clause in SQL SELECT requests.
type FieldSorting struct {
	FieldDefinition
	direction SortDirection
}

// Direction returns current sorting direction set.
func (o FieldSorting) Direction() SortDirection {
	return o.direction
}

// Render makes an ORDER BY string.
func (o FieldSorting) Render() string {
	return o.FieldDefinition.RenderField() + "" "" + string(o.direction)
}

// ApplyFieldSpec returns a copy of FieldSorting item with FieldDefinition updated if field name matches.
// If mustField names of original FieldSorting item and argument are differs simply returns a copy of original FieldSorting.
func (o FieldSorting) ApplyFieldSpec(spec FieldDefinition) FieldSorting {
	if o.FieldDefinition.fieldName == spec.fieldName {
		o.FieldDefinition = spec
	}

	return o
}

// applyFieldTable returns a copy of FieldSorting item with FieldDefinition table name updated.
func (o FieldSorting) applyFieldTable(table TableName) FieldSorting {
	o.FieldDefinition.tableName = string(table)

	return o
}

// ASC generates new FieldSorting to build ordering clause with Ascending order by specified field name.
// Note invalid field name leads to panic.
// Use FieldName.Validate before build ordering when taking field name from insecure environment.
// To choose ordering direction programmatically use OrderBy constructor instead.
func ASC(fieldName FieldName) FieldSorting {
	if err := fieldName.Validate(); err != nil {
		panic(fmt.Sprintf(""invalid field name: %v"", err))
	}
	return FieldSorting{
		FieldDefinition: Field(fieldName),
		direction:       Ascending,
	}
}

// DESC generates new FieldSorting to build ordering clause with Descending order by specified field name.
// Use FieldName.Validate before build ordering when taking field name from insecure environment.
func DESC(fieldName FieldName) FieldSorting {
	if err := fieldName.Validate(); err != nil {
		panic(fmt.Sprintf(""invalid field name: %v"", err))
	}
	return FieldSorting{
		FieldDefinition: Field(fieldName),
		direction:       Descending,
	}
}

// OrderBy creates FieldSorting instance using field name.
// If optional direction specified it should be either Ascending or Descending, default is Ascending.
// When ordering is known during development use ASC or DESC constructors instead.
// Panics if unexpected order direction requested or field name to order is invalid.
func OrderBy(fieldName FieldName, direction ...SortDirection) FieldSorting {
	switch {
	case len(direction) > 0 && direction[0] == Ascending:
		return ASC(fieldName)
	case len(direction) > 0 && direction[0] == Descending:
		return DESC(fieldName)
	case len(direction) == 0:
		return ASC(fieldName)
	default:
		panic(fmt.Errorf(""%w: unexpected order: %v: %v"", Error, fieldName, direction))
	}
}
".

(** /repo/select_base.go *)
Definition select_base_go : string := "package query

import (
	""fmt""
	""strings""
)

// BaseSelectBuilder helps to build table queries.
// It does not provide pagination or ordering itself
// but contains helper methods to generate SelectListBuilder or SelectOneBuilder.
// It also provides method Count() to generate SelectCountBuilder.
type BaseSelectBuilder struct {
	BaseBuilder
	baseTable TableIdent
	joins     []TableJoiner
	fields    Fields
	where     WhereClause
}

// String returns a string representation of BaseSelectBuilder.
func (query BaseSelectBuilder) String() string {
	return strings.Join([]string{
		fmt.Sprintf(""%T(%v)"", query, query.RenderFrom()),
		query.fields.String(),
		query.where.String(),
	}, "","")
}

func (query BaseSelectBuilder) RenderSQL() (sql string) {
	tokens := append([]string{},
		DoSelect.String(),
		query.fields.FieldList(),
		kwFrom.String(),
		query.baseTable.RenderFrom(),
	)

	for _, joiner := range query.joins {
		tokens = append(tokens, joiner.RenderFrom())
	}

	if len(query.where.Conditions()) > 0 {
		tokens = append(tokens, kwWhere.String(), query.where.RenderSQL())
	}

	return strings.Join(tokens, "" "")
}

func (query BaseSelectBuilder) Render(parametersCount int) (sql string) {
	tokens := append([]string{},
		DoSelect.String(),
		query.fields.FieldList(),
		kwFrom.String(),
		query.baseTable.RenderFrom(),
	)

	for _, joiner := range query.joins {
		tokens = append(tokens, joiner.RenderFrom())
	}

	if len(query.where.Conditions()) > 0 {
		tokens = append(tokens, kwWhere.String(), query.where.Render(parametersCount))
	}

	return strings.Join(tokens, "" "")
}

func (query BaseSelectBuilder) Values() (params []any) {
	params = make([]any, 0)

	if len(query.where.Conditions()) > 0 {
		params = append(params, query.where.Values()...)
	}

	return params
}

func (query BaseSelectBuilder) RenderFrom() (fromClause string) {
	fromClauseItems := make([]string, 1+len(query.joins))
	fromClauseItems[0] = query.baseTable.RenderFrom()

	for idx, tableJoiner := range query.joins {
		fromClauseItems[1+idx] = tableJoiner.RenderFrom()
	}

	return strings.Join(fromClauseItems, "" "")
}

// BuildQueryAndParams generates sql query string with desired parameters set.
// If query generation failed returns empty query and parameters set or non-nil error.
func (query BaseSelectBuilder) BuildQueryAndParams() (sql string, params []interface{}, err error) {
	params = make([]any, 0)
	tokens := append([]string{},
		DoSelect.String(),
		query.fields.FieldList(),
		kwFrom.String(),
		query.baseTable.RenderFrom(),
	)

	for _, joiner := range query.joins {
		tokens = append(tokens, joiner.RenderFrom())
	}

	if len(query.where.Conditions()) > 0 {
		tokens = append(tokens, kwWhere.String(), query.where.Render(0))
		params = append(params, query.where.Values()...)
	}

	return strings.Join(tokens, "" ""), params, nil
}

// TableName returns table name to fetch records from.
func (query BaseSelectBuilder) TableName() TableName {
	return query.baseTable.TableName()
}

// Fields returns a copy of SelectManyBuilder having mustField list to retrieve updated with a list of specified FieldDefinition`s.
func (query BaseSelectBuilder) Fields(fieldSpecs ...FieldDefinition) (updated BaseSelectBuilder) {
	updated = query
	updated.fields = updated.fields.Fields(fieldSpecs...)

	return updated
}

// FieldDefinitions returns a copy of attached FieldDefinition list.
func (query BaseSelectBuilder) FieldDefinitions() (res []FieldDefinition) {
	return query.fields.FieldDefinitions()
}

// Where adds fields conditions GroupAND returns modified SelectManyBuilder.
// If any conditions are already added, adds new conditions group joined with logical AND.
func (query BaseSelectBuilder) Where(fieldConditions ...Condition) (updated BaseSelectBuilder) {
	updated = query
	updated.where = updated.where.GroupAND(fieldConditions...)

	return updated
}

// InsertInto generates SQL INSERT query builder using stored table name.
// Insert values are optional and could be set later with InsertBuilder.Values.
// Note generated InsertInto will receive only base TableIdent to generate insert into it.
func (query BaseSelectBuilder) InsertInto(insertValues ...FieldValue) InsertBuilder {
	return InsertInto(query.baseTable).Values(insertValues...)
}

// Update generates table UpdateBuilder.
// Note generated UpdateBuilder will receive only base TableIdent to generate update on it.
func (query BaseSelectBuilder) Update(values ...FieldValue) UpdateBuilder {
	return Update(query.baseTable).Where(query.where.Conditions()...).Set(values...)
}

// Delete generates table DeleteBuilder.
// Note generated DeleteBuilder will receive only base TableIdent to generate update on it.
func (query BaseSelectBuilder) Delete() DeleteBuilder {
	return Delete(query.baseTable).Where(query.where.Conditions()...)
}

// Single makes a SelectSingleBuilder instance from BaseSelectBuilder.
func (query BaseSelectBuilder) Single() SelectSingleBuilder {
	return SelectSingleBuilder{BaseSelectBuilder: query}
}

// Many makes a SelectManyBuilder instance from BaseSelectBuilder setting ordering and pagination to its default values.
// See also Offset, Limit and OrderBy.
func (query BaseSelectBuilder) Many() SelectManyBuilder {
	return SelectManyFromBase(query)
}

// Offset makes SelectManyBuilder instance with offset set to specified value.
func (query BaseSelectBuilder) Offset(offset uint) SelectManyBuilder {
	return query.Many().Offset(offset)
}

// Limit makes a SelectManyBuilder instance from BaseSelectBuilder setting required records limit to specified value.
func (query BaseSelectBuilder) Limit(limit int) SelectManyBuilder {
	return query.Many().Limit(limit)
}

// OrderBy makes a SelectManyBuilder instance from BaseSelectBuilder setting ordering to specified value.
func (query BaseSelectBuilder) OrderBy(orderByFields ...FieldSorting) SelectManyBuilder {
	return query.Many().OrderBy(orderByFields...)
}

// BaseSelectBuilder query builder provides methods to generate SQL SELECT clauses having joined tables source.

// joinIdent generates intermediate IncompleteSelectJoin instance.
// Takes TableIdent to join and TableJoinType constant defining required join type to produce.
// Call IncompleteSelectJoin.On will return updated BaseSelectBuilder with join builder data finished.
func (query BaseSelectBuilder) joinIdent(rightTable TableIdent, joinType TableJoinType) IncompleteSelectJoin {
	updated := query
	updated.joins = append(updated.joins, TableJoiner{rightTable: rightTable, joinType: joinType})
	return incompleteBaseJoiner{BaseSelectBuilder: updated}
}

// Join generates intermediate IncompleteSelectJoin instance.
// Takes TableName to join and TableJoinType constant defining required join type to produce.
// Takes right table name or ident to join.
// Panics if rightTable is not instance of string, TableName or TableIdent types.
// Call IncompleteSelectJoin.On will return updated BaseSelectBuilder with join builder data finished.
func (query BaseSelectBuilder) Join(rightTable TableIdent, joinType TableJoinType) IncompleteSelectJoin {
	return query.joinIdent(rightTable, joinType)
}

// InnerJoin generates intermediate IncompleteSelectJoin instance for InnerJoin type.
// Takes right table name or ident to join.
// Panics if rightTable is not instance of string, TableName or TableIdent types.
// Shortcut to Join(rightTable TableName, InnerJoin).
// Call IncompleteSelectJoin.On will return updated BaseSelectBuilder with join builder data finished.
func (query BaseSelectBuilder) InnerJoin(rightTable TableIdent) IncompleteSelectJoin {
	return query.Join(rightTable, InnerJoin)
}

// LeftJoin generates intermediate IncompleteSelectJoin instance for LeftJoin type.
// Takes right table name or ident to join.
// Panics if rightTable is not instance of string, TableName or TableIdent types.
// Shortcut to Join(rightTable TableName, LeftJoin).
// Call IncompleteSelectJoin.On will return updated BaseSelectBuilder with join builder data finished.
func (query BaseSelectBuilder) LeftJoin(rightTable TableIdent) IncompleteSelectJoin {
	return query.Join(rightTable, LeftJoin)
}

// RightJoin generates intermediate IncompleteSelectJoin instance for RightJoin type.
// Takes right table name or ident to join.
// Panics if rightTable is not instance of string, TableName or TableIdent types.
// Shortcut to Join(rightTable TableName, RightJoin).
// Call IncompleteSelectJoin.On will return updated BaseSelectBuilder with join builder data finished.
func (query BaseSelectBuilder) RightJoin(rightTable TableIdent) IncompleteSelectJoin {
	return query.Join(rightTable, RightJoin)
}

// FullJoin generates intermediate IncompleteSelectJoin instance for FullJoin type.
// Takes right table name or ident to join.
// Panics if rightTable is not instance of string, TableName or TableIdent types.
// Shortcut to Join(rightTable TableName, FullJoin).
// Call IncompleteSelectJoin.On will return updated BaseSelectBuilder with join builder data finished.
func (query BaseSelectBuilder) FullJoin(rightTable TableIdent) IncompleteSelectJoin {
	return query.Join(rightTable, FullJoin)
}

// Count creates an CountBuilder using parameters of this SelectManyBuilder.
func (query BaseSelectBuilder) Count() CountBuilder {
	return Count(query)
}

// SelectFrom makes a new BaseSelectBuilder instance.
// Takes string, TableName or TableIdent to build BaseSelectBuilder over it.
func SelectFrom[T TableNameParameter](tableNameProvider T) BaseSelectBuilder {
	var (
		p     any = tableNameProvider
		table TableIdent
	)

	switch typedValue := p.(type) {
	case string:
		table = Table(TableName(typedValue))
	case TableName:
		table = Table(typedValue)
	case TableIdent:
		table = typedValue
	}

	return BaseSelectBuilder{
		baseTable: table,
		joins:     make([]TableJoiner, 0),
		where:     NewWhere(),
		fields:    NewFields(),
	}
}
".

(** /repo/select_many.go *)
Definition select_many_go : string := "package query

import (
	""strconv""
)

const (
	noLimit int = -1
)

// SelectManyBuilder extends BaseSelectBuilder helps to build SQL SELECT queries with ordering, offset and limit.
type SelectManyBuilder struct {
	BaseSelectBuilder
	offset    uint
	limit     int
	order     []FieldSorting
	tableSpec bool // render query with field spec including table names
}

// RenderFrom renders a table name or list of tables joins to represent SQL clause FROM contents.
func (query SelectManyBuilder) RenderFrom() string {
	return query.BaseSelectBuilder.RenderFrom()
}

// BuildQueryAndParams generates sql query string with desired parameters set.
// If query generation failed returns empty query and parameters set or non-nil error.
func (query SelectManyBuilder) BuildQueryAndParams() (sql string, params []interface{}, err error) {
	sql, params, err = query.BaseSelectBuilder.BuildQueryAndParams()

	if len(query.order) > 0 {
		sql += "" ORDER BY ""
		for idx, order := range query.order {
			if idx > 0 {
				sql += "", ""
			}
			sql += order.Render()
		}
	}

	if query.offset > 0 {
		params = append(params, query.offset)
		sql += "" OFFSET $"" + strconv.Itoa(len(params))
	}

	if query.limit > 0 {
		params = append(params, uint(query.limit))
		sql += "" LIMIT $"" + strconv.Itoa(len(params))

	}

	return sql, params, nil
}

// FieldList returns spec list string with their possible aliases to build select query.
func (query SelectManyBuilder) FieldList() string {
	return query.BaseSelectBuilder.fields.FieldList()
}

// Fields returns a copy of SelectManyBuilder having mustField list to retrieve updated with a list of specified FieldDefinition`s.
// Note all fields should be set one step as Fields call resets mustField added before.
func (query SelectManyBuilder) Fields(fieldSpecs ...FieldDefinition) (updated SelectManyBuilder) {
	updated = query
	updated.BaseSelectBuilder = updated.BaseSelectBuilder.Fields(fieldSpecs...)

	return updated
}

// FieldDefinitions returns a copy of attached FieldDefinition list.
func (query SelectManyBuilder) FieldDefinitions() (res []FieldDefinition) {
	return query.BaseSelectBuilder.FieldDefinitions()
}

// applySpecToOrdering checks if field spec suits for any ordering fields and replaces its spec if required
func (query SelectManyBuilder) applySpecToOrdering(spec FieldDefinition) SelectManyBuilder {
	for idx, ordering := range query.order {
		if spec.fieldName == ordering.fieldName {
			query.order[idx] = query.order[idx].ApplyFieldSpec(spec)
		}
	}

	return query
}

// applySpecToOrdering checks if field spec suits for any ordering fields and replaces its spec if required
func (query SelectManyBuilder) applyFieldTableToOrdering(tableName TableName) SelectManyBuilder {
	for idx := range query.order {
		query.order[idx] = query.order[idx].applyFieldTable(tableName)
	}

	return query
}

// Offset sets offset GroupAND returns modified SelectManyBuilder.
func (query SelectManyBuilder) Offset(offset uint) SelectManyBuilder {
	query.offset = offset
	return query
}

// Limit sets limit GroupAND returns modified SelectManyBuilder. Values -1 to disable limit in query.
func (query SelectManyBuilder) Limit(limit int) SelectManyBuilder {
	query.limit = limit
	return query
}

// OrderBy adds ordering by fields GroupAND returns modified SelectManyBuilder.
func (query SelectManyBuilder) OrderBy(orderByFields ...FieldSorting) SelectManyBuilder {
	query.order = append(query.order, orderByFields...)
	return query
}

// Where adds fields conditions GroupAND returns modified SelectManyBuilder.
// If any conditions are already added, adds new conditions group joined with logical AND.
func (query SelectManyBuilder) Where(fieldConditions ...Condition) SelectManyBuilder {
	query.where = query.where.GroupAND(fieldConditions...)
	return query
}

// Update generates table UpdateBuilder.
// Note generated UpdateBuilder will use only base table even if join conditions added to SelectManyBuilder instance.
func (query SelectManyBuilder) Update(values ...FieldValue) UpdateBuilder {
	return Update(query.BaseSelectBuilder.TableName()).Where(query.where.Conditions()...).Set(values...)
}

// Delete generates table DeleteBuilder.
// Note generated DeleteBuilder will use only base table even if join conditions added to SelectManyBuilder instance.
func (query SelectManyBuilder) Delete() DeleteBuilder {
	return Delete(query.BaseSelectBuilder.TableName()).Where(query.where.Conditions()...)
}

// BaseSelectBuilder query builder provides methods to generate SQL SELECT clauses having joined tables source.

// joinIdent generates intermediate IncompleteSelectJoin instance.
// Takes TableIdent to join and TableJoinType constant defining required join type to produce.
// Call IncompleteSelectJoin.On will return updated BaseSelectBuilder with join builder data finished.
func (query SelectManyBuilder) joinIdent(rightTable TableIdent, joinType TableJoinType) IncompleteSelectManyJoiner {
	updated := query
	updated.joins = append(updated.joins, TableJoiner{rightTable: rightTable, joinType: joinType})
	return incompleteManyJoiner{SelectManyBuilder: updated}
}

// Join generates intermediate IncompleteSelectJoin instance.
// Takes TableName to join and TableJoinType constant defining required join type to produce.
// Call IncompleteSelectJoin.On will return updated BaseSelectBuilder with join builder data finished.
func (query SelectManyBuilder) Join(rightTable TableName, joinType TableJoinType) IncompleteSelectManyJoiner {
	return query.joinIdent(Table(rightTable), joinType)
}

// InnerJoin generates intermediate IncompleteSelectJoin instance for InnerJoin type.
// Takes TableName to join.
// Shortcut to Join(rightTable TableName, InnerJoin).
// Call IncompleteSelectJoin.On will return updated BaseSelectBuilder with join builder data finished.
func (query SelectManyBuilder) InnerJoin(rightTable TableName) IncompleteSelectManyJoiner {
	return query.Join(rightTable, InnerJoin)
}

// LeftJoin generates intermediate IncompleteSelectJoin instance for LeftJoin type.
// Takes TableName to join.
// Shortcut to Join(rightTable TableName, LeftJoin).
// Call IncompleteSelectJoin.On will return updated BaseSelectBuilder with join builder data finished.
func (query SelectManyBuilder) LeftJoin(rightTable TableName) IncompleteSelectManyJoiner {
	return query.Join(rightTable, LeftJoin)
}

// RightJoin generates intermediate IncompleteSelectJoin instance for RightJoin type.
// Takes TableName to join.
// Shortcut to Join(rightTable TableName, RightJoin).
// Call IncompleteSelectJoin.On will return updated BaseSelectBuilder with join builder data finished.
func (query SelectManyBuilder) RightJoin(rightTable TableName) IncompleteSelectManyJoiner {
	return query.Join(rightTable, RightJoin)
}

// FullJoin generates intermediate IncompleteSelectJoin instance for FullJoin type.
// Takes TableName to join.
// Shortcut to Join(rightTable TableName, FullJoin).
// Call IncompleteSelectJoin.On will return updated BaseSelectBuilder with join builder data finished.
func (query SelectManyBuilder) FullJoin(rightTable TableName) IncompleteSelectManyJoiner {
	return query.Join(rightTable, FullJoin)
}

// Count creates an CountBuilder using parameters of this SelectManyBuilder.
func (query SelectManyBuilder) Count() CountBuilder {
	return Count(query.BaseSelectBuilder)
}

// SelectManyFromBase makes a new query SelectManyBuilder instance using supplied BaseSelectBuilder.
func SelectManyFromBase(builder BaseSelectBuilder) SelectManyBuilder {
	return SelectManyBuilder{
		BaseSelectBuilder: builder,
		offset:            0,
		limit:             noLimit,
		order:             make([]FieldSorting, 0),
		tableSpec:         false, // table prefix in mustField names is not required unless building JOIN
	}
}

// SelectManyFrom makes a new query SelectManyBuilder instance.
func SelectManyFrom[T TableNameParameter](tableNameProvider T) SelectManyBuilder {
	return SelectManyBuilder{
		BaseSelectBuilder: SelectFrom(tableNameProvider),
		offset:            0,
		limit:             noLimit,
		order:             make([]FieldSorting, 0),
		tableSpec:         false, // table prefix in mustField names is not required unless building JOIN
	}
}
".

(** /repo/select_single.go *)
Definition select_single_go : string := "package query

// SelectSingleBuilder extends BaseSelectBuilder helps to build SQL SELECT queries to receive single row.
type SelectSingleBuilder struct {
	BaseSelectBuilder
}

// RenderFrom renders a table name or list of tables joins to represent SQL clause FROM contents.
func (query SelectSingleBuilder) RenderFrom() string {
	return query.BaseSelectBuilder.RenderFrom()
}

// BuildQueryAndParams generates sql query string with desired parameters set.
// If query generation failed returns empty query and parameters set or non-nil error.
func (query SelectSingleBuilder) BuildQueryAndParams() (sql string, params []interface{}, err error) {
	sql, params, err = query.BaseSelectBuilder.BuildQueryAndParams()
	return sql + "" LIMIT 1"", params, nil
}

// FieldList returns spec list string with their possible aliases to build select query.
func (query SelectSingleBuilder) FieldList() string {
	return query.BaseSelectBuilder.fields.FieldList()
}

// Fields returns a copy of SelectManyBuilder having mustField list to retrieve updated with a list of specified FieldDefinition`s.
// Note all fields should be set one step as Fields call resets mustField added before.
func (query SelectSingleBuilder) Fields(fieldSpecs ...FieldDefinition) (updated SelectSingleBuilder) {
	updated.BaseSelectBuilder = updated.BaseSelectBuilder.Fields(fieldSpecs...)
	return updated
}

// FieldDefinitions returns a copy of attached FieldDefinition list.
func (query SelectSingleBuilder) FieldDefinitions() (res []FieldDefinition) {
	return query.BaseSelectBuilder.FieldDefinitions()
}

// Where adds fields conditions GroupAND returns modified SelectManyBuilder.
// If any conditions are already added, adds new conditions group joined with logical AND.
func (query SelectSingleBuilder) Where(fieldConditions ...Condition) SelectSingleBuilder {
	query.where = query.where.GroupAND(fieldConditions...)
	return query
}

// Update generates table UpdateBuilder.
// Note generated UpdateBuilder will use only base table even if join conditions added to SelectManyBuilder instance.
func (query SelectSingleBuilder) Update(values ...FieldValue) UpdateBuilder {
	return Update(query.BaseSelectBuilder.baseTable).Where(query.where.Conditions()...).Set(values...)
}

// BaseSelectBuilder query builder provides methods to generate SQL SELECT clauses having joined tables source.

// joinIdent generates intermediate IncompleteSelectJoin instance.
// Takes TableIdent to join and TableJoinType constant defining required join type to produce.
// Call IncompleteSelectJoin.On will return updated BaseSelectBuilder with join builder data finished.
func (query SelectSingleBuilder) joinIdent(rightTable TableIdent, joinType TableJoinType) IncompleteSelectSingleJoiner {
	updated := query
	updated.joins = append(updated.joins, TableJoiner{rightTable: rightTable, joinType: joinType})
	return incompleteSingleJoiner{SelectSingleBuilder: updated}
}

// Join generates intermediate IncompleteSelectJoin instance.
// Takes TableName to join and TableJoinType constant defining required join type to produce.
// Call IncompleteSelectJoin.On will return updated BaseSelectBuilder with join builder data finished.
func (query SelectSingleBuilder) Join(rightTable TableName, joinType TableJoinType) IncompleteSelectSingleJoiner {
	return query.joinIdent(Table(rightTable), joinType)
}

// InnerJoin generates intermediate IncompleteSelectJoin instance for InnerJoin type.
// Takes TableName to join.
// Shortcut to Join(rightTable TableName, InnerJoin).
// Call IncompleteSelectJoin.On will return updated BaseSelectBuilder with join builder data finished.
func (query SelectSingleBuilder) InnerJoin(rightTable TableName) IncompleteSelectSingleJoiner {
	return query.Join(rightTable, InnerJoin)
}

// LeftJoin generates intermediate IncompleteSelectJoin instance for LeftJoin type.
// Takes TableName to join.
// Shortcut to Join(rightTable TableName, LeftJoin).
// Call IncompleteSelectJoin.On will return updated BaseSelectBuilder with join builder data finished.
func (query SelectSingleBuilder) LeftJoin(rightTable TableName) IncompleteSelectSingleJoiner {
	return query.Join(rightTable, LeftJoin)
}

// RightJoin generates intermediate IncompleteSelectJoin instance for RightJoin type.
// Takes TableName to join.
// Shortcut to Join(rightTable TableName, RightJoin).
// Call IncompleteSelectJoin.On will return updated BaseSelectBuilder with join builder data finished.
func (query SelectSingleBuilder) RightJoin(rightTable TableName) IncompleteSelectSingleJoiner {
	return query.Join(rightTable, RightJoin)
}

// FullJoin generates intermediate IncompleteSelectJoin instance for FullJoin type.
// Takes TableName to join.
// Shortcut to Join(rightTable TableName, FullJoin).
// Call IncompleteSelectJoin.On will return updated BaseSelectBuilder with join builder data finished.
func (query SelectSingleBuilder) FullJoin(rightTable TableName) IncompleteSelectSingleJoiner {
	return query.Join(rightTable, FullJoin)
}

// SelectSingleFromBase makes a new SelectSingleBuilder instance using supplied BaseSelectBuilder.
func SelectSingleFromBase(builder BaseSelectBuilder) SelectSingleBuilder {
	return SelectSingleBuilder{
		BaseSelectBuilder: builder,
	}
}

// SelectSingleFrom makes a new SelectSingleBuilder instance.
func SelectSingleFrom[T TableNameParameter](tableNameProvider T) SelectSingleBuilder {
	return SelectSingleFromBase(SelectFrom(tableNameProvider))
}
".

(** /repo/table_ident.go *)
Definition table_ident_go : string := "package query

import (
	""fmt""
	""strings""
)

// TableIdent defines data structure to represent table in SQL queries generated in query package.
// It encapsulates table name as well as table alias when it required to use.
// Alias is used only in case it is not empty and stored value is different from stored table name.
// Difference requirement leads to empty values set to alias in constructors or As result if alias equals to name.
// Besides TableName provide and As modifier it also provides a convenient method to generate FieldDefinition items.
// Used both as self-contained item in single-table queries generators and as a part o TableJoiner instances
// when SQL JOIN queries are required.
type TableIdent struct {
	name  string // original table name as known in database, use string here to avoid multiple type conversions
	alias string // table name alias to use in conditions
}

// Constructors are TableOrError and Table.
// See also TableName.Ident method to easily translate TableName`s instances into TableIdent`s.

// TableOrError creates new table identification.
// It can use 2 forms to define not table name or table name with alias:
// 1) identification string with no spaces defines table name with no alias;
// 2) ""<name> as|AS <alias>"" form defines both table name and its alias;
// 3) ""<name> <alias>"" form defines both table name and its alias;
// Returns error if no format matched.
// Use Table constructor if table name fully determined and suits one of formats above.
// Note setting alias to same value as table name gives empty alias.
func TableOrError[T TableNameParameter](name T) (*TableIdent, error) {
	var (
		strTableName string
		tokens       []string
		p            any = name
	)

	switch typed := p.(type) {
	case string:
		strTableName = typed
	case TableName:
		strTableName = string(typed)
	case TableIdent:
		return &typed, nil // do not parse, already TableIdent
	}

	tokens = strings.Fields(strTableName)
	switch {
	case len(tokens) == 1:
		return &TableIdent{name: tokens[0], alias: """"}, nil
	case len(tokens) == 3 && strings.ToUpper(tokens[1]) == ""AS"" && len(tokens[2]) > 0 && tokens[2] != tokens[0]:
		return &TableIdent{name: tokens[0], alias: tokens[2]}, nil
	case len(tokens) == 3 && strings.ToUpper(tokens[1]) == ""AS"" && len(tokens[2]) > 0 && tokens[2] == tokens[0]:
		return &TableIdent{name: tokens[0], alias: """"}, nil
	case len(tokens) == 2 && len(tokens[1]) > 0 && tokens[1] != tokens[0]:
		return &TableIdent{name: tokens[0], alias: tokens[1]}, nil
	default:
		return nil, fmt.Errorf(""%w: unexpected table ident: `%v`"", Error, name)
	}
}

// Table creates new table identification.
// It can use 2 forms to define not table name or table name with alias:
// 1) identification string with no spaces defines table name with no alias;
// 2) ""<name> as|AS <alias>"" form defines both table name and its alias;
// 3) ""<name> <alias>"" form defines both table name and its alias;
// Panics if no format matched.
// Use TableOrError constructor if table name format is not guaranteed to suit one of formats above.
func Table[T TableNameParameter](name T) TableIdent {
	identPtr, err := TableOrError(name)
	if err != nil {
		panic(err)
	}

	return *identPtr
}

// InsertInto generates InsertBuilder instance.
// Optional field values to insert could be set right here.
func (tableIdent TableIdent) InsertInto(insertValues ...FieldValue) InsertBuilder {
	return InsertInto(tableIdent).Values(insertValues...)
}

// Update generates table updater instance.
// Use UpdateBuilder.Where to finalize UpdateBuilder instance configuration before use.
func (tableIdent TableIdent) Update(updateValues ...FieldValue) UpdateBuilder {
	return Update(tableIdent).Set(updateValues...)
}

// Delete generates table updater instance.
// Use DeleteBuilder.Where to finalize DeleteBuilder instance configuration before use.
func (tableIdent TableIdent) Delete(filterConditions ...Condition) DeleteBuilder {
	return Delete(tableIdent).Where(filterConditions...)
}

// Attribute getters are TableName and Alias.

// TableName returns a table name as defined in database.
func (tableIdent TableIdent) TableName() TableName {
	return TableName(tableIdent.name)
}

// Alias returns a table name alias to use in query. Can be empty string.
func (tableIdent TableIdent) Alias() TableName {
	return TableName(tableIdent.alias)
}

// RenderFrom render table identification string to fill SQL FROM clause.
// The result is ""<name>"" or ""<name> AS <alias>"".
// Implements ClauseFromRenderer.
func (tableIdent TableIdent) RenderFrom() string {
	switch {
	case len(tableIdent.alias) > 0 && tableIdent.alias != tableIdent.name:
		return tableIdent.name + "" AS "" + tableIdent.alias
	default:
		return tableIdent.name
	}
}

// As returns a copy of TableIdent having Alias set to specified value, leaving original TableIdent settings intact.
// Note setting alias same as table name will set empty alias, see why in TableIdent structure definition description.
func (tableIdent TableIdent) As(alias TableName) (updated TableIdent) {
	updated = tableIdent
	if string(alias) == updated.name {
		alias = """"
	}
	updated.alias = string(alias)

	return updated
}

// Field generates new FieldDefinition having table name filled&
// If TableIdent alias is not empty it used to fill FieldDefinition table name, otherwise TableIdent.TableName will be used.
// Note TableIdent alias change with As() will not propagate to fields generated before.
func (tableIdent TableIdent) Field(name FieldName) FieldDefinition {
	return Field(name).Of(TableName(tableIdent.aliasOrName()))
}

// aliasOrName returns tableIdent alias if not empty or name if alias is not set.
func (tableIdent TableIdent) aliasOrName() string {
	if len(tableIdent.alias) > 0 {
		return tableIdent.alias
	}

	return tableIdent.name
}

// Select generates BaseSelectBuilder.
// Specified Condition's will be used to filter values.
// Shorthand to SelectFrom((TableIdent)).Where(filterConditions...)
func (tableIdent TableIdent) Select(filterConditions ...Condition) BaseSelectBuilder {
	return SelectFrom(tableIdent).Where(filterConditions...)
}

// SelectOne generates table query helper to fetch single row.
// Specified Condition's will be used to filter values.
// Shorthand to SelectSingleFrom((TableIdent)).Where(filterConditions...)
func (tableIdent TableIdent) SelectOne(filterConditions ...Condition) SelectSingleBuilder {
	return SelectSingleFrom(tableIdent).Where(filterConditions...)
}

// SelectMany generates table query helper to fetch many values.
// Specified Condition's will be used to filter values.
// Shorthand to SelectManyFrom((TableIdent)).Where(filterConditions...)
func (tableIdent TableIdent) SelectMany(filterConditions ...Condition) SelectManyBuilder {
	return SelectManyFrom(tableIdent).Where(filterConditions...)
}

// Count generates CountBuilder builder.
// Specified Condition's will be used to filter values.
func (tableIdent TableIdent) Count(filterConditions ...Condition) CountBuilder {
	return SelectFrom(tableIdent).Where(filterConditions...).Count()
}

// Join generates intermediate IncompleteSelectJoin instance.
// Takes TableName to join and TableJoinType constant defining required join type to produce.
// Takes right table name or ident to join.
// Panics if rightTable is not instance of string, TableName or TableIdent types.
// Call IncompleteSelectJoin.On will return BaseSelectBuilder with join builder data finished.
func (tableIdent TableIdent) Join(rightTable TableIdent, joinType TableJoinType) IncompleteSelectJoin {
	return tableIdent.Select().Join(rightTable, joinType)
}

// InnerJoin generates intermediate IncompleteSelectJoin instance for InnerJoin type.
// Takes right table name or ident to join.
// Panics if rightTable is not instance of string, TableName or TableIdent types.
// Shortcut to Join(rightTable TableName, InnerJoin).
// Call IncompleteSelectJoin.On will return updated BaseSelectBuilder with join builder data finished.
func (tableIdent TableIdent) InnerJoin(rightTable TableIdent) IncompleteSelectJoin {
	return tableIdent.Join(rightTable, InnerJoin)
}

// LeftJoin generates intermediate IncompleteSelectJoin instance for LeftJoin type.
// Takes right table name or ident to join.
// Panics if rightTable is not instance of string, TableName or TableIdent types.
// Shortcut to Join(rightTable TableName, LeftJoin).
// Call IncompleteSelectJoin.On will return updated BaseSelectBuilder with join builder data finished.
func (tableIdent TableIdent) LeftJoin(rightTable TableIdent) IncompleteSelectJoin {
	return tableIdent.Join(rightTable, LeftJoin)
}

// RightJoin generates intermediate IncompleteSelectJoin instance for RightJoin type.
// Takes right table name or ident to join.
// Panics if rightTable is not instance of string, TableName or TableIdent types.
// Shortcut to Join(rightTable TableName, RightJoin).
// Call IncompleteSelectJoin.On will return updated BaseSelectBuilder with join builder data finished.
func (tableIdent TableIdent) RightJoin(rightTable TableIdent) IncompleteSelectJoin {
	return tableIdent.Join(rightTable, RightJoin)
}

// FullJoin generates intermediate IncompleteSelectJoin instance for FullJoin type.
// Takes right table name or ident to join.
// Panics if rightTable is not instance of string, TableName or TableIdent types.
// Shortcut to Join(rightTable TableName, FullJoin).
// Call IncompleteSelectJoin.On will return updated BaseSelectBuilder with join builder data finished.
func (tableIdent TableIdent) FullJoin(rightTable TableIdent) IncompleteSelectJoin {
	return tableIdent.Join(rightTable, FullJoin)
}
".

(** /repo/table_name.go *)
Definition table_name_go : string := "package query

// TableName wraps string to identify table names.
type TableName string

// String returns table name as string.
func (tableName TableName) String() string {
	return string(tableName)
}

// InsertInto generates table inserter instance.
func (tableName TableName) InsertInto(insertValues ...FieldValue) InsertBuilder {
	return InsertInto(tableName).Values(insertValues...)
}

// Update generates UpdateBuilder instance.
// Use UpdateBuilder.Where to finalize UpdateBuilder instance configuration before use.
func (tableName TableName) Update(updateValues ...FieldValue) UpdateBuilder {
	return Update(tableName).Set(updateValues...)
}

// Delete generates DeleteBuilder instance.
// Use DeleteBuilder.Where to finalize DeleteBuilder instance configuration before use.
func (tableName TableName) Delete(filterConditions ...Condition) DeleteBuilder {
	return Delete(tableName).Where(filterConditions...)
}

// Ident generates a TableIdent instance from a TableName.
// See also TableOrError and Table constructors.
func (tableName TableName) Ident() TableIdent {
	return Table(tableName)
}

// Field generates a FieldDefinition instance having TableName set.
// It's a shorthand for Field(fieldName).Of(baseTable).
func (tableName TableName) Field(fieldName FieldName) FieldDefinition {
	return Field(fieldName).Of(tableName)
}

// RenderFrom returns TableName string value. Implements ClauseFromRenderer.
// Returns a string like ""<tableName>"".
func (tableName TableName) RenderFrom() string {
	return string(tableName)
}

// Select generates BaseSelectBuilder helper.
// Condition's will be used to filter values if specified.
// To get SelectSingleBuilder or SelectManyBuilder directly use SelectSingleFrom or SelectManyFrom instead.
func (tableName TableName) Select(filterConditions ...Condition) BaseSelectBuilder {
	return SelectFrom(tableName).Where(filterConditions...)
}

// SelectOne generates table query helper to fetch single value.
// Condition's will be used to filter values if specified.
// Shorthand to SelectSingleFrom((TableName)).Where(filterConditions...).
func (tableName TableName) SelectOne(filterConditions ...Condition) SelectSingleBuilder {
	return SelectSingleFrom(tableName).Where(filterConditions...)
}

// SelectMany generates SelectManyBuilder query helper to fetch many values at once.
// Condition's will be used to filter values if specified.
// Shorthand to SelectManyFrom((TableName)).Where(filterConditions...)
func (tableName TableName) SelectMany(filterConditions ...Condition) SelectManyBuilder {
	return SelectManyFrom(tableName).Where(filterConditions...)
}

// Join generates intermediate IncompleteSelectJoin instance.
// Takes TableName to join and TableJoinType constant defining required join type to produce.
// Takes right table name or ident to join.
// Panics if rightTable is not instance of string, TableName or TableIdent types.
// Call IncompleteSelectJoin.On will return BaseSelectBuilder with join builder data finished.
func (tableName TableName) Join(rightTable TableIdent, joinType TableJoinType) IncompleteSelectJoin {
	return tableName.Select().Join(rightTable, joinType)
}

// InnerJoin generates intermediate IncompleteSelectJoin instance for InnerJoin type.
// Takes right table name or ident to join.
// Panics if rightTable is not instance of string, TableName or TableIdent types.
// Shortcut to Join(rightTable TableName, InnerJoin).
// Call IncompleteSelectJoin.On will return updated BaseSelectBuilder with join builder data finished.
func (tableName TableName) InnerJoin(rightTable TableIdent) IncompleteSelectJoin {
	return tableName.Join(rightTable, InnerJoin)
}

// LeftJoin generates intermediate IncompleteSelectJoin instance for LeftJoin type.
// Takes right table name or ident to join.
// Panics if rightTable is not instance of string, TableName or TableIdent types.
// Shortcut to Join(rightTable TableName, LeftJoin).
// Call IncompleteSelectJoin.On will return updated BaseSelectBuilder with join builder data finished.
func (tableName TableName) LeftJoin(rightTable TableIdent) IncompleteSelectJoin {
	return tableName.Join(rightTable, LeftJoin)
}

// RightJoin generates intermediate IncompleteSelectJoin instance for RightJoin type.
// Takes right table name or ident to join.
// Panics if rightTable is not instance of string, TableName or TableIdent types.
// Shortcut to Join(rightTable TableName, RightJoin).
// Call IncompleteSelectJoin.On will return updated BaseSelectBuilder with join builder data finished.
func (tableName TableName) RightJoin(rightTable TableIdent) IncompleteSelectJoin {
	return tableName.Join(rightTable, RightJoin)
}

// FullJoin generates intermediate IncompleteSelectJoin instance for FullJoin type.
// Takes right table name or ident to join.
// Panics if rightTable is not instance of string, TableName or TableIdent types.
// Shortcut to Join(rightTable TableName, FullJoin).
// Call IncompleteSelectJoin.On will return updated BaseSelectBuilder with join builder data finished.
func (tableName TableName) FullJoin(rightTable TableIdent) IncompleteSelectJoin {
	return tableName.Join(rightTable, FullJoin)
}

// // Count generates table rows count query builder.
// // Specified Condition's will be used to filter values.
// func (baseTable TableName) Count(filterConditions ...Condition) CountBuilder {
// 	return SelectManyFrom(baseTable, nil).Where(filterConditions...).Count()
// }
".

(** /repo/update.go *)
Definition update_go : string := "package query

import (
	""fmt""
	""strconv""
	""strings""
)

// UpdateBuilder helps to build SQL UPDATE queries.
type UpdateBuilder struct {
	BaseBuilder
	tableName TableName
	where     Group
	setValues []FieldValue
}

// RenderFrom returns string representation of table name or tables join with possible tables aliases.
func (updater UpdateBuilder) RenderFrom() string {
	return updater.tableName.RenderFrom()
}

// SetValues returns a copy of fields to update.
func (updater UpdateBuilder) SetValues() []FieldValue {
	return updater.setValues
}

// Set generates new UpdateBuilder having extended fields to update array.
// Can be called multiple times to set as many field values as required.
func (updater UpdateBuilder) Set(values ...FieldValue) UpdateBuilder {
	updater.setValues = append(updater.setValues, values...)
	return updater
}

// Where adds fields conditions GroupAND returns modified UpdateBuilder.
func (updater UpdateBuilder) Where(fieldConditions ...Condition) UpdateBuilder {
	updater.where = updater.where.GroupAND(fieldConditions...)
	return updater
}

func (updater UpdateBuilder) fieldsAndValues() (sql string, params []any) {
	kwPairs := make([]string, len(updater.setValues))
	params = make([]any, len(updater.setValues))

	for idx, fieldValue := range updater.setValues {
		params[idx] = fieldValue.Values()[0]
		kwPairs[idx] = fieldValue.fieldName + ""=$"" + strconv.Itoa(idx+1)
	}

	return strings.Join(kwPairs, "", ""), params
}

// BuildQueryAndParams returns query string and params to fill in SQL UPDATE query string.
// If query build failed returns non-nil error.
func (updater UpdateBuilder) BuildQueryAndParams() (sql string, params []interface{}, err error) {
	var fieldsEnum string

	// disallow some cases
	switch {
	case len(updater.where.conditions) == 0:
		return """", params, fmt.Errorf(""%w: empty conditions, will not update every record"", Error)
	case len(updater.setValues) == 0:
		return """", params, fmt.Errorf(""%w: no fields to update set"", Error)
	case len(updater.tableName) == 0:
		return """", params, fmt.Errorf(""%w: no table name set"", Error)
	}

	fieldsEnum, params = updater.fieldsAndValues()
	sql = strings.Join([]string{
		kwUpdate.String(),
		updater.tableName.String(),
		kwSet.String(),
		fieldsEnum,
		kwWhere.String(),
		updater.where.Render(len(params)),
	}, "" "")

	params = append(params, updater.where.Values()...)

	return sql, params, nil
}

// TableName returns table name to update.
func (updater UpdateBuilder) TableName() TableName {
	return updater.tableName
}

// Update generates table updater using predefined table helper.
// Takes table name (of string, TableName or TableIdent types).
// Use UpdateBuilder.Where and UpdateBuilder.Set to finalize UpdateBuilder configuration.
func Update[T TableNameParameter](tableNameProvider T) UpdateBuilder {
	var (
		p         any = tableNameProvider
		tableName TableName
	)

	switch typedValue := p.(type) {
	case string:
		tableName = TableName(typedValue)
	case TableName:
		tableName = typedValue
	case TableIdent:
		tableName = typedValue.TableName()
	}

	return UpdateBuilder{
		BaseBuilder: BaseBuilder{op: DoUpdate},
		tableName:   tableName,
		where:       NewGroup(LogicalAND),
		setValues:   make([]FieldValue, 0),
	}
}
".

(** /repo/utils.go *)
Definition utils_go : string := "package query

// UniqFieldNames returns unique FieldName set from supplied FieldName slice.
func UniqFieldNames(a []FieldName) []FieldName {
	answer := make([]FieldName, 0, len(a))
	for _, str := range a {
		found := false
		for j := 0; j < len(answer); j++ {
			if answer[j] == str {
				found = true
				break
			}
		}
		if !found {
			answer = append(answer, str)
		}
	}
	return answer
}
".

(** /repo/value.go *)
Definition value_go : string := "package query

import (
	""database/sql/driver""
	""fmt""
	""reflect""
)

// FieldValue joins field name with its value. Used both for conditions build and for update tables clause generation.
type FieldValue struct {
	FieldDefinition
	value interface{} // untyped field value. Used to provide value into database.
}

// ApplyFieldTable makes a copy of FieldValue with updated FieldDefinition table name.
// Implements Condition.
func (fieldValue FieldValue) ApplyFieldTable(table TableName) FieldValue {
	fieldValue.FieldDefinition.tableName = string(table)
	return fieldValue
}

// ApplyFieldSpec makes a copy of FieldValue with updated FieldDefinition on when mustField name matched.
// If field name is not matched it simply returns a copy of original FieldValue.
func (fieldValue FieldValue) ApplyFieldSpec(spec FieldDefinition) FieldValue {
	if fieldValue.FieldDefinition.fieldName == spec.fieldName {
		fieldValue.FieldDefinition = spec
	}

	return fieldValue
}

// Values returns a slice of interface{} containing single field value.
func (fieldValue FieldValue) Values() (result []interface{}) {
	var err error

	switch typedValue := fieldValue.value.(type) {
	case driver.Valuer:
		singleValue, _ := typedValue.Value()
		return []any{singleValue}
	case []driver.Valuer:
		result = make([]any, len(typedValue))

		for idx, value := range typedValue {
			singleValue, _ := value.Value()
			result[idx] = singleValue
		}

		return result
	case ValueProvider:
		return []any{typedValue.DatabaseValue()}
	case []ValueProvider:
		result = make([]any, len(typedValue))

		for idx, value := range typedValue {
			result[idx] = value.DatabaseValue()
		}

		return result
	case []string:
		result = make([]any, len(typedValue))

		for idx, value := range typedValue {
			result[idx] = value
		}

		return result
	}

	// no known types is found, check if array of elements implemented driver.Valuer received,
	// and translate using driver.Valuer when possible.
	valueReflection := reflect.ValueOf(fieldValue.value)

	if valueReflection.Kind() == reflect.Slice {
		valuerType := reflect.TypeOf((*driver.Valuer)(nil)).Elem()
		sliceType := valueReflection.Type()
		elementsReflection := sliceType.Elem()
		if elementsReflection.Implements(valuerType) {
			res := make([]any, valueReflection.Len())
			for idx := 0; idx < len(res); idx++ {
				elem := valueReflection.Index(idx)
				rawElem := elem.Interface()
				valuer := rawElem.(driver.Valuer)
				if valuer == nil {
					res[idx] = nil
				} else {
					if res[idx], err = valuer.Value(); err != nil {
						panic(fmt.Errorf(""%w: translate value %v(%T): %v"", Error, rawElem, rawElem, err))
					}
				}
			}

			return res
		}
	}
	return []any{fieldValue.value}
}

// NewFieldValue creates new FieldValue having specified field name and value.
func NewFieldValue(fieldName FieldName, fieldValue interface{}) *FieldValue {
	return &FieldValue{
		FieldDefinition: Field(fieldName),
		value:           fieldValue,
	}
}
".

(** /repo/values_map.go *)
Definition values_map_go : string := "package query

import (
	""errors""
	""fmt""
)

// ValuesMap allows to define FieldValue set in mapping style.
type ValuesMap map[string]any

// FieldValues represents ValuesMap as FieldValues.
// If table name points to valid field name, it will be used as FieldValue field definition table.
// Returns non-nil error if any key is not valid field name.
// Note table spec is not applied to elements, its up to caller to adopt values when required.
func (valuesMap ValuesMap) FieldValues() ([]FieldValue, error) {
	res := make([]FieldValue, len(valuesMap))
	idx := 0
	for k, v := range valuesMap {
		fieldName := FieldName(k)
		if err := fieldName.Validate(); err != nil {
			return nil, errors.Join(fmt.Errorf(""%w: invalid field name `%v`"", Error, k), err)
		}
		res[idx] = *NewFieldValue(fieldName, v)

		idx++
	}

	return res, nil
}
".

(** /repo/where.go *)
Definition where_go : string := "package query

// WhereClause wraps conditions Group to handle conditions as whole WHERE clause block.
type WhereClause struct {
	group Group
}

// GroupAND adds a new condition group into current.
// Specified conditions joined into group with logical AND.
// Existed conditions are joined into group too.
// Both groups joined with logical AND operator.
// Returns updated WhereClause containing required condition set, leaving original WhereClause instance intact.
func (query WhereClause) GroupAND(conditions ...Condition) (updated WhereClause) {
	updated = query
	updated.group = updated.group.GroupAND(conditions...)
	return updated
}

// GroupOR creates a new conditions group in where clause.
// Specified conditions joined into group with logical AND.
// Existed conditions are joined into group too.
// Both groups joined with logical OR operator.
// Returns new WhereClause containing required condition set, leaving original WhereClause instance intact.
func (query WhereClause) GroupOR(conditions ...Condition) (updated WhereClause) {
	updated = query
	updated.group = updated.group.GroupOR(conditions...)
	return updated
}

// ApplyFieldSpec makes a copy of WhereClause with updated FieldDefinition on each child when field name matched.
// Implements Condition.
func (query WhereClause) ApplyFieldSpec(spec FieldDefinition) (updated WhereClause) {
	updated = query
	updated.group = updated.group.ApplyFieldSpec(spec).(Group)
	return updated
}

// Conditions returns a copy of attached conditions list.
func (query WhereClause) Conditions() (conditions []Condition) {
	conditions = make([]Condition, len(query.group.conditions))
	copy(conditions, query.group.conditions)

	return conditions
}

// Render renders SQL SELECT clause part for current group.
// Takes existed parameters number (0 means no parameters are defined yet)
// Note Render renders group without brackets itself if called directly.
// Any child conditions groups are enclosed into brackets internally.
func (query WhereClause) Render(parametersCount int) (sql string) {
	return query.group.Render(parametersCount)
}

// RenderSQL renders SQL clause or its part.
// Implementation should render parameters substitutions using standard sql ""?""(question) character.
// Values result should contain the same values count as substitutions used in clause.
func (query WhereClause) RenderSQL() (sql string) {
	return query.group.RenderSQL()
}

// Values returns a set of values of grouped conditions.
func (query WhereClause) Values() (values []interface{}) {
	return query.group.Values()
}

// String returns a string representation of WhereClause.
func (query WhereClause) String() string {
	return ""Where("" + query.group.RenderSQL() + "")""
}

// NewWhere creates new empty WhereClause instance.
func NewWhere() WhereClause {
	return WhereClause{group: NewGroup(LogicalAND)}
}
".

Definition files : list (string * string) := [
  ("base.go", base_go);
  ("build_base.go", build_base_go);
  ("count.go", count_go);
  ("delete.go", delete_go);
  ("field_definition.go", field_definition_go);
  ("field_name.go", field_name_go);
  ("fields.go", fields_go);
  ("group.go", group_go);
  ("insert.go", insert_go);
  ("interfaces.go", interfaces_go);
  ("join_condition.go", join_condition_go);
  ("join_tables.go", join_tables_go);
  ("join_type.go", join_type_go);
  ("join_unfinished.go", join_unfinished_go);
  ("keywords.go", keywords_go);
  ("lib_equal.go", lib_equal_go);
  ("lib_gt.go", lib_gt_go);
  ("lib_gte.go", lib_gte_go);
  ("lib_ilike.go", lib_ilike_go);
  ("lib_in.go", lib_in_go);
  ("lib_isnull.go", lib_isnull_go);
  ("lib_like.go", lib_like_go);
  ("lib_lt.go", lib_lt_go);
  ("lib_lte.go", lib_lte_go);
  ("limiter.go", limiter_go);
  ("logical.go", logical_go);
  ("op_type.go", op_type_go);
  ("operations.go", operations_go);
  ("ordering.go", ordering_go);
  ("select_base.go", select_base_go);
  ("select_many.go", select_many_go);
  ("select_single.go", select_single_go);
  ("table_ident.go", table_ident_go);
  ("table_name.go", table_name_go);
  ("update.go", update_go);
  ("utils.go", utils_go);
  ("value.go", value_go);
  ("values_map.go", values_map_go);
  ("where.go", where_go)].
