*.vo
*.vos
*.vok
*.glob
*.aux
.*.aux
.*.cache
*.d
rocq/Makefile
rocq/Makefile.conf
