rocq/Makefile
rocq/Makefile.conf
rocq/.Makefile.d
rocq/.*.d
*.vo
*.vok
*.vos
*.glob
*.aux
.*.aux
.lia.cache
.nia.cache
